(* Specification: windows under shades. *)
From Coq Require Import Reals ZArith List.
From Verif Require Import Model.Py Model.FactorNu Model.FactorF Model.EesHouse.
Local Open Scope R_scope.

(* a vertical face, one of the eight points of the compass *)
Definition compass (d : direction) : Prop := match d with DN | DNE | DE | DSE | DS | DSW | DW | DNW => True | _ => False end.

(* the season exists in the region *)
Definition season_of (region : Z) (s : season) : Prop := s = Cooling \/ region <> 8%Z.

(* the same window under a shade that is at least as deep, at most as far above the window, over a window at most as high *)
Definition deeper (w w' : window) : Prop :=
  w_spec w' = w_spec w /\ w_env (w_ns w') = w_env (w_ns w) /\
  (w_shade (w_ns w') = w_shade (w_ns w) \/
   exists depth d_h d_e depth' d_h' d_e', w_shade (w_ns w) = TrSimple depth d_h d_e /\ w_shade (w_ns w') = TrSimple depth' d_h' d_e' /\
     0 < depth <= depth' /\ 0 <= d_h' <= d_h /\ 0 <= d_e' <= d_e).

(* nonnegative area and solar gain coefficients *)
Definition window_data (w : window) : Prop := 0 <= w_area w /\ 0 <= ws_eta_d_h (w_spec w) /\ 0 <= ws_eta_d_c (w_spec w).
