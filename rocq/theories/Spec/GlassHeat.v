(* Heat in a glazing, without reference to the formulas of the program. *)
From Coq Require Import Reals List.
From Verif Require Import Model.GlassBalance.
Local Open Scope R_scope.

(* a gas of which no part is negative; a gap with a thickness; a pane of layers with thickness and conductivity *)
Definition real_gap (l : air_layer) : Prop :=
  0 <= c_air (al_air l) /\ 0 <= c_argon (al_air l) /\ 0 <= c_sf6 (al_air l) /\ 0 <= c_krypton (al_air l) /\
  c_air (al_air l) + c_argon (al_air l) + c_sf6 (al_air l) + c_krypton (al_air l) = 100 /\ 0 < al_s l.
Definition real_surface (s : surface) : Prop := match s with NonLowE => True | LowE e => 3 / 100 <= e < 89 / 100 end.
Definition real_layer (l : glass_layer) : Prop :=
  gl_units l <> nil /\ (forall u, In u (gl_units l) -> 0 < gu_d u /\ 0 < gu_lmd u) /\
  real_surface (gl_sff l) /\ real_surface (gl_sfb l).
Definition real_glass (g : glass) : Prop :=
  real_layer (g_first g) /\ forall al gl, In (al, gl) (g_more g) -> real_gap al /\ real_layer gl.

(* the heat that leaves the glazing through the last resistance into the room, and through the first one outwards *)
Definition heat_in (theta reg : list R) (theta_i : R) : R := (last theta 0 - theta_i) / last reg 0.
Definition heat_out (theta reg : list R) (theta_e : R) : R := (hd 0 theta - theta_e) / hd 0 reg.

Definition total (l : list R) : R := fold_right Rplus 0 l.

(* the emissivity of a surface, from the specification of the standard only as a number *)
Definition has_eps (s : surface) (e : R) : Prop := eps s = Model.Py.Ok e.

(* the resistance of a pane: layers in series *)
Definition pane_resistance (l : glass_layer) : R := total (map (fun u => gu_d u / gu_lmd u) (gl_units l)).

(* the same glazing with other coatings and panes: each surface of the second emits no more than that of the first, and no
   pane of it has less resistance *)
Definition coated (a b : glass_layer) : Prop :=
  pane_resistance a <= pane_resistance b /\
  (forall e e', has_eps (gl_sff a) e -> has_eps (gl_sff b) e' -> e' <= e) /\
  (forall e e', has_eps (gl_sfb a) e -> has_eps (gl_sfb b) e' -> e' <= e).
Definition better_coated (g h : glass) : Prop :=
  coated (g_first g) (g_first h) /\
  Forall2 (fun x y => fst x = fst y /\ coated (snd x) (snd y)) (g_more g) (g_more h).
