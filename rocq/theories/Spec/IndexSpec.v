(* Vocabulary for houses described by U_A and eta_A. *)
From Coq Require Import Reals ZArith List.
From Verif Require Import Model.Py Model.FactorH Model.FactorNu Model.FactorF Model.EesHouse Model.PartSpec Spec.EnvelopeSpec.
Import ListNotations.
Local Open Scope R_scope.

(* the part type whose value a general part has *)
Definition value_of (t : gp_type) : part_type :=
  match t with
  | ROOF => PRoof | CEILING => PCeiling | WALL => PWall | FLOOR => PFloor | BOUNDARY_WALL => PBoundaryWall
  | UPWARD_BOUNDARY_FLOOR => PBoundaryCeiling | DOWNWARD_BOUNDARY_FLOOR => PBoundaryFloor
  end.

(* heat loss of a house whose parts of type p have the U (psi) value u p *)
Definition loss_with (u : part_type -> R) (region : Z) (h : parts_ns) (q : R) : Prop :=
  exists g w d e,
  Forall2 (fun x q => exists k, get_h (e_next_space (gp_env x)) region = Ok k /\ q = e_area (gp_env x) * u (value_of (gp_kind x)) * k) (n_gps h) g /\
  Forall2 (fun x q => exists k, get_h (e_next_space (w_env x)) region = Ok k /\ q = e_area (w_env x) * u PWindow * k) (n_ws h) w /\
  Forall2 (fun x q => exists k, get_h (e_next_space (d_env x)) region = Ok k /\ q = e_area (d_env x) * u PDoor * k) (n_ds h) d /\
  Forall2 (fun x q => exists k, get_h (ep_next_space x) region = Ok k /\ q = ep_length x * u PPerimeter * k) (n_eps h) e /\
  q = sum g + sum w + sum d + sum e.

(* nothing has negative area or length *)
Definition nonneg_house (h : parts_ns) : Prop :=
  (forall x, In x (n_gps h) -> 0 <= e_area (gp_env x)) /\ (forall x, In x (n_ws h) -> 0 <= e_area (w_env x)) /\
  (forall x, In x (n_ds h) -> 0 <= e_area (d_env x)) /\ (forall x, In x (n_eps h) -> 0 <= ep_length x).

(* envelope area *)
Definition house_area (h : parts_ns) : R :=
  sum (map (fun g => e_area (gp_env g)) (n_gps h)) + sum (map (fun w => e_area (w_env w)) (n_ws h)) +
  sum (map (fun d => e_area (d_env d)) (n_ds h)) + sum (map ec_area (n_ecs h)).

(* no sunshade is described for walls and doors facing outdoor *)
Definition no_opaque_shade (h : parts_ns) : Prop :=
  (forall x, In x (n_gps h) -> e_next_space (gp_env x) = OUTDOOR -> gp_shade x = OpNotInput) /\
  (forall x, In x (n_ds h) -> e_next_space (d_env x) = OUTDOOR -> d_shade x = OpNotInput).

(* solar gain (W per W/m2) if all windows had eta_d = 1 *)
Definition window_gain (region : Z) (s : season) (h : parts_ns) (m : R) : Prop :=
  exists l, m = sum l /\ Forall2 (fun w x => exists f nu, get_f (w_shade w) region s (e_direction (w_env w)) = Ok f /\
    env_nu (w_env w) region s = Ok nu /\ x = e_area (w_env w) * f * nu) (n_ws h) l.

(* directions for which there are solar gain tables *)
Definition tabled (d : direction) : Prop := match d with DUpward | DHorizontal | DDownward => False | _ => True end.

(* windows without described sunshade, or with the depth of an overhang and the heights below it *)
Definition usable_shade (w : window_ns) : Prop :=
  match w_shade w with
  | TrNotInput => True
  | TrSimple depth d_h d_e => 0 < depth /\ 0 <= d_h /\ 0 <= d_e /\ tabled (e_direction (w_env w))
  | _ => False
  end.

(* a house that can be described by indices: no floors to neighbouring dwellings, tabled directions, usable sunshades,
   at least one window that receives sun *)
Definition describable (h : parts_ns) : Prop :=
  (forall g, In g (n_gps h) -> gp_kind g <> UPWARD_BOUNDARY_FLOOR /\ gp_kind g <> DOWNWARD_BOUNDARY_FLOOR) /\
  (forall g, In g (n_gps h) -> e_next_space (gp_env g) = OUTDOOR -> tabled (e_direction (gp_env g))) /\
  (forall d, In d (n_ds h) -> e_next_space (d_env d) = OUTDOOR -> tabled (e_direction (d_env d))) /\
  (forall w, In w (n_ws h) -> usable_shade w /\ (e_next_space (w_env w) = OUTDOOR -> tabled (e_direction (w_env w)))) /\
  (exists w, In w (n_ws h) /\ 0 < e_area (w_env w) /\ e_next_space (w_env w) = OUTDOOR /\ e_direction (w_env w) <> DBottom).
