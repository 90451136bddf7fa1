(* What the initializer needs to accept a boundary *)
From Coq Require Import Reals ZArith List String Bool.
From Verif Require Import Model.Py Model.JsonValue Model.FactorH Model.FactorNu Model.FactorF Model.EesHouse.
From Verif Require Model.BoundarySimple.
Import ListNotations.
Local Open Scope string_scope.

(* a dictionary with further entries *)
Definition with_entries (more : list (string * value)) (v : value) : value := match v with VDict d => VDict (d ++ more) | _ => v end.

(* the entries the converter leaves out *)
Definition missing (id : Z) (floor : bool) (h_c : R) : list (string * value) := [("id", VInt id); ("is_floor", VBool floor); ("h_c", VNum h_c)].
Definition missing_window (id : Z) (floor : bool) (h_c : R) (room : Z) (eta : R) : list (string * value) :=
  ("connected_room_id", VInt room) :: ("eta_value", VNum eta) :: missing id floor h_c.

(* the ten directions of the initializer *)
Definition known_direction (d : direction) : Prop := d <> DUpward /\ d <> DHorizontal /\ d <> DDownward.

(* number of the room *)
Definition room_of (s : space_type) : option Z :=
  match s with MAIN => Some 0%Z | OTHER => Some 1%Z | NON => Some 2%Z | UNDERFLOOR => Some 3%Z | UNDEFINED => None end.

(* an outdoor part needs a known direction and a sunshade the initializer can handle *)
Definition fit_opaque (e : envelope) (s : opaque_shade) : Prop :=
  e_next_space e = OUTDOOR -> known_direction (e_direction e) /\ match s with OpInput _ => False | _ => True end.
Definition fit_window (e : envelope) (s : window_shade) (g : glass_type) : Prop :=
  e_next_space e = OUTDOOR -> known_direction (e_direction e) /\ g = SINGLE /\
    match s with TrSimple _ d_h _ => d_h <> 0%R | TrNotDefined | TrNotExist => True | TrNotInput | TrDetail _ => False end.

(* the sun reaches the outside of outdoor parts only *)
Definition sunlit (e : envelope) : bool := match e_next_space e with OUTDOOR => true | _ => false end.
Definition floor_kind (t : gp_type) : bool := match t with FLOOR | DOWNWARD_BOUNDARY_FLOOR => true | _ => false end.

(* what the initializer takes over from a boundary *)
Definition taken (bs : BoundarySimple.bsimple) (id : Z) (name : string) (room : Z) (t : BoundarySimple.btype) (area h_td : R) (floor absorbed sunlit : bool) (r_i h_c : R) : Prop :=
  BoundarySimple.bs_id bs = id /\ BoundarySimple.bs_name bs = name /\ BoundarySimple.bs_connected_room_id bs = room /\ BoundarySimple.bs_type bs = t /\
  BoundarySimple.bs_area bs = area /\ BoundarySimple.bs_h_td bs = h_td /\ BoundarySimple.bs_is_floor bs = floor /\
  BoundarySimple.bs_is_solar_absorbed_inside bs = absorbed /\ BoundarySimple.bs_is_sun_striked_outside bs = Some sunlit /\
  BoundarySimple.bs_h_i bs = (1 / r_i)%R /\ BoundarySimple.bs_h_c bs = h_c.
