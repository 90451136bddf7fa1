(* Vocabulary for inner floors, inner walls and the generated rooms. *)
From Coq Require Import Reals List String Bool.
From Verif Require Import Model.Py Model.FactorNu Model.EesHouse Model.Lv4 Spec.EnvelopeSpec.
Import ListNotations.
Local Open Scope R_scope.

(* floor area of a room (inner floors whose upper side is the room) and over a space *)
Definition floors_of (room : string) (l : list inner_floor) : R := sum (map if_area (filter (fun f => (if_upper f =? room)%string) l)).
Definition floors_over (space : string) (l : list inner_floor) : R := sum (map if_area (filter (fun f => (if_lower f =? space)%string) l)).

(* inner wall area adjoining a room *)
Definition walls_of (room : string) (l : list inner_wall) : R :=
  sum (map iw_area (filter (fun w => (iw_space_1 w =? room)%string || (iw_space_2 w =? room)%string) l)).

Definition room_name (s : space_type) : string :=
  match s with MAIN => "main_occupant_room" | OTHER => "other_occupant_room" | NON => "non_occupant_room" | UNDERFLOOR => "underfloor" | UNDEFINED => "undefined" end.

(* floor areas of the three rooms in a house of a_a m2 *)
Definition room_floor (a_mr a_or a_a : R) (s : space_type) : R :=
  match s with MAIN => a_mr | OTHER => a_or | NON => a_a - a_mr - a_or | _ => 0 end.

(* area of the envelope parts of a room that face down (sideways) *)
Definition facing_down (s : space_type) (ss : list envelope) : R :=
  sum (map e_area (filter (fun e => space_eqb (e_space_type e) s && match e_direction e with DBottom | DDownward => true | _ => false end) ss)).
Definition facing_sideways (s : space_type) (ss : list envelope) : R :=
  sum (map e_area (filter (fun e => space_eqb (e_space_type e) s &&
    match e_direction e with DN | DNE | DE | DSE | DS | DSW | DW | DNW | DHorizontal => true | _ => false end) ss)).
Definition earth_floor (s : space_type) (ecs : list center) : R :=
  sum (map (fun c => ec_area (ec_ns c)) (filter (fun c => (ec_space_type (ec_ns c) =? room_name s)%string) ecs)).

(* the floor of a room that is not envelope and not earth floor; the wall of a room that is not envelope *)
Definition inner_floor_need (a_mr a_or a_a : R) (ss : list envelope) (ecs : list center) (s : space_type) : R :=
  Rmax 0 (room_floor a_mr a_or a_a s - facing_down s ss - earth_floor s ecs).
Definition wall_factor (s : space_type) : R := match s with MAIN => 12 / 10 | _ => 14 / 10 end.
Definition inner_wall_need (a_mr a_or a_a : R) (ss : list envelope) (s : space_type) : R :=
  Rmax 0 (4 * wall_factor s * (28 / 10) * sqrt (room_floor a_mr a_or a_a s) - facing_sideways s ss).

Definition nonneg_parts (ss : list envelope) (ecs : list center) : Prop :=
  (forall e, In e ss -> 0 <= e_area e) /\ (forall c, In c ecs -> 0 <= ec_area (ec_ns c)).

(* the rooms that were made *)
Definition present (r : lv4_room * option lv4_room * option lv4_room * option lv4_room) : list lv4_room :=
  let '(a, b, c, d) := r in
  a :: match b with Some x => [x] | None => [] end ++ match c with Some x => [x] | None => [] end ++ match d with Some x => [x] | None => [] end.
