(* Vocabulary for the properties of the initializer. *)
From Coq Require Import Reals List String ZArith.
From Verif Require Import Model.BoundarySimple Model.HouseDict.
Import ListNotations.
Local Open Scope R_scope.

Definition total (l : list R) : R := fold_right Rplus 0 l.

(* sum of numbers that may be undefined *)
Fixpoint adds_up_to (l : list (option R)) (x : R) : Prop :=
  match l with
  | [] => x = 0
  | None :: _ => False
  | Some a :: r => exists y, adds_up_to r y /\ x = a + y
  end.

(* rounding to the nearest tenth, ties either way *)
Definition to_nearest_tenth (round1 : R -> R) : Prop :=
  forall x, exists z : Z, round1 x = IZR z / 10 /\ Rabs (x - IZR z / 10) <= 1 / 20.

Definition room_types : list string := ["main_occupant_room"; "other_occupant_room"; "non_occupant_room"; "underfloor"]%string.

(* ids 0, 1, 2, ...; only the four types; the main room exactly once, every type at most once *)
Definition valid_rooms (ids : list Z) (types : list string) : Prop :=
  ids = map Z.of_nat (seq 0 (List.length ids)) /\
  (forall t, In t types -> In t room_types) /\
  count_occ string_dec types "main_occupant_room"%string = 1%nat /\
  (forall t, In t room_types -> (count_occ string_dec types t <= 1)%nat).

Definition given {A} (o : option A) : Prop := exists a, o = Some a.

Definition complete_equipment (e : equip_in) : Prop :=
  e_type e = Some "not_installed"%string \/
  (e_type e = Some "convective"%string /\
     exists c, e_convective e = Some c /\ given (ci_q_min c) /\ given (ci_q_max c) /\ given (ci_v_min c) /\ given (ci_v_max c)) \/
  (e_type e = Some "radiative"%string /\ exists r, e_radiative e = Some r /\ given (ri_max_capacity r) /\ given (ri_area r)).

(* every entry is there, and air comes only from rooms of the house *)
Definition complete_room (n : nat) (r : room_in) : Prop :=
  given (r_id r) /\ given (r_name r) /\ given (r_room_type r) /\ given (r_volume r) /\ given (r_vent r) /\ given (r_natural_vent_time r) /\
  (exists l, r_next_vent r = Some l /\
     forall p, In p l -> exists k v, upstream_room_id p = Some k /\ v_volume p = Some v /\ (0 <= k < Z.of_nat n)%Z) /\
  (exists e, r_heating r = Some e /\ complete_equipment e) /\ (exists e, r_cooling r = Some e /\ complete_equipment e).

(* the equipment of a room *)
Definition not_radiative (e : equip_in) : Prop := e_type e = Some "not_installed"%string \/ e_type e = Some "convective"%string.
Definition convective_equipment (e : equip_in) (q_min q_max v_min v_max : R) : Prop :=
  e_type e = Some "convective"%string /\
  e_convective e = Some {| ci_q_min := Some q_min; ci_q_max := Some q_max; ci_v_min := Some v_min; ci_v_max := Some v_max |}.
Definition radiative_equipment (e : equip_in) (max_capacity area : R) : Prop :=
  e_type e = Some "radiative"%string /\
  e_radiative e = Some {| ri_max_capacity := Some max_capacity; ri_area := Some area |}.

(* the volume that the given paths bring from room k *)
Definition volume_from (k : Z) (paths : list (Z * R)) : R := total (map snd (filter (fun p => (fst p =? k)%Z) paths)).

(* the weight of the rear surface in an entry (rear surface, weight) that may be absent *)
Definition rear_weight (k : option (Z * R)) : R := match k with Some (_, w) => w | None => 0 end.

(* a whole number of tenths *)
Definition tenths (x : R) : Prop := exists z : Z, x = IZR z / 10.

(* the values at step t of all rows add up to x *)
Definition sum_at (t : nat) (rows : list (list (option R))) (x : R) : Prop := adds_up_to (map (fun r => nth t r None) rows) x.

(* the boundaries of room i, as described and as written; their floor area and the area of the others *)
Definition parts (i : Z) (bss : list bsimple) : list bsimple := filter (fun bs => (bs_connected_room_id bs =? i)%Z) bss.
Definition of_room (i : Z) (out : list bdry) : list bdry := filter (fun d => (bd_connected_space_id d =? i)%Z) out.
Definition floor_area (l : list bsimple) : R := total (map bs_area (filter bs_is_floor l)).
Definition other_area (l : list bsimple) : R := total (map bs_area (filter (fun bs => negb (bs_is_floor bs)) l)).
