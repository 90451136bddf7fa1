(* Vocabulary for the shape of model houses. *)
From Coq Require Import Reals List.
From Verif Require Import Model.Py Model.FactorH Model.FactorNu Model.EesHouse Model.PartSpec Model.ModelHouse Spec.EnvelopeSpec.
Import ListNotations.
Local Open Scope R_scope.

Definition per_storey (s : storeys) : list R := match s with One x => [x] | Two x y => [x; y] end.

(* each storey is a rectangle with sides l_ms and l_os and its floor area *)
Definition rectangles (s : shape) : Prop :=
  List.length (per_storey (sh_l_ms s)) = List.length (per_storey (sh_a_f s)) /\ List.length (per_storey (sh_l_os s)) = List.length (per_storey (sh_a_f s)) /\
  forall i a l m, nth_error (per_storey (sh_a_f s)) i = Some a -> nth_error (per_storey (sh_l_ms s)) i = Some l -> nth_error (per_storey (sh_l_os s)) i = Some m ->
    0 <= l /\ 0 <= m /\ l * m = a.

(* side length times height, added over the storeys *)
Definition front (s : shape) (l : storeys) : R := sum (map (fun p => fst p * snd p) (combine (per_storey l) (per_storey (sh_h s)))).

(* walls, windows and doors fill the four fronts: those facing the main direction and its opposite have side l_ms *)
Definition fronts_filled (s : shape) : Prop :=
  q000 (sh_wall s) + q000 (sh_window s) + q000 (sh_door s) = front s (sh_l_ms s) /\
  q090 (sh_wall s) + q090 (sh_window s) + q090 (sh_door s) = front s (sh_l_os s) /\
  q180 (sh_wall s) + q180 (sh_window s) + q180 (sh_door s) = front s (sh_l_ms s) /\
  q270 (sh_wall s) + q270 (sh_window s) + q270 (sh_door s) = front s (sh_l_os s).

Definition four (q : quad) : R := q000 q + q090 q + q180 q + q270 q.

Definition same_direction (d e : direction) : {d = e} + {d <> e}. Proof. decide equality. Defined.
Definition same_space (m n : next_space) : {m = n} + {m <> n}. Proof. decide equality. Defined.
(* the area of the parts that face direction d and adjoin the space n *)
Definition facing (n : next_space) (d : direction) (l : list envelope) : R :=
  sum (map e_area (filter (fun e => if same_direction (e_direction e) d then if same_space (e_next_space e) n then true else false else false) l)).

(* which side of the house looks where, and what is behind it. Of a dwelling in an apartment house, the third front faces the corridor
   and the last one a neighbour. *)
Definition house_sides (t : house_type) : list (next_space * direction * (quad -> R)) :=
  match t with
  | Detached => [(OUTDOOR, DSW, q000); (OUTDOOR, DNW, q090); (OUTDOOR, DNE, q180); (OUTDOOR, DSE, q270)]
  | Attached => [(OUTDOOR, DSW, q000); (OUTDOOR, DNW, q090); (OPEN_SPACE, DHorizontal, q180)]
  end.

(* kinds of house for which there is a model *)
Definition known (t : house_type) (ins bath : insulation) : Prop :=
  match t with
  | Detached => (ins = InsFloor /\ (bath = InsFloor \/ bath = InsBase \/ bath = InsNotExist)) \/ (ins = InsBase /\ bath <> InsOther)
  | Attached => (ins = InsFloor \/ ins = InsBase \/ ins = InsNone) /\ bath <> InsOther
  end.

(* corner rooms of a detached house that stand on the ground: length of the two outer sides and height of the foundation *)
Definition entrance_room : R * R * R := (1365 / 1000, 182 / 100, 18 / 100).
Definition bath_room : R * R * R := (182 / 100, 182 / 100, 1 / 2).
Definition room_area (r : R * R * R) : R := let '(p, q, _) := r in p * q.
Definition half_perimeter (r : R * R * R) : R := let '(p, q, _) := r in p + q.
Definition foundation_area (r : R * R * R) : R := let '(p, q, h) := r in (p + q) * h.

(* what stands on the ground *)
Definition foundation (t : house_type) (ins bath : insulation) (s : shape) : Prop :=
  match t, ins with
  | Attached, _ =>                                                  (* nothing *)
      sh_ef_total s = 0 /\ four (sh_l_base_out s) = 0 /\ sh_l_base_in s = 0 /\ four (sh_base_out s) = 0 /\ sh_base_in s = 0
  | Detached, InsBase =>                                            (* the whole ground floor; the foundation is lower at the entrance *)
      sh_ef_total s = ground (sh_a_f s) /\ sh_l_base_in s = 0 /\ sh_base_in s = 0 /\
      q000 (sh_l_base_out s) = ground (sh_l_ms s) /\ q090 (sh_l_base_out s) = ground (sh_l_os s) /\
      q180 (sh_l_base_out s) = ground (sh_l_ms s) /\ q270 (sh_l_base_out s) = ground (sh_l_os s) /\
      four (sh_base_out s) = 1 / 2 * (four (sh_l_base_out s) - half_perimeter entrance_room) + foundation_area entrance_room
  | Detached, _ =>                                                  (* the entrance, and the bath if its foundation is insulated *)
      let rooms := entrance_room :: match bath with InsBase => [bath_room] | _ => [] end in
      sh_ef_total s = sum (map room_area rooms) /\
      four (sh_l_base_out s) = sum (map half_perimeter rooms) /\ sh_l_base_in s = sum (map half_perimeter rooms) /\
      four (sh_base_out s) = sum (map foundation_area rooms) /\ sh_base_in s = sum (map foundation_area rooms)
  end.
