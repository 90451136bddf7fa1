From Coq Require Import Reals List String Lra.
From Verif Require Import Model.Py Model.EesHouse Model.Lv4 Spec.EnvelopeSpec Spec.InnerSpec Lemmas.Lv4L.
Import ListNotations.
Local Open Scope R_scope.

(* C39: the rooms that are made share the whole-house ventilation by floor area of the occupied rooms, their volumes add up,
   and all of the ventilation passes on to the non-occupant room (if there is one) *)
Theorem C39_ventilation : forall a_a a_mr a_or a_nr a_uf n nv_mr nv_or, 0 < a_mr -> 0 <= a_or -> 0 <= a_nr -> 0 <= a_uf ->
  let v := a_a * (24 / 10) * n * (11 / 10) in
  exists r, make_initial_rooms a_a a_mr a_or a_nr a_uf n nv_mr nv_or = Ok r /\
  sum (map lr_vent (present r)) = v /\
  sum (map lr_volume (present r)) = 24 / 10 * (a_mr + a_or + a_nr) + 4 / 10 * a_uf /\
  (forall x, In x (present r) -> 0 < lr_volume x) /\
  (forall x, In x (present r) -> lr_vent x = v * (if (lr_name x =? "main_occupant_room")%string then a_mr
     else if (lr_name x =? "other_occupant_room")%string then a_or else 0) / (a_mr + a_or)) /\
  (forall x, In x (present r) -> sum (map snd (lr_next_vent x)) = if (lr_name x =? "non_occupant_room")%string then v else 0) /\
  (forall s, In (room_name s) (map lr_name (present r)) <->
     match s with MAIN => True | OTHER => 0 < a_or | NON => 0 < a_nr | UNDERFLOOR => 0 < a_uf | UNDEFINED => False end).
Proof. exact rooms_made. Qed.
Print Assumptions C39_ventilation.

(* a house without main room is rejected *)
Theorem C39_no_main_room : forall a_a a_mr a_or a_nr a_uf n nv_mr nv_or, a_mr <= 0 ->
  exists e, make_initial_rooms a_a a_mr a_or a_nr a_uf n nv_mr nv_or = Err e.
Proof. exact rooms_no_main. Qed.
Print Assumptions C39_no_main_room.

(* the air of the non-occupant room is said to come from rooms named "main" and "other", but no room has such a name *)
Theorem C39_upstream_refuted : forall a_a a_mr a_or a_nr a_uf n nv_mr nv_or r, 0 < a_nr ->
  make_initial_rooms a_a a_mr a_or a_nr a_uf n nv_mr nv_or = Ok r ->
  exists x up, In x (present r) /\ In up (map fst (lr_next_vent x)) /\ ~ In up (map lr_name (present r)).
Proof.
intros a_a a_mr a_or a_nr a_uf n nv_mr nv_or r N; unfold make_initial_rooms, get_room_volume.
destruct (get_v_vent_ex a_a a_mr a_or n) as [(((x1 & x2) & x3) & x4)|e]; cbn [bind]; [|discriminate].
destruct (Rle_dec a_mr 0); [discriminate|]; destruct (Rlt_dec 0 a_mr); [|lra]; destruct (Rlt_dec 0 a_nr); [|contradiction].
intro E; injection E as <-; simpl present.
eexists; exists "main"%string; split; [right; apply in_or_app; right; left; reflexivity|].
split; [left; reflexivity|].
destruct (Rlt_dec 0 a_or), (Rlt_dec 0 a_uf); simpl; intuition discriminate.
Qed.
Print Assumptions C39_upstream_refuted.

Example C39_example : exists r, make_initial_rooms 120 30 50 40 60 (1 / 2) 5 5 = Ok r /\ sum (map lr_vent (present r)) = 1584 / 10.
Proof.
destruct (C39_ventilation 120 30 50 40 60 (1 / 2) 5 5) as (r & E & V & _); try lra; exists r; split; [exact E|rewrite V; lra].
Qed.
