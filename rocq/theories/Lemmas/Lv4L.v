From Coq Require Import Reals List String Bool Lra Lia.
From Verif Require Import Model.Py Model.FactorNu Model.EesHouse Model.Lv4 Spec.EnvelopeSpec Spec.InnerSpec Lemmas.Lv3L.
Import ListNotations.
Local Open Scope R_scope.

Lemma sum_nonneg l : (forall a, In a l -> 0 <= a) -> 0 <= sum l.
Proof.
induction l as [|a l IH]; intro H; [simpl; lra|]; specialize (IH (fun b I => H b (or_intror I))); specialize (H a (or_introl eq_refl)).
change (sum (a :: l)) with (a + sum l); lra.
Qed.

Lemma filter_app A (f : A -> bool) a b : filter f (a ++ b) = filter f a ++ filter f b.
Proof. induction a as [|x a IH]; simpl; [reflexivity|]; rewrite IH; destruct (f x); reflexivity. Qed.

Lemma floors_of_app r a b : floors_of r (a ++ b) = floors_of r a + floors_of r b.
Proof. unfold floors_of; rewrite filter_app, map_app, sum_app; reflexivity. Qed.
Lemma floors_over_app r a b : floors_over r (a ++ b) = floors_over r a + floors_over r b.
Proof. unfold floors_over; rewrite filter_app, map_app, sum_app; reflexivity. Qed.
Lemma walls_of_app r a b : walls_of r (a ++ b) = walls_of r a + walls_of r b.
Proof. unfold walls_of; rewrite filter_app, map_app, sum_app; reflexivity. Qed.

Lemma floors_of_append r n a u l : 0 <= a -> floors_of r (append_floor n a u l) = if (u =? r)%string then a else 0.
Proof.
intro H; unfold floors_of, append_floor; destruct (Rlt_dec 0 a); simpl; destruct (u =? r)%string; simpl; try reflexivity; try ring.
unfold sum; simpl; lra.
Qed.
Lemma floors_over_append r n a u l : 0 <= a -> floors_over r (append_floor n a u l) = if (l =? r)%string then a else 0.
Proof.
intro H; unfold floors_over, append_floor; destruct (Rlt_dec 0 a); simpl; destruct (l =? r)%string; simpl; try reflexivity; try ring.
unfold sum; simpl; lra.
Qed.
Lemma walls_of_append r n a u l : 0 <= a -> walls_of r (append_wall n a u l) = if (u =? r)%string || (l =? r)%string then a else 0.
Proof.
intro H; unfold walls_of, append_wall; destruct (Rlt_dec 0 a); simpl; destruct ((u =? r)%string || (l =? r)%string); simpl; try reflexivity; try ring.
unfold sum; simpl; lra.
Qed.

Section floors.
Variables (a_mr a_or a_a : R) (ss : list envelope) (ecs : list center).
Notation need := (inner_floor_need a_mr a_or a_a ss ecs).
Notation uf := (earth_floor UNDERFLOOR ecs).
Notation tot := (need MAIN + need OTHER + need NON).

Lemma need_nonneg s : 0 <= need s.
Proof. apply Rmax_l. Qed.

Definition above (s : space_type) : R := if Rlt_dec 0 tot then uf * need s / tot else 0.

Lemma above_nonneg s : 0 <= uf -> 0 <= above s.
Proof.
intro U; unfold above; destruct (Rlt_dec 0 tot) as [T|]; [|lra].
apply Rmult_le_pos; [apply Rmult_le_pos; [exact U|apply need_nonneg]|left; apply Rinv_0_lt_compat, T].
Qed.

(* what remains of a room's floor after the part above the underfloor space *)
Definition rest (s : space_type) : R := Rmax 0 (need s - above s).

Definition between : floors :=
  if Rle_dec a_or 0 then
    if Rle_dec (a_a - a_mr - a_or) 0 then {| mr_or := 0; mr_nr := 0; or_mr := 0; or_nr := 0; nr_mr := 0; nr_or := 0 |}
    else {| mr_or := 0; mr_nr := rest MAIN; or_mr := 0; or_nr := 0; nr_mr := rest NON; nr_or := 0 |}
  else if Rle_dec (a_a - a_mr - a_or) 0 then {| mr_or := rest MAIN; mr_nr := 0; or_mr := rest OTHER; or_nr := 0; nr_mr := 0; nr_or := 0 |}
  else {| mr_or := rest MAIN / 2; mr_nr := rest MAIN / 2; or_mr := rest OTHER / 2; or_nr := rest OTHER / 2; nr_mr := rest NON / 2; nr_or := rest NON / 2 |}.

Definition floor_list : list inner_floor :=
  append_floor "inner_floor_main_to_underfloor" (above MAIN) mr_name uf_name ++
  append_floor "inner_floor_other_to_underfloor" (above OTHER) or_name uf_name ++
  append_floor "inner_floor_non_to_underfloor" (above NON) nr_name uf_name ++
  append_floor "inner_floor_main_to_other" (mr_or between) mr_name or_name ++
  append_floor "inner_floor_main_to_non" (mr_nr between) mr_name nr_name ++
  append_floor "inner_floor_other_to_main" (or_mr between) or_name mr_name ++
  append_floor "inner_floor_other_to_non" (or_nr between) or_name nr_name ++
  append_floor "inner_floor_non_to_main" (nr_mr between) nr_name mr_name ++
  append_floor "inner_floor_non_to_other" (nr_or between) nr_name or_name.

Lemma floors_ok : make_inner_floors a_mr a_or a_a ss ecs = if Rle_dec a_mr 0 then Err ValueError else Ok floor_list.
Proof.
unfold make_inner_floors, inner_floor_total.
change (Rmax 0 (a_mr - downward_area MAIN ss - earthfloor_area mr_name ecs)) with (need MAIN).
change (Rmax 0 (a_or - downward_area OTHER ss - earthfloor_area or_name ecs)) with (need OTHER).
change (Rmax 0 (a_a - a_mr - a_or - downward_area NON ss - earthfloor_area nr_name ecs)) with (need NON).
unfold over_underfloor.
change (earthfloor_area uf_name ecs) with uf.
unfold floors_between, floor_list, between, rest, above.
destruct (Rlt_dec 0 tot); destruct (Rle_dec a_mr 0); reflexivity.
Qed.

Lemma between_nonneg : 0 <= mr_or between /\ 0 <= mr_nr between /\ 0 <= or_mr between /\ 0 <= or_nr between /\ 0 <= nr_mr between /\ 0 <= nr_or between.
Proof.
assert (forall s, 0 <= rest s) by (intro; apply Rmax_l); assert (HM := H MAIN); assert (HO := H OTHER); assert (HN := H NON).
unfold between; destruct (Rle_dec a_or 0), (Rle_dec (a_a - a_mr - a_or) 0); simpl; repeat split; lra.
Qed.

(* floors over the underfloor space *)
Lemma floors_underfloor : 0 <= uf -> 0 < tot -> floors_over (room_name UNDERFLOOR) floor_list = uf.
Proof.
intros U T; destruct between_nonneg as (B1 & B2 & B3 & B4 & B5 & B6).
unfold floor_list; rewrite !floors_over_app, !floors_over_append by (try apply above_nonneg; assumption); simpl.
unfold above; destruct (Rlt_dec 0 tot); [|contradiction]; field; lra.
Qed.

Lemma floors_underfloor_each s : 0 <= uf -> 0 < tot -> In s rooms ->
  sum (map if_area (filter (fun f => (if_upper f =? room_name s)%string && (if_lower f =? room_name UNDERFLOOR)%string) floor_list)) = uf * need s / tot.
Proof.
intros U T I.
assert (A : forall n a u l, 0 <= a -> sum (map if_area (filter (fun f => (if_upper f =? room_name s)%string && (if_lower f =? room_name UNDERFLOOR)%string)
    (append_floor n a u l))) = if (u =? room_name s)%string && (l =? room_name UNDERFLOOR)%string then a else 0).
{ intros n a u l H; unfold append_floor; destruct (Rlt_dec 0 a); simpl;
    destruct ((u =? room_name s)%string && (l =? "underfloor")%string); simpl; try reflexivity; unfold sum; simpl; lra. }
destruct between_nonneg as (B1 & B2 & B3 & B4 & B5 & B6).
assert (Ab := fun s => above_nonneg s U).
unfold floor_list; rewrite !filter_app, !map_app, !sum_app, !A by (trivial; apply Ab).
assert (Eq : forall s, uf * need s / tot = above s) by (intro; unfold above; destruct (Rlt_dec 0 tot); [reflexivity|contradiction]).
rewrite Eq; destruct I as [<- |[<- |[<- |[]]]]; simpl; ring.
Qed.

(* each room has exactly the inner floor it needs *)
Lemma floors_room s : 0 < a_mr -> 0 <= a_or -> 0 <= a_a - a_mr - a_or -> a_mr < a_a -> nonneg_parts ss ecs -> uf <= tot ->
  In s rooms -> floors_of (room_name s) floor_list = need s.
Proof.
intros M O N2 MA (NE & NC) U I.
assert (SD : forall s, 0 <= facing_down s ss).
{ intro s'; apply sum_nonneg; intros a Ia; apply in_map_iff in Ia; destruct Ia as (e & <- & Ie); apply filter_In in Ie; apply NE, Ie. }
assert (SE : forall s, 0 <= earth_floor s ecs).
{ intro s'; apply sum_nonneg; intros a Ia; apply in_map_iff in Ia; destruct Ia as (e & <- & Ie); apply filter_In in Ie; apply NC, Ie. }
assert (U0 : 0 <= uf) by apply SE.
assert (Ab := fun s => above_nonneg s U0).
assert (R : forall s, rest s = need s - above s).
{ intro s'; unfold rest; apply Rmax_right; assert (Hn := need_nonneg s'); unfold above; destruct (Rlt_dec 0 tot) as [T|]; [|lra].
  assert (uf * need s' / tot <= need s'); [|lra].
  apply Rmult_le_reg_r with tot; [exact T|]; replace (uf * need s' / tot * tot) with (uf * need s') by (field; lra).
  rewrite (Rmult_comm (need s')); apply Rmult_le_compat_r; assumption. }
assert (Z : forall s, room_floor a_mr a_or a_a s <= 0 -> need s = 0).
{ intros s' H; unfold inner_floor_need; apply Rmax_left; specialize (SD s'); specialize (SE s'); lra. }
assert (AZ : forall s, need s = 0 -> above s = 0) by (intros s' H; unfold above; destruct (Rlt_dec 0 tot); [rewrite H; unfold Rdiv; ring|reflexivity]).
destruct between_nonneg as (B1 & B2 & B3 & B4 & B5 & B6).
unfold floor_list; rewrite !floors_of_app, !floors_of_append by (trivial; apply Ab).
unfold between; destruct (Rle_dec a_or 0) as [O0|O0], (Rle_dec (a_a - a_mr - a_or) 0) as [N0|N0]; [lra| | | ];
  destruct I as [<- |[<- |[<- |[]]]]; simpl mr_or; simpl mr_nr; simpl or_mr; simpl or_nr; simpl nr_mr; simpl nr_or; simpl (_ =? _)%string; cbv iota;
  rewrite ?R.
- ring.
- specialize (Z OTHER O0); rewrite (AZ _ Z), Z; ring.
- ring.
- ring.
- ring.
- specialize (Z NON N0); rewrite (AZ _ Z), Z; ring.
- field.
- field.
- field.
Qed.

Lemma floors_positive f : In f floor_list -> 0 < if_area f /\ if_upper f <> if_lower f /\
  (exists s, In s rooms /\ if_upper f = room_name s) /\ (exists s, In s (UNDERFLOOR :: rooms) /\ if_lower f = room_name s) /\ if_layers f = inner_floor_layers.
Proof.
assert (A : forall n a s s', In s rooms -> In s' (UNDERFLOOR :: rooms) -> room_name s <> room_name s' ->
  In f (append_floor n a (room_name s) (room_name s')) -> 0 < if_area f /\ if_upper f <> if_lower f /\
  (exists s, In s rooms /\ if_upper f = room_name s) /\ (exists s, In s (UNDERFLOOR :: rooms) /\ if_lower f = room_name s) /\ if_layers f = inner_floor_layers).
{ intros n a s s' I I' D; unfold append_floor; destruct (Rlt_dec 0 a); [|intros []]; intros [<- |[]]; simpl; repeat split; trivial; [exists s|exists s']; auto. }
unfold floor_list; rewrite !in_app_iff; intro H; repeat destruct H as [H|H];
  [apply (A _ _ MAIN UNDERFLOOR) in H|apply (A _ _ OTHER UNDERFLOOR) in H|apply (A _ _ NON UNDERFLOOR) in H|apply (A _ _ MAIN OTHER) in H
  |apply (A _ _ MAIN NON) in H|apply (A _ _ OTHER MAIN) in H|apply (A _ _ OTHER NON) in H|apply (A _ _ NON MAIN) in H|apply (A _ _ NON OTHER) in H];
  trivial; simpl; try discriminate; tauto.
Qed.
End floors.

Section walls.
Variables (a_mr a_or a_a : R) (ss : list envelope).
Notation need := (inner_wall_need a_mr a_or a_a ss).

Definition wall_areas : R * R * R :=
  if Rle_dec a_or 0 then
    if Rle_dec (a_a - a_mr - a_or) 0 then (0, 0, 0) else (0, (need MAIN + need NON) / 2, 0)
  else if Rle_dec (a_a - a_mr - a_or) 0 then ((need MAIN + need OTHER) / 2, 0, 0)
  else (Rmax 0 ((need MAIN + need OTHER - need NON) / 2), Rmax 0 ((need MAIN + need NON - need OTHER) / 2), Rmax 0 ((need OTHER + need NON - need MAIN) / 2)).

Definition wall_list : list inner_wall :=
  append_wall "inner_wall_main_to_other" (fst (fst wall_areas)) mr_name or_name ++
  append_wall "inner_wall_main_to_non" (snd (fst wall_areas)) mr_name nr_name ++
  append_wall "inner_wall_other_to_non" (snd wall_areas) or_name nr_name.

Lemma walls_ok : make_inner_walls a_mr a_or a_a ss =
  if Rlt_dec a_mr 0 then Err TypeError else if Rlt_dec a_or 0 then Err TypeError else if Rlt_dec (a_a - a_mr - a_or) 0 then Err TypeError
  else if Rle_dec a_mr 0 then Err ValueError else Ok wall_list.
Proof.
unfold make_inner_walls, inner_wall_total, wall_total.
change (Rmax 0 (4 * (12 / 10) * (28 / 10) * sqrt a_mr - horizontal_area MAIN ss)) with (need MAIN).
change (Rmax 0 (4 * (14 / 10) * (28 / 10) * sqrt a_or - horizontal_area OTHER ss)) with (need OTHER).
change (Rmax 0 (4 * (14 / 10) * (28 / 10) * sqrt (a_a - a_mr - a_or) - horizontal_area NON ss)) with (need NON).
destruct (Rlt_dec a_mr 0); [reflexivity|]; destruct (Rlt_dec a_or 0); [reflexivity|]; destruct (Rlt_dec (a_a - a_mr - a_or) 0); [reflexivity|].
cbn [bind]; unfold walls_between, wall_list, wall_areas; destruct (Rle_dec a_mr 0); [reflexivity|].
destruct (Rle_dec a_or 0), (Rle_dec (a_a - a_mr - a_or) 0); reflexivity.
Qed.

Lemma wall_need_nonneg s : 0 <= need s.
Proof. apply Rmax_l. Qed.

Lemma wall_areas_nonneg : 0 <= fst (fst wall_areas) /\ 0 <= snd (fst wall_areas) /\ 0 <= snd wall_areas.
Proof.
assert (HM := wall_need_nonneg MAIN); assert (HO := wall_need_nonneg OTHER); assert (HN := wall_need_nonneg NON).
unfold wall_areas; destruct (Rle_dec a_or 0), (Rle_dec (a_a - a_mr - a_or) 0); simpl; repeat split; try lra; apply Rmax_l.
Qed.

(* three rooms, none of which needs more wall than the other two together *)
Lemma walls_three s : 0 < a_or -> 0 < a_a - a_mr - a_or ->
  need NON <= need MAIN + need OTHER -> need OTHER <= need MAIN + need NON -> need MAIN <= need OTHER + need NON ->
  In s rooms -> walls_of (room_name s) wall_list = need s.
Proof.
intros O N T1 T2 T3 I; destruct wall_areas_nonneg as (W1 & W2 & W3); unfold wall_list; rewrite !walls_of_app, !walls_of_append by assumption.
unfold wall_areas; destruct (Rle_dec a_or 0); [lra|]; destruct (Rle_dec (a_a - a_mr - a_or) 0); [lra|]; simpl fst; simpl snd.
rewrite !Rmax_right by lra.
destruct I as [<- |[<- |[<- |[]]]]; simpl; field.
Qed.

(* two rooms: the common wall is the mean of what the two rooms need *)
Lemma walls_two_other s : 0 < a_or -> a_a - a_mr - a_or = 0 -> In s [MAIN; OTHER] -> walls_of (room_name s) wall_list = (need MAIN + need OTHER) / 2.
Proof.
intros O N I; destruct wall_areas_nonneg as (W1 & W2 & W3); unfold wall_list; rewrite !walls_of_app, !walls_of_append by assumption.
unfold wall_areas; destruct (Rle_dec a_or 0); [lra|]; destruct (Rle_dec (a_a - a_mr - a_or) 0); [|lra]; simpl fst; simpl snd.
destruct I as [<- |[<- |[]]]; simpl; field.
Qed.
Lemma walls_two_non s : a_or = 0 -> 0 < a_a - a_mr - a_or -> In s [MAIN; NON] -> walls_of (room_name s) wall_list = (need MAIN + need NON) / 2.
Proof.
intros O N I; destruct wall_areas_nonneg as (W1 & W2 & W3); unfold wall_list; rewrite !walls_of_app, !walls_of_append by assumption.
unfold wall_areas; destruct (Rle_dec a_or 0); [|lra]; destruct (Rle_dec (a_a - a_mr - a_or) 0); [lra|]; simpl fst; simpl snd.
destruct I as [<- |[<- |[]]]; simpl; field.
Qed.

Lemma walls_positive w : In w wall_list -> 0 < iw_area w /\ iw_space_1 w <> iw_space_2 w /\
  (exists s, In s rooms /\ iw_space_1 w = room_name s) /\ (exists s, In s rooms /\ iw_space_2 w = room_name s) /\ iw_layers w = inner_wall_layers.
Proof.
assert (A : forall n a s s', In s rooms -> In s' rooms -> room_name s <> room_name s' ->
  In w (append_wall n a (room_name s) (room_name s')) -> 0 < iw_area w /\ iw_space_1 w <> iw_space_2 w /\
  (exists s, In s rooms /\ iw_space_1 w = room_name s) /\ (exists s, In s rooms /\ iw_space_2 w = room_name s) /\ iw_layers w = inner_wall_layers).
{ intros n a s s' I I' D; unfold append_wall; destruct (Rlt_dec 0 a); [|intros []]; intros [<- |[]]; simpl; repeat split; trivial; [exists s|exists s']; auto. }
unfold wall_list; rewrite !in_app_iff; intro H; repeat destruct H as [H|H];
  [apply (A _ _ MAIN OTHER) in H|apply (A _ _ MAIN NON) in H|apply (A _ _ OTHER NON) in H]; trivial; simpl; try discriminate; tauto.
Qed.
End walls.

(* rooms *)
Lemma rooms_made a_a a_mr a_or a_nr a_uf n nv_mr nv_or : 0 < a_mr -> 0 <= a_or -> 0 <= a_nr -> 0 <= a_uf ->
  let v := a_a * (24 / 10) * n * (11 / 10) in
  exists r, make_initial_rooms a_a a_mr a_or a_nr a_uf n nv_mr nv_or = Ok r /\
  sum (map lr_vent (present r)) = v /\
  sum (map lr_volume (present r)) = 24 / 10 * (a_mr + a_or + a_nr) + 4 / 10 * a_uf /\
  (forall x, In x (present r) -> 0 < lr_volume x) /\
  (forall x, In x (present r) -> lr_vent x = v * (if (lr_name x =? "main_occupant_room")%string then a_mr
     else if (lr_name x =? "other_occupant_room")%string then a_or else 0) / (a_mr + a_or)) /\
  (forall x, In x (present r) -> sum (map snd (lr_next_vent x)) = if (lr_name x =? "non_occupant_room")%string then v else 0) /\
  (forall s, In (room_name s) (map lr_name (present r)) <-> match s with MAIN => True | OTHER => 0 < a_or | NON => 0 < a_nr | UNDERFLOOR => 0 < a_uf | UNDEFINED => False end).
Proof.
intros M O N U v.
assert (NZ : a_mr + a_or <> 0) by lra.
unfold make_initial_rooms, get_room_volume, get_v_vent_ex; rewrite !fdiv_ok by exact NZ; cbn [bind].
destruct (Rle_dec a_mr 0); [lra|]; destruct (Rlt_dec 0 a_mr); [|lra].
fold v.
destruct (Rlt_dec 0 a_or) as [O'|O'], (Rlt_dec 0 a_nr) as [N'|N'], (Rlt_dec 0 a_uf) as [U'|U']; eexists; (split; [reflexivity|]); simpl present;
  (split; [simpl; unfold sum; simpl; try (replace a_or with 0 by lra); field; lra|]);
  (split; [simpl; unfold sum; simpl; lra|]);
  (split; [intros x I; repeat destruct I as [<- |I]; try destruct I; simpl; lra|]);
  (split; [intros x I; repeat destruct I as [<- |I]; try destruct I; simpl; field; lra|]);
  (split; [intros x I; repeat destruct I as [<- |I]; try destruct I; simpl; unfold sum; simpl; try reflexivity; try (replace a_or with 0 by lra); field; lra|]);
  (intros [ | | | | ]; simpl; split; intro H; repeat destruct H as [H|H]; try discriminate; try contradiction; try lra; tauto).
Qed.

Lemma rooms_no_main a_a a_mr a_or a_nr a_uf n nv_mr nv_or : a_mr <= 0 ->
  exists e, make_initial_rooms a_a a_mr a_or a_nr a_uf n nv_mr nv_or = Err e.
Proof.
intro M; unfold make_initial_rooms, get_room_volume; destruct (get_v_vent_ex a_a a_mr a_or n) as [(((x1 & x2) & x3) & x4)|e]; cbn [bind]; [|eexists; reflexivity].
destruct (Rle_dec a_mr 0); [eexists; reflexivity|contradiction].
Qed.
