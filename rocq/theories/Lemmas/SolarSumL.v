From Coq Require Import Reals List String ZArith Bool Lra Lia.
From Verif Require Import Model.Py Model.Trig Model.BoundaryDict Model.Inclined Model.SolarShading Model.Transmission Model.OutsideEqvTemp
  Model.BoundarySimple Model.ResponseFactor Model.HouseDict Model.Residents Model.Schedule Model.Initializer Spec.HouseholdSpec Spec.HouseSpec Spec.CompleteSpec
  Lemmas.PyL Lemmas.CoreLoopL Lemmas.ScheduleL Lemmas.VentL Lemmas.RoomsL Lemmas.BoundariesL Lemmas.WeightsL Lemmas.MakeHouseL.
Import ListNotations.
Local Open Scope R_scope.

Definition room_rows (bss : list bsimple) (i : Z) : res (list (option R)) :=
  sum_series (map bs_q_trs_sol (filter (fun bs => (bs_connected_room_id bs =? i)%Z) bss)).

(* what a house that was accepted consists of *)
Lemma house_parts round1 tbl cal ws d m : make_house round1 tbl cal ws d = Ok m ->
  exists rooms bds bss, h_rooms d = Some rooms /\ h_boundaries d = Some bds /\ mapM (get_boundary_simple ws) bds = Ok bss /\
  mapM (room_rows bss) (range 0 (Z.of_nat (List.length rooms))) = Ok (m_q_trs_sol m) /\
  make_spaces_dict rooms = Ok (m_spaces m) /\ make_boundaries round1 bss rooms bds = Ok (m_boundaries m) /\
  m_theta_o_sol m = map bs_theta_o_sol bss.
Proof.
unfold make_house; intro H.
apply bind_ok in H; destruct H as [rooms [E1 H]]; apply key_ok in E1.
apply bind_ok in H; destruct H as [names [E2 H]].
apply bind_ok in H; destruct H as [bds [E3 H]]; apply key_ok in E3.
apply bind_ok in H; destruct H as [bss [E4 H]].
apply bind_ok in H; destruct H as [q [E5 H]].
apply bind_ok in H; destruct H as [a [E6 H]].
apply bind_ok in H; destruct H as [sch [E7 H]].
apply bind_ok in H; destruct H as [bd [E8 H]].
apply bind_ok in H; destruct H as [bld [E9 H]].
apply bind_ok in H; destruct H as [sp [E10 H]].
apply bind_ok in H; destruct H as [out [E11 H]].
apply bind_ok in H; destruct H as [q' [E12 H]].
apply bind_ok in H; destruct H as [th [E13 H]].
injection H as <-; cbn [m_q_trs_sol m_spaces m_boundaries m_theta_o_sol].
assert (R1 : forall A (l l' : list (list A)), rectangular l = Ok l' -> l' = l).
{ intros A [|x l] l' E; cbn in E; [congruence|]; destruct (forallb _ l); congruence. }
apply R1 in E12, E13; subst q' th.
exists rooms, bds, bss; repeat split; assumption.
Qed.

Lemma adds_snoc l a : forall x, adds_up_to (l ++ [a]) x <-> exists y z, adds_up_to l y /\ a = Some z /\ x = y + z.
Proof.
induction l as [|b l IH]; intro x; simpl.
- destruct a as [a|]; split.
  + intros [y [-> ->]]; exists 0, a; repeat split; lra.
  + intros [y [z [-> [E ->]]]]; injection E as <-; exists 0; split; [reflexivity|lra].
  + intros [].
  + intros [y [z [_ [E _]]]]; discriminate.
- destruct b as [b|]; split.
  + intros [y [A ->]]; apply IH in A; destruct A as [u [v [A [B ->]]]]; exists (b + u), v; split; [exists u; split; [exact A|reflexivity]|split; [exact B|lra]].
  + intros [y [z [[u [A ->]] [B ->]]]]; exists (u + z); split; [apply IH; exists u, z; auto|lra].
  + intros [].
  + intros [y [z [[] _]]].
Qed.

(* the sum of rows holds at each step the sum of the values *)
Lemma fold_series_at l : forall a s, foldM add_series l a = Ok s ->
  forall t x, nth t s None = Some x <-> exists y z, nth t a None = Some y /\ sum_at t l z /\ x = y + z.
Proof.
induction l as [|b l IH]; intros a s H t x; simpl in H.
- injection H as <-; unfold sum_at; simpl; split.
  + intro E; exists x, 0; repeat split; [exact E|lra].
  + intros [y [z [E [-> ->]]]]; rewrite E; f_equal; lra.
- apply bind_ok in H; destruct H as [c [Ec H]]; destruct (add_series_ok _ _ _ Ec) as [_ [_ Nc]].
  rewrite (IH _ _ H t x), Nc; unfold sum_at; simpl; split.
  + intros [y [z [E [Sz ->]]]].
    destruct (nth t a None) as [u|]; [|discriminate]; destruct (nth t b None) as [v|]; [|discriminate]; injection E as <-.
    exists u, (v + z); split; [reflexivity|]; split; [exists z; split; [exact Sz|reflexivity]|lra].
  + intros [y [z [E [Sz ->]]]]; rewrite E; destruct (nth t b None) as [v|]; [|destruct Sz]; destruct Sz as [w [Sw ->]].
    exists (y + v), w; split; [reflexivity|]; split; [exact Sw|lra].
Qed.

Lemma sum_series_at l s : sum_series l = Ok s -> forall t x, nth t s None = Some x <-> sum_at t l x.
Proof.
destruct l as [|a l]; [discriminate|]; cbn [sum_series]; intros H t x; rewrite (fold_series_at _ _ _ H t x); unfold sum_at; simpl.
destruct (nth t a None) as [u|]; split.
- intros [y [z [E [S ->]]]]; injection E as <-; exists z; auto.
- intros [z [S ->]]; exists u, z; auto.
- intros [y [z [E _]]]; discriminate.
- intros [].
Qed.

(* splitting a sum *)
Lemma adds_split A (f : A -> option R) (P Q : A -> bool) l : (forall a, P a = true -> Q a = false) -> forall x,
  adds_up_to (map f (filter (fun a => P a || Q a) l)) x <->
  exists y z, adds_up_to (map f (filter P l)) y /\ adds_up_to (map f (filter Q l)) z /\ x = y + z.
Proof.
intro D; induction l as [|a l IH]; intro x; simpl.
- split; [intros ->; exists 0, 0; repeat split; lra|intros [y [z [-> [-> ->]]]]; lra].
- destruct (P a) eqn:EP; simpl.
  + rewrite (D a EP); destruct (f a) as [u|]; split.
    * intros [w [A1 ->]]; apply IH in A1; destruct A1 as [y [z [A2 [A3 ->]]]]; exists (u + y), z; split; [exists y; auto|split; [exact A3|lra]].
    * intros [y [z [[w [A1 ->]] [A2 ->]]]]; exists (w + z); split; [apply IH; exists w, z; auto|lra].
    * intros [].
    * intros [y [z [[] _]]].
  + destruct (Q a); simpl; [|apply IH].
    destruct (f a) as [u|]; split.
    * intros [w [A1 ->]]; apply IH in A1; destruct A1 as [y [z [A2 [A3 ->]]]]; exists y, (u + z); split; [exact A2|split; [exists z; auto|lra]].
    * intros [y [z [A1 [[w [A2 ->]] ->]]]]; exists (y + w); split; [apply IH; exists y, w; auto|lra].
    * intros [].
    * intros [y [z [_ [[] _]]]].
Qed.

Definition below (n : nat) (bs : bsimple) : bool := (0 <=? bs_connected_room_id bs)%Z && (bs_connected_room_id bs <? Z.of_nat n)%Z.

Lemma rows_at bss n : forall q, mapM (room_rows bss) (range 0 (Z.of_nat n)) = Ok q ->
  forall t x, sum_at t q x <-> sum_at t (map bs_q_trs_sol (filter (below n) bss)) x.
Proof.
assert (Rg : forall n, range 0 (Z.of_nat (S n)) = range 0 (Z.of_nat n) ++ [Z.of_nat n]).
{ intro k; apply nth_error_ext.
  - rewrite app_length, !length_range; simpl; lia.
  - intros j L; rewrite length_range in L.
    rewrite nth_range by lia; destruct (Nat.eq_dec j k) as [->|N].
    + rewrite nth_error_app2 by (rewrite length_range; lia); rewrite length_range.
      replace (k - Z.to_nat (Z.of_nat k - 0))%nat with 0%nat by lia; simpl; f_equal; lia.
    + rewrite nth_error_app1 by (rewrite length_range; lia); rewrite nth_range by lia; reflexivity. }
induction n as [|n IH]; intros q H t x.
- assert (q = []) by (cbn in H; congruence); subst q.
  replace (filter (below 0) bss) with (@nil bsimple); [reflexivity|].
  symmetry; assert (F : forall l, filter (below 0) l = []).
  { induction l as [|b l IHl]; simpl; [reflexivity|]; unfold below at 1.
    destruct (Z.leb_spec 0 (bs_connected_room_id b)); simpl; [|exact IHl]; destruct (Z.ltb_spec (bs_connected_room_id b) 0); [lia|exact IHl]. }
  apply F.
- rewrite Rg in H.
  assert (Sp : exists q1 r, q = q1 ++ [r] /\ mapM (room_rows bss) (range 0 (Z.of_nat n)) = Ok q1 /\ room_rows bss (Z.of_nat n) = Ok r).
  { revert q H; generalize (range 0 (Z.of_nat n)); induction l as [|a l IHl]; intros q H; cbn [app mapM] in H.
    - apply bind_ok in H; destruct H as [r [R1 H]]; cbn in H; injection H as <-; exists [], r; auto.
    - apply bind_ok in H; destruct H as [y [Y H]]; apply bind_ok in H; destruct H as [ys [Ys H]]; injection H as <-.
      destruct (IHl _ Ys) as [q1 [r [-> [Q1 R1]]]]; exists (y :: q1), r; cbn [mapM]; rewrite Y, Q1; auto. }
  destruct Sp as [q1 [r [-> [Q1 R1]]]].
  unfold sum_at in *; rewrite map_app; cbn [map]; rewrite adds_snoc.
  rewrite map_map; rewrite (filter_ext (below (S n)) (fun bs => below n bs || (bs_connected_room_id bs =? Z.of_nat n)%Z)).
  2:{ intro bs; unfold below; destruct (Z.leb_spec 0 (bs_connected_room_id bs)); cbn [andb orb].
      - destruct (Z.ltb_spec (bs_connected_room_id bs) (Z.of_nat (S n))); destruct (Z.ltb_spec (bs_connected_room_id bs) (Z.of_nat n)); cbn [andb orb];
        destruct (Z.eqb_spec (bs_connected_room_id bs) (Z.of_nat n)); try reflexivity; lia.
      - destruct (Z.eqb_spec (bs_connected_room_id bs) (Z.of_nat n)); [lia|reflexivity]. }
  rewrite adds_split.
  2:{ intros bs E; unfold below in E; apply andb_true_iff in E; destruct E as [_ E]; apply Z.ltb_lt in E; apply Z.eqb_neq; lia. }
  assert (X := sum_series_at _ _ R1 t); unfold sum_at in X; setoid_rewrite map_map in X.
  split.
  + intros [y [z [A [B ->]]]]; exists y, z; split; [apply (IH q1 Q1 t y) in A; rewrite map_map in A; exact A|split; [|reflexivity]].
    apply X in B; exact B.
  + intros [y [z [A [B ->]]]]; exists y, z; split; [apply (IH q1 Q1 t y); rewrite map_map; exact A|split; [|reflexivity]].
    apply X; exact B.
Qed.

(* in words: what the rooms get is what comes in through the boundaries of existing rooms *)
Lemma house_solar round1 tbl cal ws d m : make_house round1 tbl cal ws d = Ok m ->
  exists rooms bds bss, h_rooms d = Some rooms /\ h_boundaries d = Some bds /\ mapM (get_boundary_simple ws) bds = Ok bss /\
  forall t x, sum_at t (m_q_trs_sol m) x <-> sum_at t (map bs_q_trs_sol (filter (below (List.length rooms)) bss)) x.
Proof.
intro H; destruct (house_parts _ _ _ _ _ _ H) as [rooms [bds [bss [A [B [C [D _]]]]]]].
exists rooms, bds, bss; repeat (split; [assumption|]); intros t x; apply (rows_at _ _ _ D).
Qed.

Lemma all_below n bss : (forall bs, In bs bss -> (0 <= bs_connected_room_id bs < Z.of_nat n)%Z) -> filter (below n) bss = bss.
Proof.
induction bss as [|b l IH]; intro H; simpl; [reflexivity|].
unfold below at 1; assert (B := H b (or_introl eq_refl)).
rewrite (proj2 (Z.leb_le _ _) (proj1 B)), (proj2 (Z.ltb_lt _ _) (proj2 B)); simpl; rewrite IH; [reflexivity|intros x I; apply H; right; exact I].
Qed.

Lemma simple_solar ws b bs : get_boundary_simple ws b = Ok bs ->
  exists s tr, create_shading b = Ok s /\ create_transmission b s = Ok tr /\ get_qgt tr ws = Ok (bs_q_trs_sol bs).
Proof.
unfold get_boundary_simple; intro H.
do 14 (apply bind_ok in H; destruct H as [? [_ H]]).
match type of H with (if ?c then _ else _) = _ => destruct c; [discriminate|] end.
apply bind_ok in H; destruct H as [hc [E15 H]].
apply bind_ok in H; destruct H as [s [E16 H]].
apply bind_ok in H; destruct H as [oet [E17 H]].
apply bind_ok in H; destruct H as [th [E18 H]].
apply bind_ok in H; destruct H as [ts [E19 H]].
apply bind_ok in H; destruct H as [q [E20 H]].
injection H as <-; exists s, ts; auto.
Qed.
