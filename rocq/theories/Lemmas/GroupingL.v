From Coq Require Import Reals List String ZArith Bool Lra Lia.
From Verif Require Import Model.Py Model.BoundarySimple Model.Grouping Spec.HouseSpec Spec.GroupingSpec.
Import ListNotations.

Definition at_ (g : list Z) (i : nat) : Z := nth i g (-1)%Z.

Section Grouping.
Variable same : nat -> nat -> bool.
Variable n : nat.
Hypothesis refl : forall k, (k < n)%nat -> same k k = true.

Lemma step_length g k : List.length g = n -> List.length (group_step same n g k) = n.
Proof. intro L; unfold group_step; rewrite map_length, combine_length, seq_length; lia. Qed.

Lemma step_at g k i : List.length g = n -> (i < n)%nat ->
  at_ (group_step same n g k) i = if (at_ g i <? 0)%Z && same k i then (max_list g + 1)%Z else at_ g i.
Proof.
intros L H; unfold at_, group_step.
set (f := fun p : nat * Z => if (snd p <? 0)%Z && same k (fst p) then (max_list g + 1)%Z else snd p).
rewrite nth_indep with (d' := f (0%nat, (-1)%Z)) by (rewrite map_length, combine_length, seq_length; lia).
rewrite map_nth; rewrite combine_nth by (rewrite seq_length; lia); rewrite seq_nth by exact H; reflexivity.
Qed.

Lemma max_ge g : forall i, (at_ g i <= max_list g)%Z.
Proof.
unfold at_; induction g as [|x g IH]; intro i; [destruct i; simpl; lia|]; simpl; destruct i; [lia|]; specialize (IH i); lia.
Qed.
Lemma max_lower g : (-1 <= max_list g)%Z.
Proof. induction g as [|x g IH]; simpl; lia. Qed.
Lemma max_reached g : (0 <= max_list g)%Z -> exists i, (i < List.length g)%nat /\ at_ g i = max_list g.
Proof.
unfold at_; induction g as [|x g IH]; simpl; intro H; [lia|].
destruct (Z.max_spec x (max_list g)) as [[_ E]|[_ E]]; rewrite E in *.
- destruct (IH H) as [i [L E']]; exists (S i); split; [lia|exact E'].
- exists 0%nat; split; [lia|reflexivity].
Qed.
Lemma max_least g m : (-1 <= m)%Z -> (forall i, (i < List.length g)%nat -> (at_ g i <= m)%Z) -> (max_list g <= m)%Z.
Proof.
unfold at_; intro M; induction g as [|x g IH]; simpl; intro H; [lia|].
assert (A := H 0%nat ltac:(lia)); simpl in A; assert (B : (max_list g <= m)%Z) by (apply IH; intros i L; apply (H (S i)); lia); lia.
Qed.

(* the maximum after a step *)
Lemma step_max g k : List.length g = n ->
  (max_list (group_step same n g k) = max_list g /\ (forall i, (i < n)%nat -> (at_ g i <? 0)%Z && same k i = false)) \/
  (max_list (group_step same n g k) = max_list g + 1 /\ exists i, (i < n)%nat /\ (at_ g i <? 0)%Z && same k i = true)%Z.
Proof.
intro L; assert (Low := max_lower g).
destruct (existsb (fun i => (at_ g i <? 0)%Z && same k i) (seq 0 n)) eqn:E.
- right; apply existsb_exists in E; destruct E as [i [I E]]; apply in_seq in I.
  split; [|exists i; split; [lia|exact E]].
  apply Z.le_antisymm.
  + apply max_least; [lia|]; rewrite step_length by exact L; intros j Lj; rewrite step_at by assumption.
    destruct ((at_ g j <? 0)%Z && same k j); [lia|assert (A := max_ge g j); lia].
  + assert (A := max_ge (group_step same n g k) i); rewrite step_at in A by (exact L || lia); rewrite E in A; exact A.
- left.
  assert (N : forall i, (i < n)%nat -> (at_ g i <? 0)%Z && same k i = false).
  { intros i Hi; destruct ((at_ g i <? 0)%Z && same k i) eqn:F; [|reflexivity].
    assert (X : existsb (fun i => (at_ g i <? 0)%Z && same k i) (seq 0 n) = true) by (apply existsb_exists; exists i; split; [apply in_seq; lia|exact F]); congruence. }
  split; [|exact N]; apply Z.le_antisymm.
  + apply max_least; [exact Low|]; rewrite step_length by exact L; intros j Lj; rewrite step_at by assumption; rewrite N by exact Lj; apply max_ge.
  + apply max_least; [apply max_lower|]; intros j Lj; rewrite L in Lj; assert (A := max_ge (group_step same n g k) j).
    rewrite step_at in A by assumption; rewrite N in A by exact Lj; exact A.
Qed.

Definition after (m : nat) : list Z := fold_left (group_step same n) (seq 0 m) (repeat (-1)%Z n).

Lemma after_S m : after (S m) = group_step same n (after m) m.
Proof. unfold after; rewrite seq_S, fold_left_app; reflexivity. Qed.

Lemma after_length m : List.length (after m) = n.
Proof. induction m as [|m IH]; [apply repeat_length|]; rewrite after_S; apply step_length, IH. Qed.

Lemma at_start i : at_ (repeat (-1)%Z n) i = (-1)%Z.
Proof. unfold at_; apply nth_repeat. Qed.

Lemma max_start : max_list (repeat (-1)%Z n) = (-1)%Z.
Proof. clear refl; induction n as [|k IH]; simpl; [reflexivity|rewrite IH; reflexivity]. Qed.

Lemma invariant m : (m <= n)%nat ->
  let g := after m in
  (forall i, (i < m)%nat -> (0 <= at_ g i)%Z) /\
  (forall i, (i < n)%nat -> (-1 <= at_ g i)%Z) /\
  (forall v, (0 <= v <= max_list g)%Z -> exists i, (i < n)%nat /\ at_ g i = v) /\
  (forall v, (0 <= v <= max_list g)%Z -> exists k, (k < m)%nat /\ forall i, (i < n)%nat -> at_ g i = v -> same k i = true).
Proof.
induction m as [|m IH]; intro Hm; cbv zeta.
- unfold after; simpl; repeat split.
  + intros; lia.
  + intros i _; rewrite at_start; lia.
  + intros v H; rewrite max_start in H; lia.
  + intros v H; rewrite max_start in H; lia.
- destruct (IH ltac:(lia)) as [A [B [C D]]]; assert (L := after_length m); rewrite after_S.
  assert (Low := max_lower (after m)).
  assert (Old : forall i, (i < n)%nat -> (0 <= at_ (after m) i)%Z -> at_ (group_step same n (after m) m) i = at_ (after m) i).
  { intros i Hi P; rewrite step_at by assumption; destruct (Z.ltb_spec (at_ (after m) i) 0); [lia|reflexivity]. }
  split; [|split; [|]].
  + intros i Hi; destruct (Nat.eq_dec i m) as [->|N].
    * rewrite step_at by (exact L || lia); rewrite refl by lia; destruct (Z.ltb_spec (at_ (after m) m) 0); simpl; lia.
    * rewrite Old; [apply A; lia|lia|apply A; lia].
  + intros i Hi; rewrite step_at by assumption; destruct ((at_ (after m) i <? 0)%Z && same m i); [lia|apply B, Hi].
  + destruct (step_max (after m) m L) as [[Em N]|[Em [j [Lj Ej]]]]; rewrite Em.
    * assert (Eq : forall i, (i < n)%nat -> at_ (group_step same n (after m) m) i = at_ (after m) i) by (intros i Hi; rewrite step_at by assumption; rewrite N by exact Hi; reflexivity).
      split; intros v Hv.
      -- destruct (C v Hv) as [i [Li Ei]]; exists i; rewrite Eq by exact Li; auto.
      -- destruct (D v Hv) as [k [Lk Ek]]; exists k; split; [lia|]; intros i Li Ei; rewrite Eq in Ei by exact Li; auto.
    * split; intros v Hv; destruct (Z.eq_dec v (max_list (after m) + 1)) as [->|Nv].
      -- exists j; split; [exact Lj|]; rewrite step_at by assumption; rewrite Ej; reflexivity.
      -- destruct (C v ltac:(lia)) as [i [Li Ei]]; exists i; split; [exact Li|]; rewrite Old by (exact Li || lia); exact Ei.
      -- exists m; split; [lia|]; intros i Li; rewrite step_at by assumption.
         destruct ((at_ (after m) i <? 0)%Z && same m i) eqn:F; [intros _; apply andb_true_iff in F; apply F|].
         intro E; assert (Mx := max_ge (after m) i); lia.
      -- destruct (D v ltac:(lia)) as [k [Lk Ek]]; exists k; split; [lia|]; intros i Li; rewrite step_at by assumption.
         destruct ((at_ (after m) i <? 0)%Z && same m i) eqn:F; [intro E; lia|]; intro E; apply Ek; assumption.
Qed.

Lemma result_after : get_group_indices same n = after n.
Proof. reflexivity. Qed.

(* every boundary is in one group, numbered from 0 without gaps, and each group has a boundary with which all its
   members may be merged *)
Lemma groups : let g := get_group_indices same n in
  List.length g = n /\ (forall i, (i < n)%nat -> (0 <= at_ g i)%Z) /\
  (forall i v, (i < n)%nat -> (0 <= v <= at_ g i)%Z -> exists j, (j < n)%nat /\ at_ g j = v) /\
  (forall j, (j < n)%nat -> exists k, (k < n)%nat /\ forall i, (i < n)%nat -> at_ g i = at_ g j -> same k i = true).
Proof.
rewrite result_after; cbv zeta; destruct (invariant n (le_n n)) as [A [B [C D]]]; cbv zeta in *.
split; [apply after_length|]; split; [exact A|]; split.
- intros i v Hi Hv; apply C; assert (M := max_ge (after n) i); lia.
- intros j Hj; assert (P := A j Hj); assert (M := max_ge (after n) j); destruct (D (at_ (after n) j) ltac:(lia)) as [k [Lk Ek]]; exists k; auto.
Qed.

Section Equivalence.
Hypothesis sym : forall i j, (i < n)%nat -> (j < n)%nat -> same i j = true -> same j i = true.
Hypothesis trans : forall i j k, (i < n)%nat -> (j < n)%nat -> (k < n)%nat -> same i j = true -> same j k = true -> same i k = true.

Lemma invariant_equiv m : (m <= n)%nat ->
  let g := after m in
  (forall i j, (i < n)%nat -> (j < n)%nat -> (0 <= at_ g i)%Z -> (same i j = true <-> at_ g j = at_ g i)) /\
  (forall v, (0 <= v <= max_list g)%Z -> exists i, (i < m)%nat /\ at_ g i = v) /\
  (forall j w, (j < n)%nat -> (0 <= w < at_ g j)%Z -> exists i, (i < j)%nat /\ at_ g i = w).
Proof.
induction m as [|m IH]; intro Hm; cbv zeta.
- unfold after; simpl; repeat split; try (intro H).
  + rewrite at_start in *; lia.
  + rewrite at_start in *; lia.
  + intro H'; rewrite max_start in H'; lia.
  + intros w _ H'; rewrite at_start in H'; lia.
- destruct (IH ltac:(lia)) as [E [C O]]; cbv zeta in *; destruct (invariant m ltac:(lia)) as [A [B _]]; cbv zeta in *; assert (L := after_length m); rewrite after_S.
  assert (Low := max_lower (after m)).
  assert (Old : forall i, (i < n)%nat -> (0 <= at_ (after m) i)%Z -> at_ (group_step same n (after m) m) i = at_ (after m) i).
  { intros i Hi P; rewrite step_at by assumption; destruct (Z.ltb_spec (at_ (after m) i) 0); [lia|reflexivity]. }
  destruct (Z_lt_le_dec (at_ (after m) m) 0) as [Neg|Pos].
  + (* m begins a new group *)
    assert (New : forall i, (i < n)%nat -> same m i = true -> (at_ (after m) i < 0)%Z).
    { intros i Hi Si; destruct (Z_lt_le_dec (at_ (after m) i) 0) as [|P]; [assumption|].
      assert (X := proj1 (E i m Hi ltac:(lia) P) (sym m i ltac:(lia) Hi Si)); lia. }
    assert (At : forall i, (i < n)%nat -> at_ (group_step same n (after m) m) i = if same m i then (max_list (after m) + 1)%Z else at_ (after m) i).
    { intros i Hi; rewrite step_at by assumption; destruct (same m i) eqn:Si; [|rewrite andb_false_r; reflexivity].
      rewrite (proj2 (Z.ltb_lt _ _) (New i Hi Si)); reflexivity. }
    assert (Mx : max_list (group_step same n (after m) m) = (max_list (after m) + 1)%Z).
    { destruct (step_max (after m) m L) as [[_ N]|[Em _]]; [|exact Em]; specialize (N m ltac:(lia)); rewrite refl, (proj2 (Z.ltb_lt _ _) Neg) in N by lia; discriminate. }
    split; [|split].
    * intros i j Hi Hj; rewrite !At by assumption; destruct (same m i) eqn:Si; destruct (same m j) eqn:Sj; intro P.
      -- split; [reflexivity|intros _]; apply (trans i m j); auto; lia || (apply sym; auto; lia).
      -- split.
         ++ intro Sij; rewrite (trans m i j) in Sj by (auto; lia); discriminate.
         ++ intro Q; assert (M := max_ge (after m) j); lia.
      -- split.
         ++ intro Sij; rewrite (trans m j i) in Si by (auto; lia); discriminate.
         ++ intro Q; assert (M := max_ge (after m) i); lia.
      -- apply E; assumption.
    * rewrite Mx; intros v Hv; destruct (Z.eq_dec v (max_list (after m) + 1)) as [->|Nv].
      -- exists m; split; [lia|]; rewrite At, refl by lia; reflexivity.
      -- destruct (C v ltac:(lia)) as [i [Li Ei]]; exists i; split; [lia|]; rewrite Old; [exact Ei|lia|lia].
    * intros j w Hj; rewrite At by exact Hj; destruct (same m j) eqn:Sj; intro Hw.
      -- destruct (C w ltac:(lia)) as [i [Li Ei]]; exists i; split; [|rewrite Old; [exact Ei|lia|lia]].
         destruct (Nat.lt_ge_cases j m) as [Lt|Ge]; [|lia]; assert (P := A j Lt); assert (Q := New j Hj Sj); lia.
      -- destruct (O j w Hj Hw) as [i [Li Ei]]; exists i; split; [exact Li|]; rewrite Old; [exact Ei|lia|lia].
  + (* m is in a group, and so are all others like it *)
    assert (N : forall i, (i < n)%nat -> (at_ (after m) i <? 0)%Z && same m i = false).
    { intros i Hi; destruct (same m i) eqn:Si; [|apply andb_false_r].
      assert (X := proj1 (E m i ltac:(lia) Hi Pos) Si); destruct (Z.ltb_spec (at_ (after m) i) 0); [lia|reflexivity]. }
    assert (At : forall i, (i < n)%nat -> at_ (group_step same n (after m) m) i = at_ (after m) i).
    { intros i Hi; rewrite step_at by assumption; rewrite N by exact Hi; reflexivity. }
    assert (Mx : max_list (group_step same n (after m) m) = max_list (after m)).
    { destruct (step_max (after m) m L) as [[Em _]|[_ [j [Lj Ej]]]]; [exact Em|rewrite N in Ej by exact Lj; discriminate]. }
    split; [|split].
    * intros i j Hi Hj; rewrite !At by assumption; apply E; assumption.
    * rewrite Mx; intros v Hv; destruct (C v Hv) as [i [Li Ei]]; exists i; split; [lia|]; rewrite At; [exact Ei|lia].
    * intros j w Hj; rewrite At by exact Hj; intro Hw; destruct (O j w Hj Hw) as [i [Li Ei]]; exists i; split; [exact Li|]; rewrite At; [exact Ei|lia].
Qed.

Lemma groups_equiv : let g := get_group_indices same n in
  (forall i j, (i < n)%nat -> (j < n)%nat -> (same i j = true <-> at_ g i = at_ g j)) /\
  (forall j w, (j < n)%nat -> (0 <= w < at_ g j)%Z -> exists i, (i < j)%nat /\ at_ g i = w).
Proof.
rewrite result_after; cbv zeta; destruct (invariant n (le_n n)) as [A _]; destruct (invariant_equiv n (le_n n)) as [E [_ O]]; cbv zeta in *.
split; [|exact O]; intros i j Hi Hj; rewrite (E i j Hi Hj (A i Hi)); split; congruence.
Qed.
End Equivalence.
End Grouping.

(* the areas *)
Local Open Scope R_scope.

Lemma areas_of_none groups_ : areas_of_groups [] [] groups_ = map (fun _ => 0) groups_.
Proof. reflexivity. Qed.

Lemma total_map_add A (f h : A -> R) l : total (map (fun x => f x + h x) l) = total (map f l) + total (map h l).
Proof. induction l as [|x l IH]; unfold total in *; simpl; [lra|]; rewrite IH; lra. Qed.

Lemma total_indicator (v : Z) (a : R) gs : NoDup gs -> In v gs -> total (map (fun i => if (v =? i)%Z then a else 0) gs) = a.
Proof.
assert (Z0 : forall l, ~ In v l -> total (map (fun i => if (v =? i)%Z then a else 0) l) = 0).
{ induction l as [|x l IH]; intro N; unfold total in *; simpl; [reflexivity|]; destruct (Z.eqb_spec v x) as [->|]; [exfalso; apply N; left; reflexivity|].
  rewrite IH; [lra|intro I; apply N; right; exact I]. }
induction 1 as [|x l N D IH]; intros I; [destruct I|]; unfold total in *; simpl; destruct (Z.eqb_spec v x) as [->|Ne].
- rewrite Z0 by exact N; lra.
- destruct I as [->|I]; [congruence|]; rewrite IH by exact I; lra.
Qed.

Lemma areas_total areas : forall g gs, List.length areas = List.length g -> NoDup gs -> (forall v, In v g -> In v gs) ->
  total (areas_of_groups areas g gs) = total areas.
Proof.
induction areas as [|a areas IH]; intros [|v g] gs L D I; try discriminate L.
- unfold areas_of_groups; simpl; clear; induction gs as [|x l IH]; unfold total in *; simpl; [reflexivity|rewrite IH; lra].
- unfold areas_of_groups; cbn [combine filter snd].
  assert (E : forall i, fold_right Rplus 0 (map fst (filter (fun p : R * Z => (snd p =? i)%Z) ((a, v) :: combine areas g))) =
    (if (v =? i)%Z then a else 0) + fold_right Rplus 0 (map fst (filter (fun p => (snd p =? i)%Z) (combine areas g)))).
  { intro i; simpl; destruct (v =? i)%Z; simpl; lra. }
  rewrite (map_ext _ _ E), total_map_add, total_indicator by (exact D || (apply I; left; reflexivity)).
  change (map (fun x => fold_right Rplus 0 (map fst (filter (fun p => (snd p =? x)%Z) (combine areas g)))) gs) with (areas_of_groups areas g gs).
  rewrite IH; [unfold total; simpl; lra|simpl in L; lia|exact D|intros x Ix; apply I; right; exact Ix].
Qed.

(* the comparison of two boundaries *)
Lemma almost_refl x : is_almost_equal x x = true.
Proof. unfold is_almost_equal, lt_dec; replace (x - x) with 0 by ring; rewrite Rabs_R0; destruct (Rlt_dec 0 (1 / 100000)); [reflexivity|lra]. Qed.
Lemma almost_sym x y : is_almost_equal x y = is_almost_equal y x.
Proof. unfold is_almost_equal; rewrite Rabs_minus_sym; reflexivity. Qed.

Lemma opt_eqb_refl A (eqb : A -> A -> bool) o : (forall a, eqb a a = true) -> opt_eqb eqb o o = true.
Proof. intro H; destruct o; simpl; auto. Qed.

Lemma integratable_refl b : is_boundary_integratable b b = true.
Proof.
unfold is_boundary_integratable; rewrite Z.eqb_refl, !Bool.eqb_reflx, almost_refl, almost_refl, Z.eqb_refl, opt_eqb_refl, opt_eqb_refl by (apply String.eqb_refl || apply Bool.eqb_reflx).
destruct (bs_type b); cbn; repeat rewrite ?andb_false_r; reflexivity.
Qed.

Lemma same_of_refl bss k : (k < List.length bss)%nat -> same_of bss k k = true.
Proof. intro H; unfold same_of; destruct (nth_error bss k) eqn:E; [apply integratable_refl|apply nth_error_None in E; lia]. Qed.

Lemma almost_near x y : is_almost_equal x y = true <-> near x y.
Proof. unfold is_almost_equal, lt_dec, near; destruct (Rlt_dec (Rabs (x - y)) (1 / 100000)); split; auto; discriminate. Qed.

Lemma btype_eqb_spec a b : btype_eqb a b = true <-> a = b.
Proof. destruct a, b; simpl; split; congruence. Qed.

Lemma opt_eqb_spec A (eqb : A -> A -> bool) (H : forall x y, eqb x y = true <-> x = y) a b : opt_eqb eqb a b = true <-> a = b.
Proof. destruct a as [x|], b as [y|]; simpl; rewrite ?H; split; congruence. Qed.

Lemma bool_eqb_spec a b : Bool.eqb a b = true <-> a = b.
Proof. apply Bool.eqb_true_iff. Qed.

Lemma integratable_similar a b : is_boundary_integratable a b = true <-> similar a b.
Proof.
unfold is_boundary_integratable, similar, outside.
rewrite <- !almost_near, <- (btype_eqb_spec (bs_type a) (bs_type b)), <- (bool_eqb_spec (bs_is_floor a)), <- (bool_eqb_spec (bs_is_solar_absorbed_inside a)).
rewrite <- (Z.eqb_eq (bs_connected_room_id a)), <- (Z.eqb_eq (bs_next_room_type a)).
rewrite <- (opt_eqb_spec _ _ bool_eqb_spec (bs_is_sun_striked_outside a) (bs_is_sun_striked_outside b)).
rewrite <- (opt_eqb_spec _ _ String.eqb_eq (bs_direction a) (bs_direction b)).
destruct (bs_connected_room_id a =? bs_connected_room_id b)%Z; [|simpl; split; [discriminate|intuition discriminate]].
destruct (btype_eqb (bs_type a) (bs_type b)); [|simpl; split; [discriminate|intuition discriminate]].
destruct (Bool.eqb (bs_is_floor a) (bs_is_floor b)); [|simpl; split; [discriminate|intuition discriminate]].
destruct (Bool.eqb (bs_is_solar_absorbed_inside a) (bs_is_solar_absorbed_inside b)); [|simpl; split; [discriminate|intuition discriminate]].
destruct (is_almost_equal (bs_h_i a) (bs_h_i b)); [|simpl; split; [discriminate|intuition discriminate]].
destruct (is_almost_equal (bs_h_td a) (bs_h_td b)), (opt_eqb Bool.eqb (bs_is_sun_striked_outside a) (bs_is_sun_striked_outside b)),
  (opt_eqb String.eqb (bs_direction a) (bs_direction b)), (bs_next_room_type a =? bs_next_room_type b)%Z,
  (bs_type a), (bs_is_sun_striked_outside a) as [[|]|]; simpl; intuition (try discriminate; congruence).
Qed.

Lemma near_sym x y : near x y -> near y x.
Proof. unfold near; rewrite Rabs_minus_sym; auto. Qed.

Lemma similar_sym a b : similar a b -> similar b a.
Proof.
unfold similar; intros [A [B [C [D [E [F G]]]]]]; repeat (split; [congruence || apply near_sym, E|]); split.
- intro O; rewrite <- B in O; destruct (F O) as [F1 [F2 F3]]; split; [congruence|]; split; [apply near_sym, F2|]; intro H; symmetry; apply F3; congruence.
- intro H; symmetry; apply G; congruence.
Qed.

Lemma similar_trans l a b c : clear_cut l -> In a l -> In b l -> In c l -> similar a b -> similar b c -> similar a c.
Proof.
intros K Ia Ib Ic [A1 [A2 [A3 [A4 [A5 [A6 A7]]]]]] [B1 [B2 [B3 [B4 [B5 [B6 B7]]]]]].
unfold similar; repeat (split; [congruence|]).
split; [rewrite (proj1 (K a b Ia Ib) A5); exact B5|]; split.
- intro O; assert (O' := O); rewrite A2 in O'; destruct (A6 O) as [P1 [P2 P3]]; destruct (B6 O') as [Q1 [Q2 Q3]].
  split; [congruence|]; split; [rewrite (proj2 (K a b Ia Ib) P2); exact Q2|]; intro H; rewrite P3 by exact H; apply Q3; congruence.
- intro H; rewrite A7 by exact H; apply B7; congruence.
Qed.

Lemma same_of_similar bss i j a b : nth_error bss i = Some a -> nth_error bss j = Some b -> (same_of bss i j = true <-> similar a b).
Proof. intros A B; unfold same_of; rewrite A, B; apply integratable_similar. Qed.

Lemma nth_some A (l : list A) i : (i < List.length l)%nat -> exists a, nth_error l i = Some a.
Proof. intro H; destruct (nth_error l i) eqn:E; [eauto|apply nth_error_None in E; lia]. Qed.

Lemma same_of_sym bss i j : (i < List.length bss)%nat -> (j < List.length bss)%nat -> same_of bss i j = true -> same_of bss j i = true.
Proof.
intros Hi Hj; destruct (nth_some _ _ _ Hi) as [a A]; destruct (nth_some _ _ _ Hj) as [b B].
rewrite (same_of_similar _ _ _ _ _ A B), (same_of_similar _ _ _ _ _ B A); apply similar_sym.
Qed.

Lemma same_of_trans bss i j k : clear_cut bss -> (i < List.length bss)%nat -> (j < List.length bss)%nat -> (k < List.length bss)%nat ->
  same_of bss i j = true -> same_of bss j k = true -> same_of bss i k = true.
Proof.
intros K Hi Hj Hk; destruct (nth_some _ _ _ Hi) as [a A]; destruct (nth_some _ _ _ Hj) as [b B]; destruct (nth_some _ _ _ Hk) as [c C].
rewrite (same_of_similar _ _ _ _ _ A B), (same_of_similar _ _ _ _ _ B C), (same_of_similar _ _ _ _ _ A C).
apply (similar_trans bss); eauto using nth_error_In.
Qed.

Lemma grouping_order bss i j : clear_cut bss -> let g := get_group_indices (same_of bss) (List.length bss) in
  (i < j < List.length bss)%nat -> first_of_group g i -> first_of_group g j -> (at_ g i < at_ g j)%Z.
Proof.
intros K g [Hij Hj] Fi Fj.
destruct (groups _ _ (same_of_refl bss)) as [_ [P _]]; destruct (groups_equiv _ _ (same_of_refl bss) (same_of_sym bss) (fun a b c => same_of_trans bss a b c K)) as [_ O].
cbv zeta in *; fold g in P, O.
assert (Ne := Fj i Hij); fold (at_ g i) (at_ g j) in Ne.
destruct (Z_lt_le_dec (at_ g i) (at_ g j)) as [|Ge]; [assumption|].
destruct (O i (at_ g j) ltac:(lia)) as [k [Lk Ek]]; [assert (Q := P j Hj); lia|].
exfalso; apply (Fj k ltac:(lia)); exact Ek.
Qed.

(* A chain of nearly equal boundaries: the second is near the first; the third is near the second only; so is the fourth *)
Definition ex_b (h_i h_td : R) : bsimple := {|
  bs_id := 0; bs_name := "wall"%string; bs_connected_room_id := 0; bs_type := ExternalOpaquePart; bs_area := 1; bs_h_td := h_td; bs_next_room_type := (-1);
  bs_rear_surface_boundary_id := None; bs_is_floor := false; bs_is_solar_absorbed_inside := false; bs_is_sun_striked_outside := Some false;
  bs_direction := None; bs_h_i := h_i; bs_h_c := 1; bs_theta_o_sol := nil; bs_q_trs_sol := nil |}.
Definition ex_chain : list bsimple :=
  [ex_b 4 0; ex_b (4 + 9 / 1000000) (9 / 1000000); ex_b (4 + 18 / 1000000) 0; ex_b 4 (18 / 1000000)].

Lemma ex_similar h1 t1 h2 t2 : is_boundary_integratable (ex_b h1 t1) (ex_b h2 t2) = is_almost_equal h1 h2 && is_almost_equal t1 t2.
Proof. unfold is_boundary_integratable; cbn; destruct (is_almost_equal h1 h2), (is_almost_equal t1 t2); reflexivity. Qed.

Lemma almost_yes x y : -1 / 100000 < x - y < 1 / 100000 -> is_almost_equal x y = true.
Proof. intro H; apply almost_near; unfold near; apply Rabs_def1; lra. Qed.
Lemma almost_no x y : 1 / 100000 <= x - y \/ x - y <= -1 / 100000 -> is_almost_equal x y = false.
Proof.
intro H; destruct (is_almost_equal x y) eqn:E; [|reflexivity]; apply almost_near in E; unfold near in E; apply Rabs_def2 in E; lra.
Qed.

Lemma ex_chain_groups : get_group_indices (same_of ex_chain) 4 = [0; 0; 1; 1]%Z.
Proof.
assert (S : forall i j, (i < 4)%nat -> (j < 4)%nat -> same_of ex_chain i j =
  match i, j with 0%nat, 2%nat | 0%nat, 3%nat | 2%nat, 0%nat | 3%nat, 0%nat | 2%nat, 3%nat | 3%nat, 2%nat => false | _, _ => true end).
{ intros i j Hi Hj; do 4 (destruct i as [|i]; [do 4 (destruct j as [|j]; [unfold same_of; cbn [nth_error ex_chain]; rewrite ex_similar;
  ((rewrite !almost_yes by lra; reflexivity) || (apply andb_false_intro1, almost_no; lra) || (apply andb_false_intro2, almost_no; lra))|]); lia|]); lia. }
unfold get_group_indices; cbn [seq repeat fold_left]; unfold group_step; cbn [seq combine map fst snd]; rewrite !S by lia; reflexivity.
Qed.

Lemma ex_chain_not : same_of ex_chain 2 3 = false.
Proof. unfold same_of; cbn [nth_error ex_chain]; rewrite ex_similar; apply andb_false_intro1, almost_no; lra. Qed.

(* another order: the third boundary has nothing to do with the others, the fourth is near the second only *)
Definition ex_chain2 : list bsimple := [ex_b 4 0; ex_b (4 + 9 / 1000000) 0; ex_b 9 0; ex_b (4 + 18 / 1000000) 0].
Lemma ex_chain2_groups : get_group_indices (same_of ex_chain2) 4 = [0; 0; 2; 1]%Z.
Proof.
assert (S : forall i j, (i < 4)%nat -> (j < 4)%nat -> same_of ex_chain2 i j =
  match i, j with 2%nat, 2%nat => true | 2%nat, _ => false | _, 2%nat => false | 0%nat, 3%nat | 3%nat, 0%nat => false | _, _ => true end).
{ intros i j Hi Hj; do 4 (destruct i as [|i]; [do 4 (destruct j as [|j]; [unfold same_of; cbn [nth_error ex_chain2]; rewrite ex_similar;
  ((rewrite !almost_yes by lra; reflexivity) || (apply andb_false_intro1, almost_no; lra) || (apply andb_false_intro2, almost_no; lra))|]); lia|]); lia. }
unfold get_group_indices; cbn [seq repeat fold_left]; unfold group_step; cbn [seq combine map fst snd]; rewrite !S by lia; reflexivity.
Qed.

(* the statements of the property *)
Lemma partition_of bss : let g := get_group_indices (same_of bss) (List.length bss) in
  List.length g = List.length bss /\
  (forall i, (i < List.length bss)%nat -> (0 <= nth i g (-1))%Z) /\
  (forall i v, (i < List.length bss)%nat -> (0 <= v <= nth i g (-1))%Z -> exists j, (j < List.length bss)%nat /\ nth j g (-1)%Z = v).
Proof. destruct (groups _ _ (same_of_refl bss)) as [A [B [C _]]]; auto. Qed.

Lemma common_boundary bss j : let g := get_group_indices (same_of bss) (List.length bss) in
  (j < List.length bss)%nat -> exists c, In c bss /\
  forall i b, nth_error bss i = Some b -> nth i g (-1)%Z = nth j g (-1)%Z -> similar c b.
Proof.
intros g H; destruct (groups _ _ (same_of_refl bss)) as [_ [_ [_ D]]]; destruct (D j H) as [k [Hk S]].
destruct (nth_some _ _ _ Hk) as [c C]; exists c; split; [apply (nth_error_In _ _ C)|]; intros i b B E.
apply (same_of_similar _ _ _ _ _ C B), S; [|exact E]; apply nth_error_Some; congruence.
Qed.

Lemma same_group_iff bss i j a b : clear_cut bss -> let g := get_group_indices (same_of bss) (List.length bss) in
  nth_error bss i = Some a -> nth_error bss j = Some b -> (nth i g (-1)%Z = nth j g (-1)%Z <-> similar a b).
Proof.
intros K g A B; destruct (groups_equiv _ _ (same_of_refl bss) (same_of_sym bss) (fun a b c => same_of_trans bss a b c K)) as [E _].
rewrite <- (same_of_similar _ _ _ _ _ A B); symmetry; apply E; apply nth_error_Some; congruence.
Qed.

Lemma area_kept bss gs : let g := get_group_indices (same_of bss) (List.length bss) in
  NoDup gs -> (forall v, In v g -> In v gs) ->
  total (areas_of_groups (map bs_area bss) g gs) = total (map bs_area bss).
Proof.
intros g N I; apply areas_total; [|exact N|exact I].
destruct (groups _ _ (same_of_refl bss)) as [L _]; rewrite map_length; symmetry; exact L.
Qed.

Lemma chain_first : exists bss, let g := get_group_indices (same_of bss) (List.length bss) in
  exists i j a b, first_of_group g i /\ nth i g (-1)%Z = nth j g (-1)%Z /\
  nth_error bss i = Some a /\ nth_error bss j = Some b /\ ~ similar a b.
Proof.
exists ex_chain; cbv zeta; change (List.length ex_chain) with 4%nat; rewrite ex_chain_groups.
exists 2%nat, 3%nat; do 2 eexists; split; [intros k Hk; do 2 (destruct k as [|k]; [cbn; lia|]); lia|].
split; [reflexivity|]; split; [reflexivity|]; split; [reflexivity|].
intro S; assert (X : same_of ex_chain 2 3 = true) by (apply integratable_similar in S; exact S); rewrite ex_chain_not in X; discriminate X.
Qed.

Lemma chain_order : exists bss, let g := get_group_indices (same_of bss) (List.length bss) in
  exists i j, (i < j < List.length bss)%nat /\ first_of_group g i /\ first_of_group g j /\ (nth j g (-1) < nth i g (-1))%Z.
Proof.
exists ex_chain2; cbv zeta; change (List.length ex_chain2) with 4%nat; rewrite ex_chain2_groups.
exists 2%nat, 3%nat; split; [lia|]; split; [intros k Hk; do 2 (destruct k as [|k]; [cbn; lia|]); lia|].
split; [intros k Hk; do 3 (destruct k as [|k]; [cbn; lia|]); lia|]; cbn; lia.
Qed.

(* two similar walls and one unlike them *)
Definition ex_plain : list bsimple := [ex_b 4 1; ex_b 9 1; ex_b 4 1].
Lemma ex_plain_clear : clear_cut ex_plain.
Proof.
intros a b [<-|[<-|[<-|[]]]] [<-|[<-|[<-|[]]]]; cbn; split; intro H; try reflexivity; unfold near in H; apply Rabs_def2 in H; lra.
Qed.
Lemma ex_plain_groups : get_group_indices (same_of ex_plain) 3 = [0; 1; 0]%Z.
Proof.
assert (S : forall i j, (i < 3)%nat -> (j < 3)%nat -> same_of ex_plain i j = match i, j with 1%nat, 1%nat => true | 1%nat, _ | _, 1%nat => false | _, _ => true end).
{ intros i j Hi Hj; do 3 (destruct i as [|i]; [do 3 (destruct j as [|j]; [unfold same_of; cbn [nth_error ex_plain]; rewrite ex_similar;
  ((rewrite !almost_yes by lra; reflexivity) || (apply andb_false_intro1, almost_no; lra))|]); lia|]); lia. }
unfold get_group_indices, group_step; cbn [seq repeat fold_left combine map fst snd max_list fold_right]; rewrite !S by lia; reflexivity.
Qed.
