(* The heat balance of the surfaces of a glazing: a chain of resistances with sources in between. *)
From Coq Require Import Reals ZArith List Bool Lia Lra.
From Verif Require Import Model.Py Model.EesHouse Model.GlassBalance Spec.GlassHeat.
Import ListNotations.
Local Open Scope R_scope.

Section Chain.
Variables (r q : nat -> R) (te ti : R) (N : nat).

(* sums over the first k *)
Fixpoint A (k : nat) : R := match k with O => r 0%nat | S k' => A k' + r (S k') end.
Fixpoint W (k : nat) : R := match k with O => 0 | S k' => W k' + q k' * A k' end.
Fixpoint Q (k : nat) : R := match k with O => 0 | S k' => Q k' + q k' end.

(* the flow inwards through resistance i *)
Definition flow (th : nat -> R) (i : nat) : R :=
  ((if (i =? 0)%nat then te else th (i - 1)%nat) - (if (i =? N)%nat then ti else th i)) / r i.

Hypothesis N0 : (0 < N)%nat.
Hypothesis R0 : forall i, (i <= N)%nat -> 0 < r i.

Lemma A_pos k : (k <= N)%nat -> 0 < A k.
Proof. induction k as [|k IH]; intro K; simpl; [apply R0; lia|]; assert (X := R0 (S k) K); assert (Y := IH ltac:(lia)); lra. Qed.

Lemma flow_drop th i : (i <= N)%nat ->
  r i * flow th i = (if (i =? 0)%nat then te else th (i - 1)%nat) - (if (i =? N)%nat then ti else th i).
Proof. intro I; unfold flow; assert (X := R0 i I); field; lra. Qed.

Lemma chain_drop th k : (forall i, (i < N)%nat -> flow th i + q i = flow th (S i)) -> (k < N)%nat ->
  te - th k = A k * flow th k - W k.
Proof.
intros B; induction k as [|k IH]; intro K.
- simpl; rewrite flow_drop by lia; replace (0 =? N)%nat with false by (symmetry; apply Nat.eqb_neq; lia); simpl; ring.
- assert (I := IH ltac:(lia)); assert (F := flow_drop th (S k) ltac:(lia)).
  replace (S k =? N)%nat with false in F by (symmetry; apply Nat.eqb_neq; lia).
  simpl (S k =? 0)%nat in F; cbv iota in F; replace (S k - 1)%nat with k in F by lia.
  assert (E := B k ltac:(lia)); cbn [A W].
  replace (flow th k) with (flow th (S k) - q k) in I by lra.
  assert (G : te - th (S k) = (te - th k) + (th k - th (S k))) by ring.
  rewrite G, I, <- F; ring.
Qed.

Lemma chain_end th : (forall i, (i < N)%nat -> flow th i + q i = flow th (S i)) ->
  te - ti = A N * flow th N - W N.
Proof.
intro B; destruct N as [|k] eqn:E; [lia|rewrite <- E in *].
assert (I := chain_drop th k B ltac:(lia)); assert (F := flow_drop th N ltac:(lia)).
rewrite Nat.eqb_refl in F; replace (N =? 0)%nat with false in F by (symmetry; apply Nat.eqb_neq; lia).
replace (N - 1)%nat with k in F by lia.
assert (EQ := B k ltac:(lia)); replace (S k) with N in EQ by lia.
replace (A N) with (A k + r N) by (rewrite E; reflexivity).
replace (W N) with (W k + q k * A k) by (rewrite E; reflexivity).
replace (flow th k) with (flow th N - q k) in I by lra.
replace (te - ti) with ((te - th k) + (th k - ti)) by ring.
rewrite I, <- F; ring.
Qed.

Lemma flow_sum th k : (forall i, (i < N)%nat -> flow th i + q i = flow th (S i)) -> (k <= N)%nat ->
  flow th k = flow th 0%nat + Q k.
Proof. intro B; induction k as [|k IH]; intro K; simpl; [ring|]; rewrite <- (B k) by lia; rewrite IH by lia; ring. Qed.

Lemma chain_in th : (forall i, (i < N)%nat -> flow th i + q i = flow th (S i)) ->
  flow th N = (te - ti) / A N + W N / A N.
Proof. intro B; assert (E := chain_end th B); assert (P := A_pos N (le_n _)); rewrite E; field; lra. Qed.

Lemma chain_unique th th' : (forall i, (i < N)%nat -> flow th i + q i = flow th (S i)) ->
  (forall i, (i < N)%nat -> flow th' i + q i = flow th' (S i)) -> forall k, (k < N)%nat -> th k = th' k.
Proof.
intros B B' k K.
assert (E := chain_in th B); assert (E' := chain_in th' B').
assert (S1 := flow_sum th N B (le_n _)); assert (S1' := flow_sum th' N B' (le_n _)).
assert (S2 := flow_sum th k B ltac:(lia)); assert (S2' := flow_sum th' k B' ltac:(lia)).
assert (D := chain_drop th k B K); assert (D' := chain_drop th' k B' K).
assert (F : flow th k = flow th' k) by lra.
rewrite F in D; lra.
Qed.

Lemma chain_exists : exists th, forall i, (i < N)%nat -> flow th i + q i = flow th (S i).
Proof.
assert (P := A_pos N (le_n _)).
set (f0 := ((te - ti) + W N) / A N - Q N).
set (phi := fun i => f0 + Q i).
set (D := fix D k := match k with O => r 0%nat * phi 0%nat | S k' => D k' + r (S k') * phi (S k') end).
assert (DA : forall k, D k = A k * phi k - W k).
{ induction k as [|k IH]; [simpl; ring|].
  change (D (S k)) with (D k + r (S k) * phi (S k)); rewrite IH; unfold phi; cbn [A W Q]; ring. }
assert (DN : D N = te - ti).
{ rewrite DA; unfold phi, f0; field; lra. }
exists (fun i => te - D i).
assert (FL : forall i, (i <= N)%nat -> flow (fun j => te - D j) i = phi i).
{ intros i I; assert (X := R0 i I); apply (Rmult_eq_reg_l (r i)); [|lra]; rewrite flow_drop by exact I.
  assert (T : (if (i =? N)%nat then ti else te - D i) = te - D i).
  { destruct (Nat.eqb_spec i N) as [->|_]; [rewrite DN; ring|reflexivity]. }
  rewrite T; destruct i as [|i]; [simpl; ring|].
  simpl (S i =? 0)%nat; cbv iota; replace (S i - 1)%nat with i by lia.
  change (D (S i)) with (D i + r (S i) * phi (S i)); ring. }
intros i I; rewrite !FL by lia; unfold phi; cbn [Q]; ring.
Qed.

End Chain.

(* ---- the program's equations ---- *)
Lemma heat_flow_flow r q theta te ti i : (0 < length theta)%nat -> (i < length theta)%nat ->
  (forall k, (k <= length theta)%nat -> 0 < at_ r k) -> (2 <= length theta)%nat ->
  heat_flow r q theta te ti i =
  flow (at_ r) te ti (length theta) (at_ theta) i + at_ q i - flow (at_ r) te ti (length theta) (at_ theta) (S i).
Proof.
intros L I P L2; unfold heat_flow, flow.
assert (X := P i ltac:(lia)); assert (Y := P (S i) ltac:(lia)).
replace (i + 1)%nat with (S i) by lia.
replace (i =? length theta)%nat with false by (symmetry; apply Nat.eqb_neq; lia).
simpl (S i =? 0)%nat; cbv iota; replace (S i - 1)%nat with i by lia.
destruct (Nat.eqb_spec i 0) as [->|I0].
- replace (0 =? length theta - 1)%nat with false by (symmetry; apply Nat.eqb_neq; lia).
  replace (1 =? length theta)%nat with false by (symmetry; apply Nat.eqb_neq; lia).
  field; lra.
- destruct (Nat.eqb_spec i (length theta - 1)) as [E|E].
  + replace (S i =? length theta)%nat with true by (symmetry; apply Nat.eqb_eq; lia); field; lra.
  + replace (S i =? length theta)%nat with false by (symmetry; apply Nat.eqb_neq; lia); field; lra.
Qed.

Lemma py_sum_snoc l x : py_sum (l ++ [x]) = py_sum l + x.
Proof. unfold py_sum; induction l as [|y l IH]; simpl; [ring|rewrite IH; ring]. Qed.

Lemma firstn_at (l : list R) k : (k < length l)%nat -> firstn (S k) l = firstn k l ++ [at_ l k].
Proof.
revert k; induction l as [|x l IH]; intros k K; [simpl in K; lia|].
destruct k as [|k]; [reflexivity|]; cbn [firstn app]; simpl in K; f_equal; apply IH; lia.
Qed.

Lemma A_firstn reg k : (k < length reg)%nat -> A (at_ reg) k = py_sum (firstn (S k) reg).
Proof.
induction k as [|k IH]; intro K.
- destruct reg; [simpl in K; lia|]; simpl; unfold at_; simpl; unfold py_sum; simpl; ring.
- rewrite firstn_at by exact K; rewrite py_sum_snoc, <- IH by lia; reflexivity.
Qed.

Lemma A_all reg N : length reg = S N -> A (at_ reg) N = py_sum reg.
Proof. intro L; rewrite A_firstn by lia; rewrite firstn_all2 by lia; reflexivity. Qed.

Lemma half_at ia j : at_ (half_each ia) (2 * j) = at_ ia j / 2 /\ at_ (half_each ia) (2 * j + 1) = at_ ia j / 2.
Proof.
revert j; induction ia as [|x ia IH]; intro j.
- change (half_each []) with (@nil R); unfold at_; rewrite !nth_overflow by (cbn [length]; lia); split; lra.
- destruct j as [|j].
  + unfold at_; simpl; split; reflexivity.
  + replace (2 * S j)%nat with (S (S (2 * j))) by lia; replace (S (S (2 * j)) + 1)%nat with (S (S (2 * j + 1))) by lia.
    change (half_each (x :: ia)) with (x / 2 :: x / 2 :: half_each ia).
    unfold at_ in *; cbn [nth]; apply IH.
Qed.

Lemma W_qin ia reg n : length ia = n -> length reg = (2 * n + 1)%nat -> 0 < py_sum reg ->
  W (at_ reg) (at_ (half_each ia)) (2 * n) / py_sum reg = get_r_qin ia reg.
Proof.
intros LI LR P; unfold get_r_qin; rewrite LI.
assert (G : forall k, (k <= n)%nat -> W (at_ reg) (at_ (half_each ia)) (2 * k) / py_sum reg =
  py_sum (map (fun j => at_ ia j * ((py_sum (firstn (2 * j + 1) reg) + at_ reg (2 * j + 1) / 2) / py_sum reg)) (seq 0 k))).
{ induction k as [|k IH]; intro K; [unfold py_sum; simpl; field; unfold py_sum in P; simpl in P; lra|].
  rewrite seq_S, map_app, Nat.add_0_l; cbn [map]; rewrite py_sum_snoc, <- IH by lia.
  replace (2 * S k)%nat with (S (S (2 * k))) by lia; cbn [W].
  destruct (half_at ia k) as [H1 H2]; replace (S (2 * k)) with (2 * k + 1)%nat by lia; rewrite H1, H2.
  replace (2 * k + 1)%nat with (S (2 * k)) by lia; cbn [A]; rewrite A_firstn by lia.
  field; lra. }
apply G; lia.
Qed.

Definition positive (l : list R) : Prop := forall x, In x l -> 0 < x.

Lemma positive_at l k : positive l -> (k < length l)%nat -> 0 < at_ l k.
Proof. intros P K; apply P, nth_In, K. Qed.

Lemma positive_sum l : positive l -> l <> [] -> 0 < py_sum l.
Proof.
intros P N; destruct l as [|x l]; [contradiction|]; unfold py_sum; simpl.
assert (X := P x (or_introl eq_refl)).
assert (0 <= fold_right Rplus 0 l); [|lra].
assert (P' : forall y, In y l -> 0 < y) by (intros y Y; apply P; right; exact Y); clear P X N x.
induction l as [|y l IH]; simpl; [lra|].
assert (Y := P' y (or_introl eq_refl)); assert (0 <= fold_right Rplus 0 l) by (apply IH; intros z Z; apply P'; right; exact Z); lra.
Qed.

Lemma last_at (l : list R) : last l 0 = at_ l (length l - 1).
Proof.
unfold at_; induction l as [|x l IH]; [reflexivity|].
destruct l as [|y l]; [reflexivity|].
change (last (x :: y :: l) 0) with (last (y :: l) 0); rewrite IH.
simpl length; replace (S (S (length l)) - 1)%nat with (S (S (length l) - 1)) by lia; reflexivity.
Qed.

Lemma hd_at (l : list R) : hd 0 l = at_ l 0.
Proof. destruct l; reflexivity. Qed.

Section Balance.
Variables (reg ia theta : list R) (te ti : R) (n : nat).
Hypothesis n0 : (0 < n)%nat.
Hypothesis LR : length reg = (2 * n + 1)%nat.
Hypothesis LI : length ia = n.
Hypothesis LT : length theta = (2 * n)%nat.
Hypothesis RP : positive reg.
Hypothesis root : forall i, (i < length theta)%nat -> heat_flow reg (half_each ia) theta te ti i = 0.

Lemma reg_pos k : (k <= 2 * n)%nat -> 0 < at_ reg k.
Proof. clear LI; intro K; apply positive_at; [exact RP|lia]. Qed.

Lemma root_flow i : (i < 2 * n)%nat ->
  flow (at_ reg) te ti (2 * n) (at_ theta) i + at_ (half_each ia) i = flow (at_ reg) te ti (2 * n) (at_ theta) (S i).
Proof.
clear LI; intro I; assert (X := root i ltac:(lia)).
rewrite heat_flow_flow in X; rewrite ?LT in *; try lia; [lra|intros k K; apply reg_pos; lia].
Qed.

Lemma reg_sum : 0 < py_sum reg.
Proof. apply positive_sum; [exact RP|intros ->; simpl in LR; lia]. Qed.

Lemma heat_in_flow : heat_in theta reg ti = flow (at_ reg) te ti (2 * n) (at_ theta) (2 * n).
Proof.
unfold heat_in, flow; rewrite !last_at, LT, LR, Nat.eqb_refl.
replace (2 * n =? 0)%nat with false by (symmetry; apply Nat.eqb_neq; lia).
replace (2 * n + 1 - 1)%nat with (2 * n)%nat by lia; reflexivity.
Qed.

Lemma heat_out_flow : heat_out theta reg te = - flow (at_ reg) te ti (2 * n) (at_ theta) 0.
Proof.
unfold heat_out, flow; rewrite !hd_at; simpl (0 =? 0)%nat; cbv iota.
replace (0 =? 2 * n)%nat with false by (symmetry; apply Nat.eqb_neq; lia); unfold Rdiv; ring.
Qed.

Lemma balance_in : heat_in theta reg ti = 1 / py_sum reg * (te - ti) + get_r_qin ia reg.
Proof.
rewrite heat_in_flow, (chain_in (at_ reg) (at_ (half_each ia)) te ti (2 * n)).
- rewrite A_all by lia; rewrite (W_qin ia reg n LI LR reg_sum); field; assert (X := reg_sum); lra.
- lia.
- intros i I; apply reg_pos; lia.
- intros i I; apply root_flow; lia.
Qed.

Lemma Q_sum k : Q (at_ (half_each ia)) (2 * k) = py_sum (firstn k ia).
Proof.
induction k as [|k IH]; [reflexivity|].
replace (2 * S k)%nat with (S (S (2 * k))) by lia; cbn [Q]; rewrite IH.
destruct (half_at ia k) as [H1 H2]; replace (S (2 * k)) with (2 * k + 1)%nat by lia; rewrite H1, H2.
destruct (Nat.lt_ge_cases k (length ia)) as [K|K].
- rewrite firstn_at by exact K; rewrite py_sum_snoc; field.
- rewrite !firstn_all2 by lia; unfold at_; rewrite nth_overflow by exact K; field.
Qed.

Lemma balance_all : heat_in theta reg ti + heat_out theta reg te = total ia.
Proof.
rewrite heat_in_flow, heat_out_flow.
rewrite (flow_sum (at_ reg) (at_ (half_each ia)) te ti (2 * n) ltac:(lia) (at_ theta) (2 * n)) by (try lia; intros i I; apply root_flow; lia).
rewrite Q_sum, <- LI, firstn_all; unfold total, py_sum; ring.
Qed.

End Balance.

Lemma root_unique reg ia theta theta' te ti n : (0 < n)%nat -> length reg = (2 * n + 1)%nat ->
  length theta = (2 * n)%nat -> length theta' = (2 * n)%nat -> positive reg ->
  (forall i, (i < length theta)%nat -> heat_flow reg (half_each ia) theta te ti i = 0) ->
  (forall i, (i < length theta')%nat -> heat_flow reg (half_each ia) theta' te ti i = 0) -> theta = theta'.
Proof.
intros N LR LT LT' RP E E'.
apply (nth_ext _ _ 0 0); [congruence|]; intros k K; rewrite LT in K.
change (at_ theta k = at_ theta' k); apply (chain_unique (at_ reg) (at_ (half_each ia)) te ti (2 * n)); try lia.
- intros i I; apply positive_at; [exact RP|lia].
- intros i I; apply (root_flow reg ia theta te ti n); assumption.
- intros i I; apply (root_flow reg ia theta' te ti n); assumption.
Qed.

Lemma root_exists reg ia te ti n : (0 < n)%nat -> length reg = (2 * n + 1)%nat -> positive reg ->
  exists theta, length theta = (2 * n)%nat /\
  forall i, (i < length theta)%nat -> heat_flow reg (half_each ia) theta te ti i = 0.
Proof.
intros N LR RP.
assert (RK : forall i, (i <= 2 * n)%nat -> 0 < at_ reg i) by (intros i I; apply positive_at; [exact RP|lia]).
destruct (chain_exists (at_ reg) (at_ (half_each ia)) te ti (2 * n) ltac:(lia) RK) as [th B].
exists (map th (seq 0 (2 * n))).
assert (L : length (map th (seq 0 (2 * n))) = (2 * n)%nat) by (rewrite map_length, seq_length; reflexivity).
split; [exact L|]; intros i I; rewrite L in I.
assert (T : forall k, (k < 2 * n)%nat -> at_ (map th (seq 0 (2 * n))) k = th k).
{ intros k K; unfold at_; rewrite (nth_indep _ 0 (th 0%nat)) by (rewrite L; exact K).
  rewrite map_nth, seq_nth by exact K; reflexivity. }
rewrite heat_flow_flow; rewrite ?L; try lia; [|intros k K; apply RK; exact K].
assert (F : forall k, (k <= 2 * n)%nat -> flow (at_ reg) te ti (2 * n) (at_ (map th (seq 0 (2 * n)))) k = flow (at_ reg) te ti (2 * n) th k).
{ intros k K; unfold flow; destruct (Nat.eqb_spec k 0), (Nat.eqb_spec k (2 * n)); rewrite ?T by lia; reflexivity. }
rewrite !F by lia; rewrite <- B by lia; ring.
Qed.

(* the share of the absorbed sun that comes in *)
Lemma firstn_sum_le (l : list R) k : positive l -> 0 <= py_sum (firstn k l) <= py_sum l.
Proof.
revert k; induction l as [|x l IH]; intros k P; [rewrite firstn_nil; unfold py_sum; simpl; lra|].
assert (X := P x (or_introl eq_refl)).
assert (P' : positive l) by (intros y Y; apply P; right; exact Y).
destruct k as [|k]; [assert (I := IH 0%nat P')|assert (I := IH k P')]; unfold py_sum in *; simpl in *; lra.
Qed.

Lemma qin_range ia reg n : length ia = n -> length reg = (2 * n + 1)%nat -> positive reg ->
  (forall x, In x ia -> 0 <= x) -> 0 <= get_r_qin ia reg <= total ia.
Proof.
intros LI LR P H; unfold get_r_qin.
assert (SP : 0 < py_sum reg) by (apply positive_sum; [exact P|intros ->; simpl in LR; lia]).
set (c := fun j => (py_sum (firstn (2 * j + 1) reg) + at_ reg (2 * j + 1) / 2) / py_sum reg).
assert (C : forall j, (j < n)%nat -> 0 <= c j <= 1).
{ intros j J; unfold c; assert (X := positive_at reg (2 * j + 1) P ltac:(lia)).
  assert (F := firstn_sum_le reg (2 * j + 1) P); assert (F2 := firstn_sum_le reg (S (2 * j + 1)) P).
  rewrite firstn_at in F2 by lia; rewrite py_sum_snoc in F2; split.
  - apply Rmult_le_pos; [lra|left; apply Rinv_0_lt_compat; exact SP].
  - apply (Rmult_le_reg_r (py_sum reg)); [exact SP|]; unfold Rdiv; rewrite Rmult_assoc, Rinv_l; lra. }
assert (G : forall k, (k <= n)%nat -> 0 <= py_sum (map (fun j => at_ ia j * c j) (seq 0 k)) <= py_sum (firstn k ia)).
{ induction k as [|k IH]; intro K; [unfold py_sum; simpl; lra|].
  rewrite seq_S, map_app, Nat.add_0_l; cbn [map]; rewrite firstn_at by lia; rewrite !py_sum_snoc.
  assert (X : 0 <= at_ ia k) by (apply H, nth_In; lia); assert (I := IH ltac:(lia)); assert (CK := C k ltac:(lia)).
  assert (0 <= at_ ia k * c k) by (apply Rmult_le_pos; lra).
  assert (at_ ia k * c k <= at_ ia k * 1) by (apply Rmult_le_compat_l; lra); lra. }
assert (X := G n (le_n _)); rewrite <- LI, firstn_all in X; exact X.
Qed.

Lemma qin_scale ia reg k : get_r_qin (map (fun a => a * k) ia) reg = get_r_qin ia reg * k.
Proof.
unfold get_r_qin; rewrite map_length.
set (c := fun j => (py_sum (firstn (2 * j + 1) reg) + at_ reg (2 * j + 1) / 2) / py_sum reg).
assert (G : forall m, py_sum (map (fun j => at_ (map (fun a => a * k) ia) j * c j) (seq 0 m)) =
  py_sum (map (fun j => at_ ia j * c j) (seq 0 m)) * k).
{ induction m as [|m IH]; [unfold py_sum; simpl; ring|].
  rewrite seq_S, !map_app, Nat.add_0_l; cbn [map]; rewrite !py_sum_snoc, IH.
  assert (E : at_ (map (fun a => a * k) ia) m = at_ ia m * k).
  { unfold at_; rewrite <- (map_nth (fun a => a * k)), Rmult_0_l; reflexivity. }
  rewrite E; ring. }
apply G.
Qed.
