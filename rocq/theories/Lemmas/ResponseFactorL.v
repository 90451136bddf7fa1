From Coq Require Import Reals List String Bool Lra Lia Psatz.
From Verif Require Import Model.Py Model.BoundaryDict Model.ResponseFactor Spec.WallResponse Lemmas.PyL.
Import ListNotations.
Local Open Scope R_scope.

(* limits *)
Lemma cv_const c : Un_cv (fun _ => c) c.
Proof. intros e He; exists O; intros n _; unfold R_dist; rewrite Rminus_diag_eq, Rabs_R0; auto. Qed.

Lemma cv_ext u v l : (forall n, u n = v n) -> Un_cv u l -> Un_cv v l.
Proof. intros E H e He; destruct (H e He) as [N HN]; exists N; intros n Hn; rewrite <- E; auto. Qed.

Lemma cv_pow q : 0 <= q < 1 -> Un_cv (fun n => q ^ n) 0.
Proof.
intros Q e He; destruct (pow_lt_1_zero q) with (y := e) as [N HN]; [rewrite Rabs_right; lra|exact He|].
exists N; intros n Hn; unfold R_dist; rewrite Rminus_0_r; auto.
Qed.

Lemma cv_add_up {A} (l : list A) (f : A -> nat -> R) : (forall a, In a l -> Un_cv (f a) 0) -> Un_cv (fun n => add_up (map (fun a => f a n) l)) 0.
Proof.
induction l as [|a l IH]; simpl; intro H; [apply cv_const|].
assert (X := CV_plus (f a) (fun n => add_up (map (fun a => f a n) l)) 0 0 (H a (or_introl eq_refl)) (IH (fun b I => H b (or_intror I)))).
rewrite Rplus_0_r in X; exact X.
Qed.

Lemma total_add_up l : total l = add_up l.
Proof. reflexivity. Qed.

Lemma inner_scalar a b : inner a b = scalar a b.
Proof. reflexivity. Qed.

Lemma add_up_app a b : add_up (a ++ b) = add_up a + add_up b.
Proof. induction a as [|x a IH]; simpl; [lra|rewrite IH; lra]. Qed.

(* the exponential terms of get_RFTRI with the unit response coefficients a *)
Definition rest (temp a : list R) (n : nat) : R := add_up (map (fun p => fst p * ((1 - exp (- snd p)) / snd p) * exp (- snd p) ^ n) (combine a temp)).

Lemma exp_pow t n : exp (- (INR n * t)) = exp (- t) ^ n.
Proof.
induction n as [|n IH]; [simpl; rewrite Rmult_0_l, Ropp_0; apply exp_0|].
rewrite S_INR; replace (- ((INR n + 1) * t)) with (- t + - (INR n * t)) by ring; rewrite exp_plus, IH; reflexivity.
Qed.

Lemma get_rf_0 temp a0 a : get_rf temp a0 a 0 = a0 + rest temp a 0.
Proof.
unfold get_rf, rest; f_equal; rewrite total_add_up.
revert a; induction temp as [|t temp IH]; intros [|x a]; simpl; auto.
rewrite Rmult_1_r; f_equal; [ring|apply IH].
Qed.

Lemma rf1_terms temp a n : (forall t, In t temp -> t <> 0) ->
  scalar (get_rf1 temp a) (map (fun q => q ^ n) (get_row temp)) = rest temp a (S n) - rest temp a n.
Proof.
unfold scalar, get_rf1, get_row, rest, vmul; revert a; induction temp as [|t temp IH]; intros [|x a] H; simpl; try lra.
specialize (IH a (fun t I => H t (or_intror I))); simpl in IH; rewrite IH; field; apply H; left; reflexivity.
Qed.

(* the terms after the first agree with the recursion by ratios *)
Lemma get_rf_S temp a0 a n : (forall t, In t temp -> t <> 0) ->
  get_rf temp a0 a (S n) = scalar (get_rf1 temp a) (map (fun q => q ^ n) (get_row temp)).
Proof.
intro H; rewrite rf1_terms by exact H; unfold get_rf, rest; rewrite total_add_up.
revert a H; induction temp as [|t temp IH]; intros [|x a] H; simpl; try lra.
specialize (IH a (fun t I => H t (or_intror I))); simpl in IH.
rewrite exp_pow; set (e := exp (- t)) in *.
replace (- ((1 - e) * ((1 - e) * 1) * e ^ n / t * x + add_up (map (fun p => fst p * snd p) (combine (map (fun t0 => (1 - exp (- t0)) * ((1 - exp (- t0)) * 1) * exp (- (INR n * t0)) / t0) temp) a))))
  with (- ((1 - e) * ((1 - e) * 1) * e ^ n / t * x) + (- add_up (map (fun p => fst p * snd p) (combine (map (fun t0 => (1 - exp (- t0)) * ((1 - exp (- t0)) * 1) * exp (- (INR n * t0)) / t0) temp) a)))) by ring.
unfold vmul in IH; rewrite IH; field; apply H; left; reflexivity.
Qed.

Lemma exp_lt1 t : 0 < t -> 0 < exp (- t) < 1.
Proof. intro H; split; [apply exp_pos|]; rewrite <- exp_0; apply exp_increasing; lra. Qed.

Lemma rest_cv temp a : (forall t, In t temp -> 0 < t) -> Un_cv (rest temp a) 0.
Proof.
intro H; apply cv_add_up; intros [x t] I; simpl.
apply in_combine_r in I; destruct (exp_lt1 t (H t I)) as [E0 E1].
assert (C := CV_mult (fun _ => x * ((1 - exp (- t)) / t)) (fun n => exp (- t) ^ n) _ 0 (cv_const _) (cv_pow _ (conj (Rlt_le _ _ E0) E1))).
rewrite Rmult_0_r in C; exact C.
Qed.

Lemma scalar_pad a b n m : List.length a = List.length b -> scalar (a ++ repeat 0 n) (b ++ m) = scalar a b.
Proof.
unfold scalar; revert b; induction a as [|x a IH]; intros [|y b] L; simpl in *; try discriminate.
- clear L; revert m; induction n as [|n IH]; intros [|y m]; simpl; auto; rewrite IH; ring.
- f_equal; apply IH; lia.
Qed.

Lemma sum_closed temp a0 a r1 q : (forall t, In t temp -> t <> 0) ->
  (forall n, scalar r1 (map (fun q => q ^ n) q) = scalar (get_rf1 temp a) (map (fun q => q ^ n) (get_row temp))) ->
  forall n, sum_f_R0 (response_at (get_rf temp a0 a 0) r1 q) n = a0 + rest temp a n.
Proof.
intros H E; induction n as [|n IH]; [apply get_rf_0|].
change (sum_f_R0 ?f (S n)) with (sum_f_R0 f n + f (S n)); rewrite IH; simpl response_at; rewrite E, rf1_terms by exact H; ring.
Qed.

Lemma pad_terms temp a n : List.length temp = List.length a -> (List.length temp <= 12)%nat ->
  scalar (pad12 (get_rf1 temp a)) (map (fun q => q ^ n) (pad12 (get_row temp))) = scalar (get_rf1 temp a) (map (fun q => q ^ n) (get_row temp)).
Proof.
intros L M; unfold pad12; rewrite map_app; apply scalar_pad.
unfold get_rf1, get_row, vmul; rewrite !map_length, combine_length, !map_length; lia.
Qed.

Lemma sums_to temp a0 a : List.length temp = List.length a -> (List.length temp <= 12)%nat -> (forall t, In t temp -> 0 < t) ->
  infinite_sum (response_at (get_rf temp a0 a 0) (pad12 (get_rf1 temp a)) (pad12 (get_row temp))) a0.
Proof.
intros L M H.
assert (N : forall t, In t temp -> t <> 0) by (intros t I; specialize (H t I); lra).
assert (C : Un_cv (sum_f_R0 (response_at (get_rf temp a0 a 0) (pad12 (get_rf1 temp a)) (pad12 (get_row temp)))) a0); [|exact C].
apply (cv_ext (fun n => a0 + rest temp a n)).
- intro n; symmetry; apply sum_closed; [exact N|]; intro k; apply pad_terms; auto.
- assert (X := CV_plus (fun _ => a0) (rest temp a) a0 0 (cv_const a0) (rest_cv temp a H)); rewrite Rplus_0_r in X; exact X.
Qed.

(* fixed roots *)
Lemma alpha_pos g a : In a (get_alpha_m g) -> 0 < a.
Proof. destruct g; simpl; intro I; repeat (destruct I as [<-|I]; [lra|]); destruct I. Qed.

Lemma alpha_len g : (2 <= List.length (get_alpha_m g) <= 10)%nat.
Proof. destruct g; simpl; lia. Qed.

Lemma alpha_distinct g : NoDup (get_alpha_m g).
Proof.
destruct g; simpl; repeat (constructor; [simpl; intro I; repeat (destruct I as [I|I]; [lra|]); destruct I|]); constructor.
Qed.

Lemma temp_pos g t : In t (map (fun a => a * 900) (get_alpha_m g)) -> 0 < t.
Proof. intro I; apply in_map_iff in I; destruct I as [a [<- I]]; pose proof (alpha_pos g a I); lra. Qed.

Lemma mulv_length m v : List.length (mulv m v) = List.length m.
Proof. apply map_length. Qed.

Lemma mat_u_square f n : square n (get_mat_u f n).
Proof.
unfold get_mat_u; split; [rewrite map_length, seq_length; reflexivity|].
intros r I; apply in_map_iff in I; destruct I as [i [<- _]]; rewrite map_length, seq_length; reflexivity.
Qed.

Lemma calc_sums inv g cs rs rf : right_size inv -> calc_response_factor inv g cs rs = Ok rf ->
  infinite_sum (response_at (rft0 rf) (rft1 rf) (row rf)) 1 /\
  infinite_sum (response_at (rfa0 rf) (rfa1 rf) (row rf)) (add_up rs) /\
  List.length (rft1 rf) = 12%nat /\ List.length (rfa1 rf) = 12%nat /\ List.length (row rf) = 12%nat /\
  (forall k q, nth_error (row rf) k = Some q -> if (k <? n_root rf)%nat then 0 < q < 1 else q = 0) /\
  (forall k x, (n_root rf <= k)%nat -> nth_error (rft1 rf) k = Some x \/ nth_error (rfa1 rf) k = Some x -> x = 0).
Proof.
intros Rs H; unfold calc_response_factor in H; apply bind_ok in H; destruct H as [[[[at0 aa0] at_] aa] [S H]].
unfold get_step_reps_of_wall in S; apply bind_ok in S; destruct S as [gs [G S]]; apply bind_ok in S; destruct S as [u [U S]].
assert (Lu := Rs _ _ _ (mat_u_square _ _) U); destruct Lu as [Lu _].
injection S as <- <- Sa Sb; injection H as <-; cbn [rft0 rfa0 rft1 rfa1 row n_root].
assert (La : List.length at_ = List.length (get_alpha_m g)) by (rewrite <- Sa, mulv_length; exact Lu).
assert (Lb : List.length aa = List.length (get_alpha_m g)) by (rewrite <- Sb, mulv_length; exact Lu).
set (temp := map (fun a => a * 900) (get_alpha_m g)).
assert (Lt : List.length temp = List.length (get_alpha_m g)) by apply map_length.
pose proof (alpha_len g) as Le.
assert (T : forall t, In t temp -> 0 < t) by (intros t I; exact (temp_pos g t I)).
assert (L1 : forall a, List.length a = List.length (get_alpha_m g) -> List.length (get_rf1 temp a) = List.length (get_alpha_m g)).
{ intros a E; unfold get_rf1, vmul; rewrite map_length, combine_length, !map_length, Lt, E; lia. }
assert (L2 : List.length (get_row temp) = List.length (get_alpha_m g)) by (unfold get_row; rewrite map_length; exact Lt).
assert (P : forall l, List.length l = List.length (get_alpha_m g) -> List.length (pad12 l) = 12%nat) by (intros l E; unfold pad12; rewrite app_length, repeat_length; lia).
assert (Z : forall l k x, List.length l = List.length (get_alpha_m g) -> (List.length (get_alpha_m g) <= k)%nat -> nth_error (pad12 l) k = Some x -> x = 0).
{ intros l k x E K X; unfold pad12 in X; rewrite nth_error_app2 in X by lia; apply nth_error_In, repeat_spec in X; exact X. }
split; [apply sums_to; [congruence|lia|exact T]|].
split; [apply sums_to; [congruence|lia|exact T]|].
split; [apply P, L1, La|]; split; [apply P, L1, Lb|]; split; [apply P, L2|]; split.
- intros k q K; destruct (Nat.ltb_spec k (List.length (get_alpha_m g))) as [Q|Q]; [|exact (Z _ _ _ L2 Q K)].
  unfold pad12 in K; rewrite nth_error_app1 in K by lia; apply nth_error_In in K; unfold get_row in K.
  apply in_map_iff in K; destruct K as [t [<- I]]; apply exp_lt1; auto.
- intros k x K [X|X]; [exact (Z _ _ _ (L1 _ La) K X)|exact (Z _ _ _ (L1 _ Lb) K X)].
Qed.
