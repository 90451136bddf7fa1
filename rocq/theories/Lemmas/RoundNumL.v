(* Rounding half away from zero *)
From Coq Require Import Reals ZArith Lra Lia Psatz.
From Verif Require Import Model.RoundNum.
Local Open Scope R_scope.

Definition unit_of (digit : Z) : R := powerRZ 10 (- digit).

Lemma power_pos d : 0 < powerRZ 10 d.
Proof. apply powerRZ_lt; lra. Qed.
Lemma unit_pos d : 0 < unit_of d.
Proof. apply power_pos. Qed.
Lemma power_unit d : powerRZ 10 d * unit_of d = 1.
Proof. unfold unit_of; rewrite <- powerRZ_add by lra; rewrite Z.add_opp_diag_r; reflexivity. Qed.
Lemma power_inv d : / powerRZ 10 d = unit_of d.
Proof. assert (P := power_pos d); assert (U := power_unit d); apply Rmult_eq_reg_l with (powerRZ 10 d); [rewrite U; field|]; lra. Qed.

Lemma floor_spec x : IZR (math_floor x) <= x < IZR (math_floor x) + 1.
Proof. unfold math_floor; destruct (archimed x) as [A B]; rewrite minus_IZR; lra. Qed.
Lemma floor_unique x k : IZR k <= x < IZR k + 1 -> math_floor x = k.
Proof.
intros [A B]; destruct (floor_spec x) as [C D].
assert (K1 : (math_floor x < k + 1)%Z) by (apply lt_IZR; rewrite plus_IZR; lra).
assert (K2 : (k < math_floor x + 1)%Z) by (apply lt_IZR; rewrite plus_IZR; lra).
lia.
Qed.
Lemma floor_mono x y : x <= y -> (math_floor x <= math_floor y)%Z.
Proof.
intro L; destruct (floor_spec x) as [A B], (floor_spec y) as [C D].
assert ((math_floor x < math_floor y + 1)%Z) by (apply lt_IZR; rewrite plus_IZR; lra); lia.
Qed.

Lemma sign_sq x : copysign1 x * copysign1 x = 1.
Proof. unfold copysign1; destruct (Rlt_dec x 0); lra. Qed.

Lemma round_nonneg x d : 0 <= x -> round_num x d = IZR (math_floor (powerRZ 10 d * x + 5 / 10)) * unit_of d.
Proof.
intro X; unfold round_num, copysign1; destruct (Rlt_dec x 0); [lra|]; rewrite Rmult_1_l; unfold Rdiv at 1; rewrite power_inv; reflexivity.
Qed.
Lemma round_neg x d : x < 0 -> round_num x d = - round_num (- x) d.
Proof.
intro X; rewrite (round_nonneg (- x) d) by lra; unfold round_num, copysign1; destruct (Rlt_dec x 0); [|lra].
replace (-1 * powerRZ 10 d * x + 5 / 10) with (powerRZ 10 d * - x + 5 / 10) by ring.
assert (P := power_pos d); rewrite <- power_inv; field; lra.
Qed.
Lemma round_zero d : round_num 0 d = 0.
Proof.
rewrite round_nonneg by lra; rewrite (floor_unique (powerRZ 10 d * 0 + 5 / 10) 0); [rewrite Rmult_0_l; reflexivity|rewrite Rmult_0_r; lra].
Qed.

Lemma round_odd x d : round_num (- x) d = - round_num x d.
Proof.
destruct (Rtotal_order x 0) as [L|[-> |L]].
- rewrite (round_neg x d L), Ropp_involutive; reflexivity.
- rewrite Ropp_0, round_zero; ring.
- rewrite (round_neg (- x) d ltac:(lra)), Ropp_involutive; reflexivity.
Qed.

Lemma round_multiple x d : exists k : Z, round_num x d = IZR k * unit_of d.
Proof.
destruct (Rlt_dec x 0) as [L|L].
- rewrite (round_neg x d L), round_nonneg by lra; eexists (- _)%Z; rewrite opp_IZR; rewrite Ropp_mult_distr_l; reflexivity.
- rewrite round_nonneg by lra; eexists; reflexivity.
Qed.

Lemma round_nonneg_error x d : 0 <= x -> - (unit_of d / 2) < round_num x d - x <= unit_of d / 2 /\ 0 <= round_num x d.
Proof.
intro X; rewrite (round_nonneg x d X); assert (P := power_pos d); assert (U := unit_pos d); assert (E := power_unit d).
destruct (floor_spec (powerRZ 10 d * x + 5 / 10)) as [A B].
assert (Ex : x = powerRZ 10 d * x * unit_of d) by (rewrite (Rmult_comm _ x), Rmult_assoc, E; ring).
assert (N : (0 <= math_floor (powerRZ 10 d * x + 5 / 10))%Z).
{ assert (-1 < math_floor (powerRZ 10 d * x + 5 / 10))%Z; [|lia]; apply lt_IZR; assert (0 <= powerRZ 10 d * x) by (apply Rmult_le_pos; lra); lra. }
apply IZR_le in N; set (k := IZR (math_floor _)) in *; set (y := powerRZ 10 d * x) in *.
split; [rewrite Ex; split; nra|apply Rmult_le_pos; lra].
Qed.

Lemma round_error x d : Rabs (round_num x d - x) <= unit_of d / 2.
Proof.
assert (U := unit_pos d); destruct (Rlt_dec x 0) as [L|L].
- rewrite (round_neg x d L); destruct (round_nonneg_error (- x) d ltac:(lra)) as [H _].
  replace (- round_num (- x) d - x) with (- (round_num (- x) d - - x)) by ring; rewrite Rabs_Ropp; apply Rabs_le; lra.
- destruct (round_nonneg_error x d ltac:(lra)) as [H _]; apply Rabs_le; lra.
Qed.

(* exactly half a unit: the result is further from zero *)
Lemma round_tie x d : Rabs (round_num x d - x) = unit_of d / 2 -> Rabs (round_num x d) = Rabs x + unit_of d / 2.
Proof.
assert (K : forall y, 0 <= y -> Rabs (round_num y d - y) = unit_of d / 2 -> Rabs (round_num y d) = Rabs y + unit_of d / 2).
{ intros y Y E; destruct (round_nonneg_error y d Y) as [H N]; rewrite (Rabs_right (round_num y d)), (Rabs_right y) by lra.
  revert E; unfold Rabs; destruct (Rcase_abs _); lra. }
intro E; destruct (Rlt_dec x 0) as [L|L]; [|apply K; [lra|exact E]].
rewrite (round_neg x d L) in *; rewrite Rabs_Ropp, <- (Rabs_Ropp x); apply K; [lra|].
rewrite <- E; replace (- round_num (- x) d - x) with (- (round_num (- x) d - - x)) by ring; rewrite Rabs_Ropp; reflexivity.
Qed.

Lemma round_mono x y d : x <= y -> round_num x d <= round_num y d.
Proof.
assert (U := unit_pos d); assert (P := power_pos d).
assert (K : forall a b, 0 <= a -> a <= b -> round_num a d <= round_num b d).
{ intros a b A L; rewrite !round_nonneg by lra; apply Rmult_le_compat_r; [lra|]; apply IZR_le, floor_mono; assert (powerRZ 10 d * a <= powerRZ 10 d * b) by (apply Rmult_le_compat_l; lra); lra. }
intro L; destruct (Rlt_dec x 0) as [X|X]; [|apply K; lra]; destruct (Rlt_dec y 0) as [Y|Y].
- rewrite (round_neg x d X), (round_neg y d Y); assert (H := K (- y) (- x) ltac:(lra) ltac:(lra)); lra.
- rewrite (round_neg x d X); destruct (round_nonneg_error (- x) d ltac:(lra)) as [_ H]; destruct (round_nonneg_error y d ltac:(lra)) as [_ H']; lra.
Qed.

Lemma round_fixed k d : round_num (IZR k * unit_of d) d = IZR k * unit_of d.
Proof.
assert (U := unit_pos d); assert (E := power_unit d).
assert (K : forall j : Z, (0 <= j)%Z -> round_num (IZR j * unit_of d) d = IZR j * unit_of d).
{ intros j J; apply IZR_le in J; rewrite round_nonneg by (apply Rmult_le_pos; lra).
  rewrite (floor_unique _ j); [reflexivity|].
  replace (powerRZ 10 d * (IZR j * unit_of d)) with (IZR j * (powerRZ 10 d * unit_of d)) by ring; rewrite E; lra. }
destruct (Z_le_gt_dec 0 k) as [L|L]; [apply K, L|].
assert (H := K (- k)%Z ltac:(lia)); rewrite opp_IZR in H.
replace (- IZR k * unit_of d) with (- (IZR k * unit_of d)) in H by ring; rewrite round_odd in H; lra.
Qed.
