From Coq Require Import Reals Lra Lia ZArith Psatz.
From Verif Require Import Model.Trig.
Local Open Scope R_scope.

Lemma arcsin_some x : -1 <= x <= 1 -> exists h, arcsin x = Some h /\ h = asin x /\ sin h = x /\ - (PI / 2) <= h <= PI / 2.
Proof.
intro Hx; exists (asin x); unfold arcsin.
destruct (Rle_dec (-1) x); [|lra]; destruct (Rle_dec x 1); [|lra].
repeat split; try (apply asin_bound); apply sin_asin; lra.
Qed.

Lemma arccos_some x : -1 <= x <= 1 -> exists h, arccos x = Some h /\ cos h = x /\ 0 <= h <= PI.
Proof.
intro Hx; exists (acos x); unfold arccos.
destruct (Rle_dec (-1) x); [|lra]; destruct (Rle_dec x 1); [|lra].
split; [reflexivity|split; [apply cos_acos; lra|apply acos_bound]].
Qed.

Lemma div_some a b : b <> 0 -> div a b = Some (a / b).
Proof. intro H; unfold div; destruct (Req_EM_T b 0); [contradiction|reflexivity]. Qed.

Lemma sc2 x : cos x * cos x + sin x * sin x = 1.
Proof. rewrite <- (sin2_cos2 x); unfold Rsqr; ring. Qed.

Lemma cos_range x : -1 <= cos x <= 1.
Proof. apply COS_bound. Qed.
Lemma sin_range x : -1 <= sin x <= 1.
Proof. apply SIN_bound. Qed.

Lemma asin_odd_le x y : -1 <= x <= 1 -> -1 <= y <= 1 -> x <= y -> asin x <= asin y.
Proof.
intros Hx Hy H; destruct (Rle_lt_dec (asin x) (asin y)) as [G|G]; [exact G|exfalso].
pose proof (asin_bound x); pose proof (asin_bound y).
pose proof (sin_increasing_1 (asin y) (asin x)) as S.
rewrite !sin_asin in S by lra; lra.
Qed.

Lemma asin_between d x : - (PI / 2) <= d <= PI / 2 -> 0 <= d -> Rabs x <= sin d -> - d <= asin x <= d.
Proof.
intros Hd D X; pose proof (sin_range d) as S.
assert (X' : - sin d <= x <= sin d).
{ split; [|]; unfold Rabs in X; destruct (Rcase_abs x); lra. }
pose proof (asin_sin d Hd) as E.
assert (E' : asin (- sin d) = - d) by (rewrite <- sin_neg; apply asin_sin; lra).
split.
- rewrite <- E'; apply asin_odd_le; lra.
- rewrite <- E; apply asin_odd_le; lra.
Qed.

Lemma atan_unit y x : y * y + x * x = 1 -> 0 < x -> cos (atan (y / x)) = x /\ sin (atan (y / x)) = y.
Proof.
intros N X.
assert (E : 1 + (y / x)² = / (x * x)).
{ unfold Rsqr; replace 1 with (x * x / (x * x)) by (field; lra).
  apply Rmult_eq_reg_r with (x * x); [|nra]; field_simplify; [|lra|lra].
  replace (x ^ 2 + y ^ 2) with (y * y + x * x) by ring; rewrite N; field. }
assert (S : sqrt (1 + (y / x)²) = / x).
{ rewrite E; replace (/ (x * x)) with (/ x * / x) by (field; lra); rewrite sqrt_square; [reflexivity|].
  apply Rlt_le, Rinv_0_lt_compat, X. }
rewrite cos_atan, sin_atan, S; split; field; lra.
Qed.

(* arctan2 of the two components of a unit vector *)
Lemma arctan2_unit y x : y * y + x * x = 1 ->
  cos (arctan2 y x) = x /\ sin (arctan2 y x) = y /\ - PI < arctan2 y x <= PI.
Proof.
intro N; pose proof PI_RGT_0 as Pi; unfold arctan2.
destruct (Rlt_dec 0 x) as [X|X].
- destruct (atan_unit y x N X) as [C S]; pose proof (atan_bound (y / x)); repeat split; try assumption; lra.
- destruct (Rlt_dec x 0) as [X'|X'].
  + assert (Q : y / x = (- y) / (- x)) by (field; lra).
    destruct (atan_unit (- y) (- x)) as [C S]; [lra|lra|]; rewrite <- Q in C, S.
    pose proof (atan_bound (y / x)) as B.
    destruct (Rle_dec 0 y) as [Y|Y].
    * rewrite neg_cos, neg_sin, C, S; repeat split; try lra.
      destruct (Rle_lt_or_eq_dec 0 y Y) as [Y1|<-].
      -- assert (y / x < 0) by (rewrite Q; unfold Rdiv; pose proof (Rinv_0_lt_compat (- x)); nra).
         pose proof (atan_increasing (y / x) 0); rewrite atan_0 in *; lra.
      -- unfold Rdiv; rewrite Rmult_0_l, atan_0; lra.
    * assert (0 < y / x) by (rewrite Q; apply Rdiv_lt_0_compat; lra).
      pose proof (atan_increasing 0 (y / x)); rewrite atan_0 in *.
      unfold Rminus; rewrite cos_plus, sin_plus, cos_neg, sin_neg, cos_PI, sin_PI, C, S; repeat split; lra.
  + assert (x = 0) by lra; subst x.
    destruct (Rlt_dec 0 y) as [Y|Y].
    * rewrite cos_PI2, sin_PI2; repeat split; try nra.
    * destruct (Rlt_dec y 0) as [Y'|Y'].
      -- rewrite cos_neg, sin_neg, cos_PI2, sin_PI2; repeat split; try nra.
      -- exfalso; nra.
Qed.

Lemma Rabs_atan x : Rabs (atan x) <= Rabs x.
Proof.
assert (P : forall u, 0 <= u -> 0 <= atan u <= u).
{ intros u U; split.
  - destruct (Rle_lt_or_eq_dec 0 u U) as [U1|<-]; [|rewrite atan_0; lra].
    pose proof (atan_increasing 0 u U1); rewrite atan_0 in *; lra.
  - destruct (Rle_lt_or_eq_dec 0 u U) as [U1|<-]; [|rewrite atan_0; lra].
    destruct (MVT_cor2 atan (fun c => / (1 + c ^ 2)) 0 u U1) as [c [E _]].
    { intros c _; apply derivable_pt_lim_atan. }
    rewrite atan_0, !Rminus_0_r in E; rewrite E.
    assert (/ (1 + c ^ 2) <= 1); [|nra].
    rewrite <- Rinv_1 at 2; apply Rinv_le_contravar; [lra|nra]. }
destruct (Rle_lt_dec 0 x) as [X|X].
- destruct (P x X); rewrite !Rabs_pos_eq; lra.
- destruct (P (- x)) as [A B]; [lra|]; rewrite atan_opp in A, B; rewrite !Rabs_left1; lra.
Qed.
