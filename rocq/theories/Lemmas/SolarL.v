From Coq Require Import Reals List String Lra Lia ZArith Psatz Bool.
From Verif Require Import Model.Py Model.Trig Model.BoundaryDict Model.Inclined Model.SolarShading Model.Transmission Model.OutsideEqvTemp.
From Verif Require Import Spec.Sky Spec.Sunlight Lemmas.PyL Lemmas.TrigL Lemmas.GlassPoly.
Import ListNotations.
Local Open Scope R_scope.

Lemma f_sky_range b : 0 <= get_f_sky_j b <= 1 /\ 0 <= get_f_gnd_j (get_f_sky_j b) <= 1 /\ get_f_sky_j b + get_f_gnd_j (get_f_sky_j b) = 1.
Proof. unfold get_f_sky_j, get_f_gnd_j; pose proof (cos_range b); lra. Qed.

(* Cauchy-Schwarz for the two unit vectors *)
Lemma dot_range h a alpha beta : -1 <= dot (Sky.direction h a) (normal alpha beta) <= 1.
Proof.
unfold dot, Sky.direction, normal; simpl.
pose proof (sc2 h) as H; pose proof (sc2 a) as A; pose proof (sc2 alpha) as P; pose proof (sc2 beta) as B.
set (x1 := cos h * cos a); set (x2 := cos h * sin a); set (x3 := sin h).
set (y1 := sin beta * cos alpha); set (y2 := sin beta * sin alpha); set (y3 := cos beta).
assert (X : x1 * x1 + x2 * x2 + x3 * x3 = 1).
{ unfold x1, x2, x3; transitivity (cos h * cos h * (cos a * cos a + sin a * sin a) + sin h * sin h); [ring|rewrite A; lra]. }
assert (Y : y1 * y1 + y2 * y2 + y3 * y3 = 1).
{ unfold y1, y2, y3; transitivity (sin beta * sin beta * (cos alpha * cos alpha + sin alpha * sin alpha) + cos beta * cos beta); [ring|rewrite P; lra]. }
pose proof (Rle_0_sqr (x1 - y1)); pose proof (Rle_0_sqr (x2 - y2)); pose proof (Rle_0_sqr (x3 - y3)).
pose proof (Rle_0_sqr (x1 + y1)); pose proof (Rle_0_sqr (x2 + y2)); pose proof (Rle_0_sqr (x3 + y3)); unfold Rsqr in *.
split; nra.
Qed.

Lemma aoi_ok h a alpha beta : exists t, get_theta_aoi_j_n h (Some a) alpha beta = Some t /\
  cos t = Rmax 0 (dot (Sky.direction h a) (normal alpha beta)) /\ 0 <= cos t <= 1.
Proof.
unfold get_theta_aoi_j_n; pose proof (dot_range h a alpha beta) as D.
assert (E : (if Req_EM_T (cos h) 0 then Some (sin h * cos beta) else obind (Some a) (fun a_sun =>
     Some (sin h * cos beta + cos h * sin a_sun * sin beta * sin alpha + cos h * cos a_sun * sin beta * cos alpha)))
  = Some (dot (Sky.direction h a) (normal alpha beta))).
{ unfold dot, Sky.direction, normal; simpl; destruct (Req_EM_T (cos h) 0) as [Z|_]; f_equal; [rewrite Z|]; ring. }
rewrite E; simpl obind.
destruct (arccos_some (Rmax (dot (Sky.direction h a) (normal alpha beta)) 0)) as [t [Et [Ct _]]].
{ unfold Rmax; destruct (Rle_dec _ 0); lra. }
exists t; split; [exact Et|rewrite Ct, Rmax_comm; split; [reflexivity|]].
unfold Rmax; destruct (Rle_dec 0 _); lra.
Qed.

(* in the zenith (and the nadir) the azimuth is not needed *)
Lemma aoi_zenith h a alpha beta : cos h = 0 -> get_theta_aoi_j_n h a alpha beta = get_theta_aoi_j_n h (Some 0) alpha beta.
Proof. intro Z; unfold get_theta_aoi_j_n; destruct (Req_EM_T (cos h) 0); [reflexivity|contradiction]. Qed.

Lemma aoi_any h a alpha beta : (a <> None \/ cos h = 0) -> exists t, get_theta_aoi_j_n h a alpha beta = Some t /\
  cos t = Rmax 0 (dot (Sky.direction h (azimuth a)) (normal alpha beta)) /\ 0 <= cos t <= 1.
Proof.
intros [A|Z].
- destruct a as [a|]; [apply aoi_ok|congruence].
- destruct a as [a|]; [apply aoi_ok|rewrite aoi_zenith by exact Z; apply aoi_ok].
Qed.

Lemma irradiance_ok i_dn i_sky h a alpha beta : (a <> None \/ cos h = 0) -> 0 <= i_dn -> 0 <= i_sky ->
  exists d s r, get_i_is_j_n i_dn i_sky h a alpha beta = (Some d, s, r) /\
  d = i_dn * Rmax 0 (dot (Sky.direction h (azimuth a)) (normal alpha beta)) /\ 0 <= d <= i_dn /\
  s = (1 + cos beta) / 2 * i_sky /\ 0 <= s <= i_sky /\
  r = (1 - cos beta) / 2 * (1 / 10) * ((if Rlt_dec 0 h then sin h else 0) * i_dn + i_sky) /\
  (h <= PI -> 0 <= r <= 1 / 10 * (i_dn + i_sky)).
Proof.
intros A Di Si; destruct (aoi_any h a alpha beta A) as [t [Et [Ct Rt]]].
unfold get_i_is_j_n; rewrite Et; simpl; eexists; eexists; eexists; split; [reflexivity|].
split; [rewrite <- Ct; reflexivity|split; [nra|]].
pose proof (f_sky_range beta) as [F1 [F2 F3]].
unfold get_i_is_sky_j_n, get_i_is_ref_j_n, get_i_hrz_n, get_rho_gnd; split; [reflexivity|split; [nra|]].
split; [unfold get_f_gnd_j, get_f_sky_j; field_simplify; reflexivity|].
intro Hh.
assert (S : 0 <= (if Rlt_dec 0 h then sin h else 0) <= 1).
{ destruct (Rlt_dec 0 h); [|lra]; split; [apply sin_ge_0; lra|apply sin_range]. }
set (s := if Rlt_dec 0 h then sin h else 0) in *; set (g := get_f_gnd_j _) in *.
assert (0 <= s * i_dn + i_sky <= i_dn + i_sky) by nra.
split; [apply Rmult_le_pos; [nra|lra]|nra].
Qed.

(* a horizontal surface receives the global horizontal irradiance *)
Lemma irradiance_top i_dn i_sky h a : (a <> None \/ cos h = 0) -> 0 <= h <= PI / 2 -> 0 <= i_dn -> 0 <= i_sky ->
  get_i_is_j_n i_dn i_sky h a (radians 0) (radians 0) = (Some (i_dn * sin h), i_sky, 0).
Proof.
intros A H Di Si; destruct (irradiance_ok i_dn i_sky h a (radians 0) (radians 0) A Di Si) as [d [s [r [E [Ed [_ [Es [_ [Er _]]]]]]]]].
assert (Z : radians 0 = 0) by (unfold radians; ring).
rewrite E; rewrite Z in *; rewrite cos_0 in *; f_equal; [f_equal; [f_equal|]|].
- rewrite Ed; f_equal; unfold dot, Sky.direction, normal; simpl; rewrite sin_0, cos_0.
  pose proof PI_RGT_0; pose proof (sin_ge_0 h); unfold Rmax; destruct (Rle_dec _ _); lra.
- rewrite Es; field.
- rewrite Er; field.
Qed.

(* the ten directions *)
Lemma sin_cos_deg : sin (radians 90) = 1 /\ cos (radians 90) = 0 /\ sin (radians 180) = 0 /\ cos (radians 180) = -1 /\
  sin (radians 0) = 0 /\ cos (radians 0) = 1 /\ sin (radians 45) = 1 / sqrt 2 /\ cos (radians 45) = 1 / sqrt 2.
Proof.
unfold radians.
replace (90 * (PI / 180)) with (PI / 2) by field; replace (180 * (PI / 180)) with PI by field.
replace (0 * (PI / 180)) with 0 by field; replace (45 * (PI / 180)) with (PI / 4) by field.
rewrite sin_PI2, cos_PI2, sin_PI, cos_PI, sin_0, cos_0, sin_PI4, cos_PI4; repeat split; ring.
Qed.

Lemma radians_neg : radians (-135) = - radians 135 /\ radians (-90) = - radians 90 /\ radians (-45) = - radians 45.
Proof. unfold radians; repeat split; ring. Qed.

Lemma sin_cos_135 : sin (radians 135) = 1 / sqrt 2 /\ cos (radians 135) = - (1 / sqrt 2).
Proof.
replace (radians 135) with (radians 90 + radians 45) by (unfold radians; field).
destruct sin_cos_deg as [E1 [E2 [E3 [E4 [E5 [E6 [E7 E8]]]]]]].
rewrite sin_plus, cos_plus, E1, E2, E7, E8; split; ring.
Qed.

Lemma directions_ok d v : In (d, v) compass -> exists alpha beta, get_w_alpha_j_w_beta_j d = Ok (alpha, beta) /\ normal alpha beta = v.
Proof.
destruct sin_cos_deg as [E1 [E2 [E3 [E4 [E5 [E6 [E7 E8]]]]]]]; destruct sin_cos_135 as [E9 E10]; destruct radians_neg as [N1 [N2 N3]].
unfold compass; simpl; intro I.
repeat (destruct I as [I|I]; [injection I as <- <-; eexists; eexists; split; [reflexivity|];
  unfold normal; simpl; rewrite ?N1, ?N2, ?N3, ?sin_neg, ?cos_neg, ?E1, ?E2, ?E3, ?E4, ?E5, ?E6, ?E7, ?E8, ?E9, ?E10; f_equal; ring|]); destruct I.
Qed.

Lemma directions_known d alpha beta : get_w_alpha_j_w_beta_j d = Ok (alpha, beta) -> exists v, In (d, v) compass /\ normal alpha beta = v.
Proof.
intro H; assert (K : exists v, In (d, v) compass).
{ revert H; unfold get_w_alpha_j_w_beta_j, compass.
  repeat match goal with |- context [if (d =? ?s)%string then _ else _] =>
    destruct (String.eqb_spec d s) as [->|]; [intros _; eexists; simpl; intuition eauto; fail|] end.
  discriminate. }
destruct K as [v I]; exists v; split; [exact I|].
destruct (directions_ok d v I) as [al [be [E N]]]; congruence.
Qed.

(* sunshades *)
Lemma out_eq h a w : dot (Sky.direction h a) (normal w (PI / 2)) = cos h * cos (a - w).
Proof. unfold dot, Sky.direction, normal; simpl; rewrite sin_PI2, cos_PI2, cos_minus; ring. Qed.

Lemma clip_range x : 0 <= clip x 0 1 <= 1.
Proof. unfold clip, Rmin, Rmax; destruct (Rle_dec x 0); destruct (Rle_dec _ 1); lra. Qed.

Lemma clip_mono x y : x <= y -> clip x 0 1 <= clip y 0 1.
Proof. unfold clip, Rmin, Rmax; intro; destruct (Rle_dec x 0), (Rle_dec y 0); repeat destruct (Rle_dec _ 1); lra. Qed.

Lemma shade_value w z dh de h a : 0 < h < PI / 2 -> cos (a - w) <> 0 -> 0 < dh ->
  get_f_ss_d_j_n (Simple w z dh de) h (Some a) =
  Ok (Some (clip ((z * (sin h / (cos h * cos (a - w))) - de) / dh) 0 1)).
Proof.
intros H C D; assert (0 < cos h) by (apply cos_gt_0; lra).
unfold get_f_ss_d_j_n; destruct (Rlt_dec 0 h); [|lra]; simpl obind.
rewrite div_some by exact C; simpl; rewrite div_some by lra; simpl.
destruct (Rle_dec h 0); [lra|]; unfold tan; do 5 f_equal; field; split; [exact C|lra].
Qed.

Lemma shade_night w z dh de h a : h <= 0 -> get_f_ss_d_j_n (Simple w z dh de) h a = Ok (Some 0).
Proof. intro H; unfold get_f_ss_d_j_n; destruct (Rlt_dec 0 h); [lra|]; destruct (Rle_dec 0 0); [reflexivity|lra]. Qed.

Lemma shade_range s h a f : get_f_ss_d_j_n s h a = Ok (Some f) -> 0 <= f <= 1.
Proof.
destruct s as [w z dh de| |]; simpl; [|discriminate|intros [= <-]; lra].
destruct (Rle_dec _ 0); [intros [= <-]; lra|].
destruct (if Rlt_dec 0 h then a else Some 0) as [a'|]; simpl; [|discriminate].
destruct (div (tan _) _) as [t|]; simpl; [|discriminate].
destruct (div _ dh) as [q|]; simpl; [|discriminate]; intros [= <-]; apply clip_range.
Qed.

(* the shaded fraction of the window is the fraction that lies in the shadow *)
Lemma shade_geometry w z dh de h a f : 0 < dh -> 0 <= de -> 0 <= z -> 0 < h < PI / 2 ->
  get_f_ss_d_j_n (Simple w z dh de) h (Some a) = Ok (Some f) ->
  (0 < dot (Sky.direction h a) (normal w (PI / 2)) ->
   f * dh = Rmin dh (Rmax 0 (shadow z w (Sky.direction h a) - de))) /\
  (dot (Sky.direction h a) (normal w (PI / 2)) < 0 -> f = 0).
Proof.
intros D E Z H F; assert (Ch : 0 < cos h) by (apply cos_gt_0; lra).
assert (Sh : 0 <= sin h) by (apply sin_ge_0; lra).
unfold shadow; rewrite out_eq; split; intro O.
- assert (C : 0 < cos (a - w)) by nra.
  rewrite shade_value in F by lra; injection F as <-.
  replace (up (Sky.direction h a)) with (sin h) by reflexivity.
  set (L := z * sin h / (cos h * cos (a - w))).
  replace (z * (sin h / (cos h * cos (a - w)))) with L by (unfold L; field; lra).
  unfold clip, Rmin, Rmax.
  assert (Q : (L - de) / dh * dh = L - de) by (field; lra).
  assert (G : forall b, ((L - de) / dh <= b) <-> (L - de <= b * dh)).
  { intro b; rewrite <- Q at 2; split; intro; [apply Rmult_le_compat_r; lra|apply Rmult_le_reg_r with dh; lra]. }
  destruct (Rle_dec ((L - de) / dh) 0) as [A|A].
  + apply G in A; destruct (Rle_dec 0 1); [|lra]; destruct (Rle_dec 0 (L - de)); destruct (Rle_dec dh _); lra.
  + assert (~ (L - de <= 0 * dh)) by (intro X; apply A, G, X).
    destruct (Rle_dec 0 (L - de)); [|lra].
    destruct (Rle_dec ((L - de) / dh) 1) as [B|B].
    * apply G in B; destruct (Rle_dec dh (L - de)); lra.
    * assert (~ (L - de <= 1 * dh)) by (intro X; apply B, G, X); destruct (Rle_dec dh (L - de)); lra.
- assert (C : cos (a - w) < 0) by nra.
  rewrite shade_value in F by lra; injection F as <-.
  assert (I : / (cos h * cos (a - w)) < 0) by (apply Rinv_lt_0_compat; lra).
  assert (I2 : 0 < / dh) by (apply Rinv_0_lt_compat; lra).
  assert (P : 0 <= z * sin h) by nra.
  assert (N : (z * (sin h / (cos h * cos (a - w))) - de) / dh <= 0).
  { unfold Rdiv; assert (z * (sin h * / (cos h * cos (a - w))) <= 0) by nra; nra. }
  unfold clip, Rmin, Rmax; destruct (Rle_dec _ 0); [|lra]; destruct (Rle_dec 0 1); lra.
Qed.

(* a deeper overhang never shades less *)
Lemma shade_mono w z z' dh de h a f f' : 0 < dh -> 0 <= de -> 0 <= z <= z' -> h < PI / 2 ->
  get_f_ss_d_j_n (Simple w z dh de) h a = Ok (Some f) -> get_f_ss_d_j_n (Simple w z' dh de) h a = Ok (Some f') -> f <= f'.
Proof.
intros D E Z H F F'; destruct (Rle_lt_dec h 0) as [N|N].
- rewrite shade_night in F, F' by exact N; injection F as <-; injection F' as <-; lra.
- destruct a as [a|].
  2:{ exfalso; revert F; simpl; destruct (Rlt_dec 0 h); [|lra]; destruct (Rle_dec h 0); [lra|]; simpl; discriminate. }
  destruct (Req_EM_T (cos (a - w)) 0) as [C|C].
  { exfalso; revert F; simpl; destruct (Rlt_dec 0 h); [|lra]; destruct (Rle_dec h 0); [lra|]; simpl.
    unfold div at 1; destruct (Req_EM_T (cos (a - w)) 0); [discriminate|contradiction]. }
  assert (Ch : 0 < cos h) by (apply cos_gt_0; lra); pose proof PI_RGT_0.
  assert (Sh : 0 <= sin h) by (apply sin_ge_0; lra).
  rewrite shade_value in F, F' by (try split; assumption || lra); injection F as <-; injection F' as <-.
  assert (I2 : 0 < / dh) by (apply Rinv_0_lt_compat; lra).
  destruct (Rlt_le_dec 0 (cos (a - w))) as [P|P].
  + apply clip_mono; assert (0 < / (cos h * cos (a - w))) by (apply Rinv_0_lt_compat; nra).
    assert (0 <= sin h / (cos h * cos (a - w))) by (unfold Rdiv; nra).
    unfold Rdiv at 1 3; apply Rmult_le_compat_r; nra.
  + assert (/ (cos h * cos (a - w)) < 0) by (apply Rinv_lt_0_compat; nra).
    assert (T : sin h / (cos h * cos (a - w)) <= 0) by (unfold Rdiv; nra).
    assert (A : forall y, 0 <= y -> clip ((y * (sin h / (cos h * cos (a - w))) - de) / dh) 0 1 = 0).
    { intros y Y; assert ((y * (sin h / (cos h * cos (a - w))) - de) / dh <= 0) by (assert (y * (sin h / (cos h * cos (a - w))) <= 0) by nra; unfold Rdiv at 1; nra).
      unfold clip, Rmin, Rmax; destruct (Rle_dec _ 0); [|lra]; destruct (Rle_dec 0 1); lra. }
    rewrite !A; lra.
Qed.

Lemma sqrt_diff p q z z' : 0 <= p <= q -> 0 <= z <= z' ->
  sqrt (q ^ 2 + z' ^ 2) - sqrt (p ^ 2 + z' ^ 2) <= sqrt (q ^ 2 + z ^ 2) - sqrt (p ^ 2 + z ^ 2).
Proof.
intros P Z.
set (A' := sqrt (q ^ 2 + z' ^ 2)); set (B' := sqrt (p ^ 2 + z' ^ 2)); set (A := sqrt (q ^ 2 + z ^ 2)); set (B := sqrt (p ^ 2 + z ^ 2)).
assert (EA' : A' * A' = q ^ 2 + z' ^ 2) by (apply sqrt_sqrt; nra).
assert (EB' : B' * B' = p ^ 2 + z' ^ 2) by (apply sqrt_sqrt; nra).
assert (EA : A * A = q ^ 2 + z ^ 2) by (apply sqrt_sqrt; nra).
assert (EB : B * B = p ^ 2 + z ^ 2) by (apply sqrt_sqrt; nra).
assert (A'0 : 0 <= A') by apply sqrt_pos; assert (B'0 : 0 <= B') by apply sqrt_pos.
assert (A0 : 0 <= A) by apply sqrt_pos; assert (B0 : 0 <= B) by apply sqrt_pos.
assert (LA : A <= A') by (apply sqrt_le_1; nra); assert (LB : B <= B') by (apply sqrt_le_1; nra).
assert (AB : B <= A) by (apply sqrt_le_1; nra); assert (AB' : B' <= A') by (apply sqrt_le_1; nra).
(* (A' - B') (A' + B') = q^2 - p^2 = (A - B) (A + B) *)
assert (E : (A' - B') * (A' + B') = (A - B) * (A + B)) by nra.
destruct (Req_dec (A' + B') 0) as [Z0|Z0]; [assert (A' = 0) by lra; assert (B' = 0) by lra; assert (A = 0) by lra; assert (B = 0) by lra; lra|].
apply Rmult_le_reg_r with (A' + B'); [lra|]; rewrite E; apply Rmult_le_compat_l; lra.
Qed.

Lemma shade_sky w z dh de : 0 < dh -> 0 <= de -> 0 <= z -> exists f, get_f_ss_s_j (Simple w z dh de) = Ok f /\ 0 <= f <= 1 / 2 /\
  f = (dh + sqrt (de ^ 2 + z ^ 2) - sqrt ((de + dh) ^ 2 + z ^ 2)) / (2 * dh).
Proof.
intros D E Z; unfold get_f_ss_s_j; destruct (Req_EM_T (2 * dh) 0); [lra|].
eexists; split; [reflexivity|].
set (B := sqrt (de ^ 2 + z ^ 2)); set (C := sqrt ((de + dh) ^ 2 + z ^ 2)).
assert (I : 0 < / (2 * dh)) by (apply Rinv_0_lt_compat; lra).
assert (BC : B <= C) by (apply sqrt_le_1; nra).
assert (CB : C - B <= dh).
{ pose proof (sqrt_diff de (de + dh) 0 z) as S; unfold C, B.
  assert (E1 : sqrt ((de + dh) ^ 2 + 0 ^ 2) = de + dh) by (replace ((de + dh) ^ 2 + 0 ^ 2) with ((de + dh) * (de + dh)) by ring; apply sqrt_square; lra).
  assert (E2 : sqrt (de ^ 2 + 0 ^ 2) = de) by (replace (de ^ 2 + 0 ^ 2) with (de * de) by ring; apply sqrt_square; lra).
  rewrite E1, E2 in S; lra. }
split; [|f_equal; ring].
assert (Q : 2 * dh * / (2 * dh) = 1) by (field; lra).
split; unfold Rdiv; nra.
Qed.

Lemma shade_sky_mono w z z' dh de f f' : 0 < dh -> 0 <= de -> 0 <= z <= z' ->
  get_f_ss_s_j (Simple w z dh de) = Ok f -> get_f_ss_s_j (Simple w z' dh de) = Ok f' -> f <= f'.
Proof.
intros D E Z F F'.
destruct (shade_sky w z dh de D E) as [g [G [_ ->]]]; [lra|]; assert (X : f = (dh + sqrt (de ^ 2 + z ^ 2) - sqrt ((de + dh) ^ 2 + z ^ 2)) / (2 * dh)) by congruence; rewrite X.
destruct (shade_sky w z' dh de D E) as [g' [G' [_ ->]]]; [lra|]; assert (X' : f' = (dh + sqrt (de ^ 2 + z' ^ 2) - sqrt ((de + dh) ^ 2 + z' ^ 2)) / (2 * dh)) by congruence; rewrite X'.
assert (S := sqrt_diff de (de + dh) z z' ltac:(lra) Z).
assert (I : 0 < / (2 * dh)) by (apply Rinv_0_lt_compat; lra).
unfold Rdiv; apply Rmult_le_compat_r; lra.
Qed.

(* glazing *)
Lemma tau_single_range c : 0 <= c <= 1 -> 0 <= tau_single c <= 1003 / 1000.
Proof. intro H; pose proof (tau_ge0 c H); pose proof (tau_le c H); lra. Qed.

Lemma rho_lt1 c : 0 < c <= 1 -> 0 <= rho_single c < 1.
Proof.
intro H; split; [apply rho_ge0; lra|].
pose proof (rho_slope c) as S.
assert (E : rho_single c = 1 - c * (5189 / 1000 - 12392 / 1000 * c + 16593 / 1000 * c ^ 2 - 11851 / 1000 * c ^ 3 + 3461 / 1000 * c ^ 4))
  by (unfold rho_single; ring).
rewrite E; nra.
Qed.

Lemma tau_double_range c : 0 < c <= 1 -> 0 <= tau_double c <= 1003 / 1000.
Proof.
intro H; destruct (rho_lt1 c H) as [R0 R1]; unfold tau_double.
assert (P : 0 < 1 - rho_single c ^ 2) by nra.
assert (I : 0 < / (1 - rho_single c ^ 2)) by (apply Rinv_0_lt_compat; lra).
split; [unfold Rdiv; apply Rmult_le_pos; nra|].
apply Rmult_le_reg_r with (1 - rho_single c ^ 2); [lra|].
unfold Rdiv; rewrite Rmult_assoc, Rinv_l by lra.
pose proof (dbl c); nra.
Qed.

(* transmittance times cosine of the angle of incidence: no division by zero matters *)
Lemma tau_cos g t tau : get_tau_d_j_n (Some t) g = Ok (Some tau) -> 0 <= cos t <= 1 -> 0 <= tau * cos t <= 1003 / 1000 * cos t.
Proof.
unfold get_tau_d_j_n; intros E H.
destruct (g =? "single")%string; [|destruct (g =? "multiple")%string; [|discriminate]]; injection E as <-.
- pose proof (tau_single_range (cos t) H); nra.
- destruct (Req_EM_T (cos t) 0) as [->|N]; [rewrite !Rmult_0_r; lra|].
  pose proof (tau_double_range (cos t)); nra.
Qed.

Lemma shade_sky_range s f : sound_shading s -> get_f_ss_s_j s = Ok f -> 0 <= f <= 1.
Proof.
destruct s as [w z dh de| |]; [|discriminate|intros _ [= <-]; lra].
intros [Z [D E]] F; destruct (shade_sky w z dh de D E Z) as [f' [G [B _]]]; assert (f = f') by congruence; subst; lra.
Qed.

(* what a window transmits, in terms of its irradiance *)
Lemma qgt_ok d area s g eta w q : get_qgt_n d area s g eta w = Ok (Some q) ->
  exists alpha beta t f_d f_s tau c,
  get_w_alpha_j_w_beta_j d = Ok (alpha, beta) /\ get_theta_aoi_j_n (h_sun w) (a_sun w) alpha beta = Some t /\
  get_f_ss_d_j_n s (h_sun w) (a_sun w) = Ok (Some f_d) /\ get_f_ss_s_j s = Ok f_s /\
  get_tau_d_j_n (Some t) g = Ok (Some tau) /\ get_c_d_j g = Ok c /\
  q = (eta * (1 - f_d) * tau * (i_dn w * cos t) + eta * (1 - f_s) * c * ((1 + cos beta) / 2 * i_sky w)
       + eta * c * ((1 - cos beta) / 2 * (1 / 10) * get_i_hrz_n (i_dn w) (i_sky w) (h_sun w))) * area.
Proof.
unfold get_qgt_n, get_i_is_j_n; intro H.
apply bind_ok in H; destruct H as [[alpha beta] [E1 H]]; cbn [fst snd] in H.
apply bind_ok in H; destruct H as [fd [E2 H]]; apply bind_ok in H; destruct H as [fs [E3 H]].
apply bind_ok in H; destruct H as [tau [E4 H]]; apply bind_ok in H; destruct H as [c [E5 H]].
destruct fd as [fd|]; [|discriminate]; destruct tau as [tau|]; [|discriminate].
destruct (get_theta_aoi_j_n (h_sun w) (a_sun w) alpha beta) as [t|] eqn:Et; [|discriminate].
exists alpha, beta, t, fd, fs, tau, c; repeat (split; [assumption || reflexivity|]).
injection H as <-; unfold get_i_is_sky_j_n, get_i_is_ref_j_n, get_f_gnd_j, get_f_sky_j, get_rho_gnd; field.
Qed.

Lemma c_d_range g c : get_c_d_j g = Ok c -> 0 <= c <= 1.
Proof. unfold get_c_d_j; destruct (g =? "single")%string; [|destruct (g =? "multiple")%string; [|discriminate]]; intros [= <-]; lra. Qed.

Lemma hrz_range i_dn i_sky h : h <= PI -> 0 <= i_dn -> 0 <= i_sky -> 0 <= get_i_hrz_n i_dn i_sky h.
Proof.
intros H D S; unfold get_i_hrz_n; destruct (Rlt_dec 0 h); [pose proof (sin_ge_0 h); nra|nra].
Qed.

Lemma qgt_bounds d area s g eta w q alpha beta e_d e_s e_r : sound_shading s -> 0 <= eta -> 0 <= area ->
  0 <= i_dn w -> 0 <= i_sky w -> h_sun w <= PI ->
  get_qgt_n d area s g eta w = Ok (Some q) -> get_w_alpha_j_w_beta_j d = Ok (alpha, beta) ->
  get_i_is_j_n (i_dn w) (i_sky w) (h_sun w) (a_sun w) alpha beta = (Some e_d, e_s, e_r) ->
  0 <= q <= eta * (1003 / 1000) * area * (e_d + e_s + e_r).
Proof.
intros Sd Eta Ar Dn Sk Hh Q Ab I.
destruct (qgt_ok _ _ _ _ _ _ _ Q) as [al [be [t [fd [fs [tau [c [Ab' [Et [Ed [Es [Etau [Ec Eq]]]]]]]]]]]]].
rewrite Ab in Ab'; injection Ab' as <- <-.
unfold get_i_is_j_n in I; rewrite Et in I; simpl in I; injection I as <- <- <-.
unfold get_i_is_sky_j_n, get_i_is_ref_j_n, get_f_gnd_j, get_f_sky_j, get_rho_gnd.
pose proof (shade_range _ _ _ _ Ed) as Fd; pose proof (shade_sky_range _ _ Sd Es) as Fs; pose proof (c_d_range _ _ Ec) as C.
assert (Ct : 0 <= cos t <= 1).
{ destruct (a_sun w) as [a|] eqn:Ea.
  - destruct (aoi_ok (h_sun w) a alpha beta) as [t' [E' [_ R']]]; congruence.
  - destruct (Req_EM_T (cos (h_sun w)) 0) as [Z|Z].
    + rewrite aoi_zenith in Et by exact Z; destruct (aoi_ok (h_sun w) 0 alpha beta) as [t' [E' [_ R']]]; congruence.
    + exfalso; revert Et; unfold get_theta_aoi_j_n; destruct (Req_EM_T (cos (h_sun w)) 0); [contradiction|discriminate]. }
pose proof (tau_cos _ _ _ Etau Ct) as T; pose proof (hrz_range _ _ _ Hh Dn Sk) as Hz; pose proof (cos_range beta) as B.
set (hz := get_i_hrz_n _ _ _) in *.
set (A1 := (1 + cos beta) / 2 * i_sky w) in *; set (A2 := (1 - (1 + cos beta) / 2) * (1 / 10) * hz).
assert (A1p : 0 <= A1) by (unfold A1; nra).
assert (A2p : 0 <= A2) by (unfold A2; apply Rmult_le_pos; [|exact Hz]; nra).
rewrite Eq; replace ((1 - cos beta) / 2 * (1 / 10) * hz) with A2 by (unfold A2; field).
set (x := cos t) in *.
assert (X1 : 0 <= (1 - fd) * (tau * x * i_dn w) <= 1003 / 1000 * (i_dn w * x)).
{ assert (0 <= tau * x * i_dn w <= 1003 / 1000 * x * i_dn w) by (split; [apply Rmult_le_pos; lra|apply Rmult_le_compat_r; lra]).
  split; [apply Rmult_le_pos; lra|nra]. }
assert (X2 : 0 <= (1 - fs) * c * A1 <= 1003 / 1000 * A1).
{ assert (0 <= (1 - fs) * c <= 1) by nra; nra. }
assert (X3 : 0 <= c * A2 <= 1003 / 1000 * A2) by nra.
replace ((eta * (1 - fd) * tau * (i_dn w * x) + eta * (1 - fs) * c * A1 + eta * c * A2) * area)
  with (eta * area * ((1 - fd) * (tau * x * i_dn w) + (1 - fs) * c * A1 + c * A2)) by ring.
replace (eta * (1003 / 1000) * area * (i_dn w * x + A1 + A2)) with (eta * area * (1003 / 1000 * (i_dn w * x) + 1003 / 1000 * A1 + 1003 / 1000 * A2)) by ring.
assert (0 <= eta * area) by nra.
split; [apply Rmult_le_pos; lra|apply Rmult_le_compat_l; lra].
Qed.

Lemma aoi_cos h a alpha beta t : get_theta_aoi_j_n h a alpha beta = Some t -> 0 <= cos t <= 1 /\ (a <> None \/ cos h = 0) /\
  cos t = Rmax 0 (dot (Sky.direction h (azimuth a)) (normal alpha beta)).
Proof.
intro Et.
assert (A : a <> None \/ cos h = 0).
{ destruct a; [left; discriminate|]; destruct (Req_EM_T (cos h) 0) as [Z|Z]; [auto|exfalso].
  revert Et; unfold get_theta_aoi_j_n; destruct (Req_EM_T (cos h) 0); [contradiction|discriminate]. }
destruct (aoi_any h a alpha beta A) as [t' [E' [C' R']]]; assert (t' = t) by congruence; subst; auto.
Qed.

Lemma qgt_mono d area s g eta w w' q q' : sound_shading s -> 0 <= eta -> 0 <= area -> h_sun w <= PI ->
  h_sun w' = h_sun w -> a_sun w' = a_sun w -> i_dn w <= i_dn w' -> i_sky w <= i_sky w' ->
  get_qgt_n d area s g eta w = Ok (Some q) -> get_qgt_n d area s g eta w' = Ok (Some q') -> q <= q'.
Proof.
intros Sd Eta Ar Hh Eh Ea Dn Sk Q Q'.
destruct (qgt_ok _ _ _ _ _ _ _ Q) as [al [be [t [fd [fs [tau [c [Ab [Et [Ed [Es [Etau [Ec Eq]]]]]]]]]]]]].
destruct (qgt_ok _ _ _ _ _ _ _ Q') as [al' [be' [t' [fd' [fs' [tau' [c' [Ab' [Et' [Ed' [Es' [Etau' [Ec' Eq']]]]]]]]]]]]].
rewrite Eh, Ea in *.
assert (al' = al) by congruence; assert (be' = be) by congruence; subst al' be'.
assert (t' = t) by congruence; subst t'; assert (fd' = fd) by congruence; assert (fs' = fs) by congruence.
assert (tau' = tau) by congruence; assert (c' = c) by congruence; subst fd' fs' tau' c'.
destruct (aoi_cos _ _ _ _ _ Et) as [Ct _].
pose proof (tau_cos _ _ _ Etau Ct) as T; pose proof (shade_range _ _ _ _ Ed) as Fd; pose proof (shade_sky_range _ _ Sd Es) as Fs.
pose proof (c_d_range _ _ Ec) as C; pose proof (cos_range be) as B.
assert (Hz : get_i_hrz_n (i_dn w) (i_sky w) (h_sun w) <= get_i_hrz_n (i_dn w') (i_sky w') (h_sun w)).
{ unfold get_i_hrz_n; destruct (Rlt_dec 0 (h_sun w)); [pose proof (sin_ge_0 (h_sun w)); nra|nra]. }
set (hz := get_i_hrz_n (i_dn w) _ _) in *; set (hz' := get_i_hrz_n (i_dn w') _ _) in *.
rewrite Eq, Eq'; apply Rmult_le_compat_r; [exact Ar|].
apply Rplus_le_compat; [apply Rplus_le_compat|].
- replace (eta * (1 - fd) * tau * (i_dn w * cos t)) with (eta * (1 - fd) * (tau * cos t) * i_dn w) by ring.
  replace (eta * (1 - fd) * tau * (i_dn w' * cos t)) with (eta * (1 - fd) * (tau * cos t) * i_dn w') by ring.
  apply Rmult_le_compat_l; [|exact Dn]; apply Rmult_le_pos; [|lra]; nra.
- apply Rmult_le_compat_l; [apply Rmult_le_pos; [nra|lra]|]; apply Rmult_le_compat_l; lra.
- apply Rmult_le_compat_l; [nra|]; apply Rmult_le_compat_l; [nra|exact Hz].
Qed.

Lemma qgt_zero d area s g eta w q : i_dn w = 0 -> i_sky w = 0 -> get_qgt_n d area s g eta w = Ok (Some q) -> q = 0.
Proof.
intros D S Q; destruct (qgt_ok _ _ _ _ _ _ _ Q) as [al [be [t [fd [fs [tau [c [_ [_ [_ [_ [_ [_ Eq]]]]]]]]]]]]].
rewrite Eq, D, S; unfold get_i_hrz_n; ring.
Qed.

(* when everything is given, the result is defined unless the sun lies exactly in the plane of a shaded wall *)
Lemma qgt_defined d area s g eta w alpha beta : get_w_alpha_j_w_beta_j d = Ok (alpha, beta) -> sound_shading s -> s <> Detail ->
  (g = "single" \/ g = "multiple")%string -> a_sun w <> None ->
  (forall v z dh de, s = Simple v z dh de -> 0 < h_sun w -> cos (azimuth (a_sun w) - v) <> 0) ->
  exists q, get_qgt_n d area s g eta w = Ok (Some q).
Proof.
intros Ab Sd Nd G An V; unfold get_qgt_n; rewrite Ab; cbn [bind fst snd]; unfold get_i_is_j_n.
destruct (a_sun w) as [a|] eqn:Ea; [|congruence].
destruct (aoi_ok (h_sun w) a alpha beta) as [t [-> _]].
assert (F : exists f, get_f_ss_d_j_n s (h_sun w) (Some a) = Ok (Some f)).
{ destruct s as [v z dh de| |]; [|congruence|eexists; reflexivity].
  destruct (Rle_lt_dec (h_sun w) 0) as [N|N]; [eexists; apply shade_night, N|].
  simpl; destruct (Rlt_dec 0 (h_sun w)); [|lra]; destruct (Rle_dec (h_sun w) 0); [lra|]; simpl.
  rewrite div_some by (apply (V v z dh de eq_refl N)); simpl; destruct Sd as [_ [D _]].
  rewrite div_some by lra; simpl; eexists; reflexivity. }
destruct F as [f ->]; cbn [bind].
assert (F : exists f, get_f_ss_s_j s = Ok f).
{ destruct s as [v z dh de| |]; [|congruence|eexists; reflexivity].
  destruct Sd as [Z [D E]]; destruct (shade_sky v z dh de D E Z) as [f' [-> _]]; eauto. }
destruct F as [f' ->]; cbn [bind].
destruct G as [-> | ->]; simpl; eexists; reflexivity.
Qed.

(* without a sunshade no direct radiation is transmitted *)
Lemma qgt_no_sunshade d area g eta w q : get_qgt_n d area NotShaded g eta w = Ok (Some q) ->
  exists alpha beta c, get_w_alpha_j_w_beta_j d = Ok (alpha, beta) /\ get_c_d_j g = Ok c /\
  q = eta * c * ((1 + cos beta) / 2 * i_sky w + (1 - cos beta) / 2 * (1 / 10) * get_i_hrz_n (i_dn w) (i_sky w) (h_sun w)) * area.
Proof.
intro Q; destruct (qgt_ok _ _ _ _ _ _ _ Q) as [al [be [t [fd [fs [tau [c [Ab [Et [Ed [Es [Etau [Ec Eq]]]]]]]]]]]]].
exists al, be, c; split; [exact Ab|split; [exact Ec|]].
injection Ed as <-; injection Es as <-; rewrite Eq; ring.
Qed.

(* equivalent outdoor temperature *)
Lemma opaque_ok d a_s eps r w th : theta_opaque d a_s eps r w = Ok (Some th) ->
  exists alpha beta e_d e_s e_r, get_w_alpha_j_w_beta_j d = Ok (alpha, beta) /\
  get_i_is_j_n (i_dn w) (i_sky w) (h_sun w) (a_sun w) alpha beta = (Some e_d, e_s, e_r) /\
  th = theta_o w + r * (a_s * (e_d + e_s + e_r) - eps * ((1 + cos beta) / 2 * r_n w)).
Proof.
unfold theta_opaque; intro H; apply bind_ok in H; destruct H as [[alpha beta] [E H]]; cbn [fst snd] in H.
destruct (get_i_is_j_n _ _ _ _ alpha beta) as [[[e_d|] e_s] e_r] eqn:I; [|discriminate].
exists alpha, beta, e_d, e_s, e_r; split; [exact E|split; [exact I|]].
injection H as <-; unfold get_r_n_is_j_n, get_f_sky_j; ring.
Qed.

Lemma opaque_defined d a_s eps r w alpha beta : get_w_alpha_j_w_beta_j d = Ok (alpha, beta) -> (a_sun w <> None \/ cos (h_sun w) = 0) ->
  exists th, theta_opaque d a_s eps r w = Ok (Some th).
Proof.
intros E A; unfold theta_opaque; rewrite E; cbn [bind fst snd].
destruct (aoi_any (h_sun w) (a_sun w) alpha beta A) as [t [Et _]].
unfold get_i_is_j_n; rewrite Et; simpl; eexists; reflexivity.
Qed.

Lemma irr_mono i i' j j' h a alpha beta d s r d' s' r' : h <= PI -> i <= i' -> j <= j' ->
  get_i_is_j_n i j h a alpha beta = (Some d, s, r) -> get_i_is_j_n i' j' h a alpha beta = (Some d', s', r') -> d <= d' /\ s <= s' /\ r <= r'.
Proof.
intros Hh I J E E'; unfold get_i_is_j_n in E, E'.
destruct (get_theta_aoi_j_n h a alpha beta) as [t|] eqn:Et; [|discriminate]; simpl in E, E'.
injection E as <- <- <-; injection E' as <- <- <-.
destruct (aoi_cos _ _ _ _ _ Et) as [Ct _]; pose proof (f_sky_range beta) as [F1 [F2 _]].
unfold get_i_is_sky_j_n, get_i_is_ref_j_n, get_rho_gnd.
split; [nra|split; [nra|]].
assert (Hz : get_i_hrz_n i j h <= get_i_hrz_n i' j' h).
{ unfold get_i_hrz_n; destruct (Rlt_dec 0 h); [pose proof (sin_ge_0 h); nra|nra]. }
apply Rmult_le_compat_l; [nra|exact Hz].
Qed.
