(* PPD, clothing temperature and PMV of ISO 7730 *)
From Coq Require Import Reals Lra Lia String Psatz.
From Coquelicot Require Import Coquelicot.
From Verif Require Import Model.Py Model.EesHouse Model.Psychro Model.Iso7730 Lemmas.PyL Lemmas.PsychroL.
Local Open Scope R_scope.

(* PPD *)
Lemma ppd_even v : get_ppd (- v) = get_ppd v.
Proof. unfold get_ppd; do 3 f_equal; ring. Qed.

Lemma ppd_abs v : get_ppd (Rabs v) = get_ppd v.
Proof. unfold Rabs; destruct (Rcase_abs v); [apply ppd_even|reflexivity]. Qed.

Lemma ppd_zero : get_ppd 0 = 5.
Proof. unfold get_ppd; replace (- (3353 / 100000) * 0 ^ 4 - 2179 / 10000 * 0 ^ 2) with 0 by ring; rewrite exp_0; ring. Qed.

Lemma ppd_incr u v : Rabs u < Rabs v -> get_ppd u < get_ppd v.
Proof.
intro H; rewrite <- (ppd_abs u), <- (ppd_abs v); assert (P := Rabs_pos u); revert H P; generalize (Rabs u) (Rabs v); clear u v.
intros u v L P; unfold get_ppd; assert (Q : u ^ 2 < v ^ 2) by nra.
assert (Q2 : u ^ 4 < v ^ 4) by (replace (u ^ 4) with (u ^ 2 * u ^ 2) by ring; replace (v ^ 4) with (v ^ 2 * v ^ 2) by ring; nra).
assert (exp (- (3353 / 100000) * v ^ 4 - 2179 / 10000 * v ^ 2) < exp (- (3353 / 100000) * u ^ 4 - 2179 / 10000 * u ^ 2)) by (apply exp_increasing; lra).
lra.
Qed.

Lemma ppd_below v : get_ppd v < 100.
Proof. unfold get_ppd; assert (H := exp_pos (- (3353 / 100000) * v ^ 4 - 2179 / 10000 * v ^ 2)); lra. Qed.

Lemma ppd_above v : v <> 0 -> 5 < get_ppd v.
Proof. intro N; rewrite <- ppd_zero; apply ppd_incr; rewrite Rabs_R0; apply Rabs_pos_lt, N. Qed.

Lemma ppd_least v : 5 <= get_ppd v.
Proof. destruct (Req_dec v 0) as [->|N]; [rewrite ppd_zero; lra|left; apply ppd_above, N]. Qed.

(* the convective loss per unit of clothing area *)
Definition coef (k x : R) : R := Rmax k (238 / 100 * sqrt (sqrt (Rabs x))).

Lemma coef_pos k x : x <> 0 -> 0 < coef k x.
Proof.
intro N; apply Rlt_le_trans with (2 := Rmax_r _ _); assert (0 < sqrt (sqrt (Rabs x))) by (apply sqrt_lt_R0, sqrt_lt_R0, Rabs_pos_lt, N); lra.
Qed.
Lemma coef_nonneg k x : 0 <= coef k x.
Proof. apply Rle_trans with (2 := Rmax_r _ _); assert (0 <= sqrt (sqrt (Rabs x))) by apply sqrt_pos; lra. Qed.
Lemma coef_mono k x y : Rabs x <= Rabs y -> coef k x <= coef k y.
Proof.
intro L; apply Rmax_lub; [apply Rmax_l|]; apply Rle_trans with (2 := Rmax_r _ _).
assert (sqrt (sqrt (Rabs x)) <= sqrt (sqrt (Rabs y))) by (apply sqrt_le_1_alt, sqrt_le_1_alt, L); lra.
Qed.
Lemma coef_opp k x : coef k (- x) = coef k x.
Proof. unfold coef; rewrite Rabs_Ropp; reflexivity. Qed.

Lemma conv_pos_incr k x y : 0 <= x < y -> coef k x * x < coef k y * y.
Proof.
intros [X L]; assert (M : coef k x <= coef k y) by (apply coef_mono; rewrite !Rabs_right by lra; lra).
assert (P : 0 < coef k y) by (apply coef_pos; lra); assert (Q := coef_nonneg k x); nra.
Qed.

Lemma conv_incr k x y : x < y -> coef k x * x < coef k y * y.
Proof.
intro L; destruct (Rle_dec 0 x) as [X|X]; [apply conv_pos_incr; lra|].
destruct (Rle_dec y 0) as [Y|Y].
- assert (H := conv_pos_incr k (- y) (- x) ltac:(lra)); rewrite !coef_opp in H; lra.
- assert (0 < coef k x) by (apply coef_pos; lra); assert (0 < coef k y) by (apply coef_pos; lra); nra.
Qed.

Lemma conv_nonneg k x : 0 <= x -> 0 <= coef k x * x.
Proof. intro X; apply Rmult_le_pos; [apply coef_nonneg|exact X]. Qed.
Lemma conv_nonpos k x : x <= 0 -> coef k x * x <= 0.
Proof. intro X; assert (H := coef_nonneg k x); nra. Qed.

Lemma pow4_incr a b : 0 <= a < b -> a ^ 4 < b ^ 4.
Proof.
intros [A L]; assert (Q : a ^ 2 < b ^ 2) by nra; assert (0 <= a ^ 2) by nra.
replace (a ^ 4) with (a ^ 2 * a ^ 2) by ring; replace (b ^ 4) with (b ^ 2 * b ^ 2) by ring; nra.
Qed.
Lemma pow4_mono a b : 0 <= a <= b -> a ^ 4 <= b ^ 4.
Proof. intros [A [L| ->]]; [left; apply pow4_incr; lra|lra]. Qed.

(* heat loss from the clothing per unit of its area factor *)
Definition loss (k t_a t_r t : R) : R := 396 / 10000000000 * ((t + 273) ^ 4 - (t_r + 273) ^ 4) + coef k (t - t_a) * (t - t_a).

Lemma loss_t k t_a t_r s t : - 273 <= s < t -> loss k t_a t_r s < loss k t_a t_r t.
Proof.
intros [S L]; unfold loss; assert (H := pow4_incr (s + 273) (t + 273) ltac:(lra)); assert (K := conv_incr k (s - t_a) (t - t_a) ltac:(lra)); lra.
Qed.
Lemma loss_air k t_a t_a' t_r t : t_a < t_a' -> loss k t_a' t_r t < loss k t_a t_r t.
Proof. intro L; unfold loss; assert (K := conv_incr k (t - t_a') (t - t_a) ltac:(lra)); lra. Qed.
Lemma loss_radiant k t_a t_r t_r' t : - 273 <= t_r < t_r' -> loss k t_a t_r' t < loss k t_a t_r t.
Proof. intros [T L]; unfold loss; assert (H := pow4_incr (t_r + 273) (t_r' + 273) ltac:(lra)); lra. Qed.

(* weak and strict change of the surroundings *)
Lemma loss_env k t_a t_r t_a' t_r' t : - 273 <= t_r -> t_a <= t_a' -> t_r <= t_r' ->
  loss k t_a' t_r' t <= loss k t_a t_r t /\ (t_a < t_a' \/ t_r < t_r' -> loss k t_a' t_r' t < loss k t_a t_r t).
Proof.
intros T A B; assert (H : loss k t_a' t_r t <= loss k t_a t_r t) by (destruct A as [A| <-]; [left; apply loss_air, A|lra]).
assert (K : loss k t_a' t_r' t <= loss k t_a' t_r t) by (destruct B as [B| <-]; [left; apply loss_radiant; lra|lra]).
split; [lra|intros [C|C]].
- assert (loss k t_a' t_r t < loss k t_a t_r t) by (apply loss_air, C); lra.
- assert (loss k t_a' t_r' t < loss k t_a' t_r t) by (apply loss_radiant; lra); lra.
Qed.

(* continuity *)
Lemma coef_cont k t_a t : continuity_pt (fun t => coef k (t - t_a)) t.
Proof.
apply continuity_pt_filterlim; change (continuous (fun t => coef k (t - t_a)) t).
apply (continuous_ext (fun t => scal (k + 238 / 100 * sqrt (sqrt (Rabs (t - t_a))) + Rabs (k - 238 / 100 * sqrt (sqrt (Rabs (t - t_a))))) (/ 2))
  (fun t => coef k (t - t_a))).
{ intro s; unfold scal; simpl; unfold mult; simpl; unfold coef, Rmax, Rabs at 2; destruct (Rle_dec _ _), (Rcase_abs _); lra. }
assert (C : continuous (fun t => 238 / 100 * sqrt (sqrt (Rabs (t - t_a)))) t).
{ apply (continuous_scal_r (238 / 100) (fun t => sqrt (sqrt (Rabs (t - t_a)))) t).
  apply (continuous_comp (fun t => sqrt (Rabs (t - t_a))) sqrt t); [|apply continuous_sqrt].
  apply (continuous_comp (fun t => Rabs (t - t_a)) sqrt t); [|apply continuous_sqrt].
  apply (continuous_comp (fun t => t - t_a) Rabs t); [|apply continuous_Rabs].
  apply (continuous_minus (fun t => t) (fun _ => t_a)); [apply continuous_id|apply continuous_const]. }
apply (continuous_scal_l (fun t => k + 238 / 100 * sqrt (sqrt (Rabs (t - t_a))) + Rabs (k - 238 / 100 * sqrt (sqrt (Rabs (t - t_a))))) (/ 2) t).
apply (continuous_plus (fun t => k + 238 / 100 * sqrt (sqrt (Rabs (t - t_a)))) (fun t => Rabs (k - 238 / 100 * sqrt (sqrt (Rabs (t - t_a)))))).
- apply (continuous_plus (fun _ => k)); [apply continuous_const|exact C].
- apply (continuous_comp (fun t => k - 238 / 100 * sqrt (sqrt (Rabs (t - t_a)))) Rabs t); [|apply continuous_Rabs].
  apply (continuous_minus (fun _ => k)); [apply continuous_const|exact C].
Qed.

Lemma loss_cont k t_a t_r : continuity (loss k t_a t_r).
Proof.
intro t; unfold loss; apply continuity_pt_plus.
- assert (derivable_pt (fun t => 396 / 10000000000 * ((t + 273) ^ 4 - (t_r + 273) ^ 4)) t) by reg; apply derivable_continuous_pt; assumption.
- apply (continuity_pt_mult (fun t => coef k (t - t_a)) (fun t => t - t_a)); [apply coef_cont|].
  assert (derivable_pt (fun t => t - t_a) t) by reg; apply derivable_continuous_pt; assumption.
Qed.

Definition least (a b c : R) := Rmin a (Rmin b c).
Definition greatest (a b c : R) := Rmax a (Rmax b c).

Lemma least_le a b c : least a b c <= a /\ least a b c <= b /\ least a b c <= c.
Proof. unfold least; assert (H := Rmin_l a (Rmin b c)); assert (K := Rmin_r a (Rmin b c)); assert (A := Rmin_l b c); assert (B := Rmin_r b c); lra. Qed.
Lemma greatest_ge a b c : a <= greatest a b c /\ b <= greatest a b c /\ c <= greatest a b c.
Proof. unfold greatest; assert (H := Rmax_l a (Rmax b c)); assert (K := Rmax_r a (Rmax b c)); assert (A := Rmax_l b c); assert (B := Rmax_r b c); lra. Qed.
Lemma least_ge a b c x : x <= a -> x <= b -> x <= c -> x <= least a b c.
Proof. intros A B C; unfold least; repeat apply Rmin_glb; assumption. Qed.

(* the balance whose zero is searched *)
Definition balance (g k t_a t_r skin t : R) : R := skin - g * loss k t_a t_r t - t.

Lemma balance_decr g k t_a t_r skin s t : 0 <= g -> - 273 <= s < t -> balance g k t_a t_r skin t < balance g k t_a t_r skin s.
Proof. intros G H; unfold balance; assert (L := loss_t k t_a t_r s t H); nra. Qed.

Lemma loss_lo k t_a t_r t : - 273 <= t -> t <= t_a -> t <= t_r -> loss k t_a t_r t <= 0.
Proof. intros T A B; unfold loss; assert (H := pow4_mono (t + 273) (t_r + 273) ltac:(lra)); assert (K := conv_nonpos k (t - t_a) ltac:(lra)); lra. Qed.
Lemma loss_hi k t_a t_r t : - 273 <= t_r -> t_a <= t -> t_r <= t -> 0 <= loss k t_a t_r t.
Proof. intros T A B; unfold loss; assert (H := pow4_mono (t_r + 273) (t + 273) ltac:(lra)); assert (K := conv_nonneg k (t - t_a) ltac:(lra)); lra. Qed.

Lemma balance_zero g k t_a t_r skin : 0 <= g -> - 273 <= t_a -> - 273 <= t_r -> - 273 <= skin ->
  exists t, least skin t_a t_r <= t <= greatest skin t_a t_r /\ balance g k t_a t_r skin t = 0.
Proof.
intros G A B C; destruct (least_le skin t_a t_r) as (L1 & L2 & L3); destruct (greatest_ge skin t_a t_r) as (U1 & U2 & U3).
assert (L0 := least_ge skin t_a t_r (- 273) C A B).
destruct (IVT_cor (balance g k t_a t_r skin) (least skin t_a t_r) (greatest skin t_a t_r)) as (t & T & Z).
- intro t; unfold balance; apply continuity_pt_minus; [|apply derivable_continuous_pt, derivable_pt_id].
  apply continuity_pt_minus; [apply continuity_pt_const; intros x y; reflexivity|].
  apply continuity_pt_mult; [apply continuity_pt_const; intros x y; reflexivity|apply loss_cont].
- lra.
- assert (0 <= balance g k t_a t_r skin (least skin t_a t_r)).
  { unfold balance; assert (Q := loss_lo k t_a t_r (least skin t_a t_r) L0 L2 L3); nra. }
  assert (balance g k t_a t_r skin (greatest skin t_a t_r) <= 0).
  { unfold balance; assert (Q := loss_hi k t_a t_r (greatest skin t_a t_r) B U2 U3); nra. }
  nra.
- exists t; split; assumption.
Qed.

Lemma balance_unique g k t_a t_r skin s t : 0 <= g -> - 273 <= s -> - 273 <= t ->
  balance g k t_a t_r skin s = 0 -> balance g k t_a t_r skin t = 0 -> s = t.
Proof.
intros G S T E1 E2; destruct (Rtotal_order s t) as [L|[E|L]]; [|exact E|].
- assert (H := balance_decr g k t_a t_r skin s t G ltac:(lra)); lra.
- assert (H := balance_decr g k t_a t_r skin t s G ltac:(lra)); lra.
Qed.

(* the code in these terms *)
Lemma h_c_ok t_a t v : 0 <= v -> get_h_c t_a t v = Ok (coef (121 / 10 * sqrt v) (t - t_a)).
Proof. intro V; unfold get_h_c, math_sqrt; destruct (Rlt_dec v 0); [lra|reflexivity]. Qed.

Lemma h_c_neg t_a t v : v < 0 -> get_h_c t_a t v = Err ValueError.
Proof. intro V; unfold get_h_c, math_sqrt; destruct (Rlt_dec v 0); [reflexivity|lra]. Qed.

Lemma losses f k t_a t_r t : radiative_loss f t t_r + convective_loss f (coef k (t - t_a)) t_a t = f * loss k t_a t_r t.
Proof. unfold radiative_loss, convective_loss, loss; ring. Qed.

Lemma t_cl_ok f i t_a t v t_r m w : 0 <= v ->
  get_t_cl f i t_a t v t_r m w = Ok (get_skin_temperature m w - i * (f * loss (121 / 10 * sqrt v) t_a t_r t)).
Proof. intro V; unfold get_t_cl; rewrite (h_c_ok t_a t v V); cbn [bind]; rewrite losses; reflexivity. Qed.

Lemma t_cl_balance f i t_a t v t_r m w : 0 <= v ->
  bind (get_t_cl f i t_a t v t_r m w) (fun x => Ok (x - t)) = Ok (balance (i * f) (121 / 10 * sqrt v) t_a t_r (get_skin_temperature m w) t).
Proof. intro V; rewrite (t_cl_ok f i t_a t v t_r m w V); cbn [bind]; unfold balance; f_equal; ring. Qed.

Lemma f_cl_ge1 i : 0 <= i -> 1 <= get_f_cl i.
Proof. intro H; unfold get_f_cl; destruct (Rle_dec i (78 / 1000)); lra. Qed.

(* pressure *)
Lemma sonntag_water t : 0 < t -> exists d, sonntag "water" t = Ok (exp (ea t), d).
Proof.
intro T; unfold sonntag; destruct (string_dec "water" "water") as [_|N]; [|contradiction]; cbn [bind].
rewrite (sat_ok a_1 a_2 a_3 a_4 a_5 t T); cbn [bind]; rewrite (fdiv_pos _ (t ^ 2)) by nra; cbn [bind].
rewrite (fdiv_pos _ t) by exact T; cbn [bind]; eexists; reflexivity.
Qed.

Lemma p_a_ok rh t_a : - 27315 / 100 < t_a -> get_p_a rh t_a = Ok (rh / 100 * exp (ea (t_a + 27315 / 100))).
Proof. intro T; unfold get_p_a; destruct (sonntag_water (t_a + 27315 / 100) ltac:(lra)) as (d & ->); reflexivity. Qed.

Lemma p_a_mono rh rh' t_a t_a' : - 273 <= t_a <= t_a' -> 0 <= rh <= rh' ->
  rh / 100 * exp (ea (t_a + 27315 / 100)) <= rh' / 100 * exp (ea (t_a' + 27315 / 100)) /\
  (rh < rh' -> rh / 100 * exp (ea (t_a + 27315 / 100)) < rh' / 100 * exp (ea (t_a' + 27315 / 100))).
Proof.
intros [T L] [H K]; assert (P := exp_pos (ea (t_a + 27315 / 100))).
assert (Q : exp (ea (t_a + 27315 / 100)) <= exp (ea (t_a' + 27315 / 100))).
{ destruct L as [L| <-]; [left; apply exp_increasing, ea_incr; lra|lra]. }
split; [|intro S]; nra.
Qed.

(* gain *)
Lemma gain_pos m : 0 < 303 / 1000 * exp (- (36 / 1000) * m) + 28 / 1000.
Proof. assert (H := exp_pos (- (36 / 1000) * m)); lra. Qed.

(* heat losses through the clothing fall in warmer surroundings *)
Lemma through_clothing i f k skin t_a t_r t_a' t_r' t t' : 0 <= i -> 0 < f -> - 273 <= t_r -> - 273 <= t -> - 273 <= t' ->
  t_a <= t_a' -> t_r <= t_r' ->
  balance (i * f) k t_a t_r skin t = 0 -> balance (i * f) k t_a' t_r' skin t' = 0 ->
  f * loss k t_a' t_r' t' <= f * loss k t_a t_r t /\
  (t_a < t_a' \/ t_r < t_r' -> f * loss k t_a' t_r' t' < f * loss k t_a t_r t).
Proof.
intros I Fp TR T T' A B E E'; destruct (loss_env k t_a t_r t_a' t_r' t TR A B) as [W S].
assert (G : 0 <= i * f) by nra.
assert (O : t <= t').
{ destruct (Rle_dec t t') as [L|L]; [exact L|]; assert (H := balance_decr (i * f) k t_a' t_r' skin t' t G ltac:(lra)).
  unfold balance in *; nra. }
destruct (Req_dec i 0) as [-> |N].
- assert (t = t') by (unfold balance in *; nra); subst t'; split; [nra|intro C; specialize (S C); nra].
- assert (P : 0 < i) by lra; unfold balance in E, E'; split; [nra|intro C; specialize (S C)].
  assert (t < t'); [|nra].
  destruct O as [O| <-]; [exact O|exfalso; assert (i * f * loss k t_a' t_r' t < i * f * loss k t_a t_r t) by (apply Rmult_lt_compat_l; nra); lra].
Qed.

(* what is assumed of newton: it returns a zero of the function, not below -273 *)
Definition finds_zero (newton : (R -> res R) -> res R) : Prop :=
  forall g t, newton g = Ok t -> - 273 <= t /\ g t = Ok 0.

Lemma pmv_ppd_inv newton met p_eff t_a t_r clo v rh r : finds_zero newton -> 0 <= v -> - 27315 / 100 < t_a ->
  get_pmv_ppd newton met p_eff t_a t_r clo v rh = Ok r ->
  let m := convert_met_to_wm2 met in let w := convert_met_to_wm2 p_eff in
  let i := convert_clo_to_m2kw clo in let f := get_f_cl i in let k := 121 / 10 * sqrt v in
  let p_a := rh / 100 * exp (ea (t_a + 27315 / 100)) in
  exists t, - 273 <= t /\ balance (i * f) k t_a t_r (get_skin_temperature m w) t = 0 /\
    fst r = (303 / 1000 * exp (- (36 / 1000) * m) + 28 / 1000) *
      (m - w - latent_skin m p_a w - sweating m w - latent_breath m p_a - sensible_breath m t_a - f * loss k t_a t_r t) /\
    snd r = get_ppd (fst r).
Proof.
intros N V T E m w i f k p_a; unfold get_pmv_ppd in E; rewrite (p_a_ok rh t_a T) in E; cbn [bind] in E.
apply bind_ok in E; destruct E as (t & E1 & E2).
destruct (N _ _ E1) as [L Z]; rewrite t_cl_balance in Z by exact V; injection Z as Z.
rewrite (h_c_ok t_a t v V) in E2; cbn [bind] in E2; injection E2 as <-.
exists t; split; [exact L|split; [exact Z|split; [|reflexivity]]].
unfold get_pmv; cbn [fst]; rewrite <- (losses f k t_a t_r t); fold m w i f k p_a; ring.
Qed.

Lemma pmv_incr newton met p_eff t_a t_r clo v rh t_a' t_r' rh' r r' : finds_zero newton -> 0 <= met -> 0 <= clo -> 0 <= v ->
  - 273 <= t_a <= t_a' -> - 273 <= t_r <= t_r' -> 0 <= rh <= rh' ->
  t_a < t_a' \/ t_r < t_r' \/ rh < rh' ->
  get_pmv_ppd newton met p_eff t_a t_r clo v rh = Ok r -> get_pmv_ppd newton met p_eff t_a' t_r' clo v rh' = Ok r' ->
  fst r < fst r'.
Proof.
intros N M C V A B H D E E'.
assert (T1 : - 27315 / 100 < t_a) by lra; assert (T2 : - 27315 / 100 < t_a') by lra.
destruct (pmv_ppd_inv _ _ _ _ _ _ _ _ _ N V T1 E) as (t & L & Z & P & _).
destruct (pmv_ppd_inv _ _ _ _ _ _ _ _ _ N V T2 E') as (t' & L' & Z' & P' & _).
rewrite P, P'; clear P P' E E'.
assert (I : 0 <= convert_clo_to_m2kw clo) by (unfold convert_clo_to_m2kw; lra).
assert (Fp := f_cl_ge1 _ I).
destruct (through_clothing _ _ _ _ _ _ t_a' t_r' t t' I (Rlt_le_trans _ _ _ Rlt_0_1 Fp) (proj1 B) L L' (proj2 A) (proj2 B) Z Z') as [W S].
destruct (p_a_mono rh rh' t_a t_a' A H) as [PW PS].
assert (M' : 0 <= convert_met_to_wm2 met) by (unfold convert_met_to_wm2; lra).
set (pa := rh / 100 * exp _) in *; set (pa' := rh' / 100 * exp _) in *; set (m := convert_met_to_wm2 met) in *; set (w := convert_met_to_wm2 p_eff) in *.
apply Rmult_lt_compat_l; [apply gain_pos|].
unfold latent_skin, latent_breath, sensible_breath.
assert (Q1 : 17 / 1000000 * m * (5867 - pa') <= 17 / 1000000 * m * (5867 - pa)) by (apply Rmult_le_compat_l; [nra|lra]).
assert (Q2 : 14 / 10000 * m * (34 - t_a') <= 14 / 10000 * m * (34 - t_a)) by (apply Rmult_le_compat_l; [nra|lra]).
destruct D as [D|[D|D]]; [specialize (S (or_introl D))|specialize (S (or_intror D))|specialize (PS D)]; lra.
Qed.

(* the differential of the saturation pressure *)
Lemma sonntag_ok s c1 c2 c3 c4 c5 t : (s = "water"%string /\ (c1, c2, c3, c4, c5) = (a_1, a_2, a_3, a_4, a_5)) \/
  (s = "ice"%string /\ (c1, c2, c3, c4, c5) = (b_1, b_2, b_3, b_4, b_5)) -> 0 < t ->
  sonntag s t = Ok (exp (c1 / t + c2 + c3 * t + c4 * t ^ 2 + c5 * ln t),
    exp (c1 / t + c2 + c3 * t + c4 * t ^ 2 + c5 * ln t) * (- c1 / t ^ 2 + c3 + 2 * c4 * t + c5 / t)).
Proof.
intros H T; assert (T2 : 0 < t ^ 2) by nra.
assert (K : forall c, c = (c1, c2, c3, c4, c5) -> bind (Ok c) (fun c => let '(c1, c2, c3, c4, c5) := c in
    bind (sat c1 c2 c3 c4 c5 t) (fun pvs => bind (fdiv (- c1) (t ^ 2)) (fun q => bind (fdiv c5 t) (fun r => Ok (pvs, pvs * (q + c3 + 2 * c4 * t + r)))))) =
  Ok (exp (c1 / t + c2 + c3 * t + c4 * t ^ 2 + c5 * ln t), exp (c1 / t + c2 + c3 * t + c4 * t ^ 2 + c5 * ln t) * (- c1 / t ^ 2 + c3 + 2 * c4 * t + c5 / t))).
{ intros c ->; cbn [bind]; rewrite (sat_ok c1 c2 c3 c4 c5 t T); cbn [bind]; rewrite (fdiv_pos _ _ T2); cbn [bind]; rewrite (fdiv_pos _ _ T); reflexivity. }
destruct H as [[-> E]|[-> E]]; unfold sonntag.
- destruct (string_dec "water" "water") as [_|N]; [|contradiction]; apply K; symmetry; exact E.
- destruct (string_dec "ice" "water") as [N|_]; [discriminate|]; destruct (string_dec "ice" "ice") as [_|N]; [|contradiction]; apply K; symmetry; exact E.
Qed.

Lemma sat_derive c1 c2 c3 c4 c5 t : 0 < t ->
  is_derive (fun t => exp (c1 / t + c2 + c3 * t + c4 * t ^ 2 + c5 * ln t)) t
    (exp (c1 / t + c2 + c3 * t + c4 * t ^ 2 + c5 * ln t) * (- c1 / t ^ 2 + c3 + 2 * c4 * t + c5 / t)).
Proof. intro T; auto_derive; [lra|].
change (c1 / t + c2 + c3 * t + c4 * t ^ 2 + c5 * ln t) with (c1 * / t + c2 + c3 * t + c4 * (t * (t * 1)) + c5 * ln t).
generalize (exp (c1 * / t + c2 + c3 * t + c4 * (t * (t * 1)) + c5 * ln t)); intro e; field; lra.
Qed.

Lemma sonntag_derive s t p d : 0 < t -> sonntag s t = Ok (p, d) ->
  is_derive (fun u => match sonntag s u with Ok (q, _) => q | Err _ => 0 end) t d.
Proof.
intros T E.
assert (S : exists c1 c2 c3 c4 c5, (s = "water"%string /\ (c1, c2, c3, c4, c5) = (a_1, a_2, a_3, a_4, a_5)) \/
  (s = "ice"%string /\ (c1, c2, c3, c4, c5) = (b_1, b_2, b_3, b_4, b_5))).
{ revert E; unfold sonntag; destruct (string_dec s "water") as [W|_]; [intros _; do 5 eexists; left; split; [exact W|reflexivity]|].
  destruct (string_dec s "ice") as [W|_]; [intros _; do 5 eexists; right; split; [exact W|reflexivity]|discriminate]. }
destruct S as (c1 & c2 & c3 & c4 & c5 & S); rewrite (sonntag_ok s c1 c2 c3 c4 c5 t S T) in E; injection E as _ <-.
apply is_derive_ext_loc with (fun t => exp (c1 / t + c2 + c3 * t + c4 * t ^ 2 + c5 * ln t)); [|apply sat_derive, T].
exists (mkposreal t T); intros u U; rewrite (sonntag_ok s c1 c2 c3 c4 c5 u S); [reflexivity|].
unfold ball, AbsRing_ball, abs, minus in U; simpl in U; unfold AbsRing_ball in U; simpl in U.
unfold abs, minus, plus, opp in U; simpl in U; apply Rabs_def2 in U; lra.
Qed.
