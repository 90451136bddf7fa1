(* The transmittance for diffuse radiation is the hemispherical mean of that for direct radiation *)
From Coq Require Import Reals ZArith List String Lra.
From Coquelicot Require Import Coquelicot.
From Verif Require Import Model.Py Model.BoundaryDict Model.Inclined Model.SolarShading Model.Transmission
  Spec.Sky Spec.Sunlight Lemmas.PyL Lemmas.GlassPoly Lemmas.GlassNear Lemmas.SolarL Lemmas.SunlightL.
Import ListNotations.
Local Open Scope R_scope.

Lemma tau_p c : tau_single c = c * glass_p c.
Proof. unfold tau_single, glass_p; field. Qed.
Lemma rho_s c : rho_single c = 1 - c * glass_s c.
Proof. unfold rho_single, glass_s; field. Qed.
Lemma glass_s_pos c : 0 <= c <= 1 -> 0 < glass_s c.
Proof. intro H; assert (Q := rho_slope c H); unfold glass_s; lra. Qed.
Lemma glass_d_pos c : 0 <= c <= 1 -> 0 < 2 - c * glass_s c.
Proof. intro H; assert (Q := rho_ge0 c H); rewrite rho_s in Q; lra. Qed.

(* 2 c tau_double without the removable singularity *)
Definition smooth_double (c : R) : R := 2 * c ^ 2 * glass_p c ^ 2 / (glass_s c * (2 - c * glass_s c)).
Lemma double_smooth c : 0 < c <= 1 -> 2 * tau_double c * c = smooth_double c.
Proof.
intro H; assert (A := glass_s_pos c ltac:(lra)); assert (B := glass_d_pos c ltac:(lra)); unfold tau_double, smooth_double; rewrite tau_p, rho_s.
field; repeat split; try lra.
replace (1 - (1 - c * glass_s c) ^ 2) with (c * glass_s c * (2 - c * glass_s c)) by ring; apply Rgt_not_eq; repeat apply Rmult_lt_0_compat; lra.
Qed.
Lemma smooth_near c : 0 <= c <= 1 -> near_double c - 1 / 250 <= smooth_double c <= near_double c + 1 / 250.
Proof.
intro H; assert (A := glass_s_pos c H); assert (B := glass_d_pos c H); assert (D := Rmult_lt_0_compat _ _ A B).
assert (U := near_above c H); assert (L := near_below c H); unfold smooth_double; set (d := glass_s c * (2 - c * glass_s c)) in *.
assert (E : 2 * c ^ 2 * glass_p c ^ 2 / d * d = 2 * c ^ 2 * glass_p c ^ 2) by (field; lra).
split; apply (Rmult_le_reg_r d); try exact D; rewrite E; lra.
Qed.

(* antiderivatives of polynomials in the cosine *)
Definition prim_single (c : R) : R := 2 * (2552 / 3000 * c ^ 3 + 1364 / 4000 * c ^ 4 - 11388 / 5000 * c ^ 5 + 13617 / 6000 * c ^ 6 - 5146 / 7000 * c ^ 7).
Definition prim_near (c : R) : R :=
  (-3 / 1000) * c + 294 / 2000 * c ^ 2 - 3712 / 3000 * c ^ 3 + 39778 / 4000 * c ^ 4 - 88154 / 5000 * c ^ 5 + 80949 / 6000 * c ^ 6 - 27156 / 7000 * c ^ 7.

Lemma cos_integral (f g : R -> R) : (forall x, is_derive g x (f x)) -> (forall x, continuous f x) ->
  is_RInt (fun t => f (cos t) * sin t) 0 (PI / 2) (g 1 - g 0).
Proof.
intros D C; replace (g 1 - g 0) with (minus (- g (cos (PI / 2))) (- g (cos 0))) by (rewrite cos_PI2, cos_0; unfold minus, plus, opp; simpl; ring).
apply (is_RInt_derive (fun t => - g (cos t)) (fun t => f (cos t) * sin t)).
- intros t _; assert (G := D (cos t)).
  replace (f (cos t) * sin t) with (opp (scal (- sin t) (f (cos t)))) by (unfold opp, scal; simpl; unfold mult; simpl; ring).
  apply (is_derive_opp (fun t => g (cos t))), (is_derive_comp g cos); [exact G|apply is_derive_cos].
- intros t _; apply (continuous_mult (fun t => f (cos t)) sin); [apply (continuous_comp cos f); [apply continuous_cos|apply C]|apply continuous_sin].
Qed.

Lemma single_mean : is_RInt (fun t => 2 * tau_single (cos t) * cos t * sin t) 0 (PI / 2) (prim_single 1 - prim_single 0).
Proof.
apply (is_RInt_ext (fun t => (fun c => 2 * tau_single c * c) (cos t) * sin t)); [intros t _; match goal with |- ?a = ?b => change (@eq R a b) end; ring|].
apply (cos_integral (fun c => 2 * tau_single c * c) prim_single).
- intro x; unfold prim_single; auto_derive; [exact I|unfold tau_single; field].
- intro x; apply (ex_derive_continuous (fun c => 2 * tau_single c * c)); unfold tau_single; auto_derive; exact I.
Qed.

Lemma near_mean : is_RInt (fun t => near_double (cos t) * sin t) 0 (PI / 2) (prim_near 1 - prim_near 0).
Proof.
apply cos_integral.
- intro x; unfold prim_near; auto_derive; [exact I|unfold near_double; field].
- intro x; apply (ex_derive_continuous near_double); unfold near_double; auto_derive; exact I.
Qed.
Lemma sin_mean k : is_RInt (fun t => (fun _ => k) (cos t) * sin t) 0 (PI / 2) (k * 1 - k * 0).
Proof.
apply (cos_integral (fun _ => k) (fun c => k * c)).
- intro x; auto_derive; [exact I|ring].
- intro x; apply continuous_const.
Qed.

Lemma cos_between t : 0 <= t <= PI / 2 -> 0 <= cos t <= 1.
Proof. intros [A B]; split; [apply cos_ge_0; lra|apply COS_bound]. Qed.

Lemma smooth_continuous c : 0 <= c <= 1 -> continuous smooth_double c.
Proof.
intro H; assert (A := glass_s_pos c H); assert (B := glass_d_pos c H); apply (ex_derive_continuous smooth_double).
assert (D := Rmult_lt_0_compat _ _ A B); unfold smooth_double; revert D; unfold glass_s, glass_p; intro D; auto_derive.
intro E; simpl in D, E; lra.
Qed.

Lemma double_mean : exists m, is_RInt (fun t => 2 * tau_double (cos t) * cos t * sin t) 0 (PI / 2) m /\ Rabs (832 / 1000 - m) <= 5 / 1000.
Proof.
assert (P := PI_RGT_0).
assert (E : ex_RInt (fun t => smooth_double (cos t) * sin t) 0 (PI / 2)).
{ apply (ex_RInt_continuous (fun t => smooth_double (cos t) * sin t)); intros t; rewrite Rmin_left, Rmax_right by lra; intro H.
  apply (continuous_mult (fun t => smooth_double (cos t)) sin); [|apply continuous_sin].
  apply (continuous_comp cos smooth_double); [apply continuous_cos|apply smooth_continuous, cos_between, H]. }
destruct E as (m & M); exists m; split.
- apply (is_RInt_ext (fun t => smooth_double (cos t) * sin t)); [|exact M].
  intros t; rewrite Rmin_left, Rmax_right by lra; intro H; assert (C := cos_gt_0 t ltac:(lra) ltac:(lra)); assert (B := COS_bound t).
  rewrite <- double_smooth by lra; reflexivity.
- assert (N := near_mean); assert (K := sin_mean (1 / 250)).
  assert (Up := is_RInt_plus _ _ _ _ _ _ N K); assert (Lo := is_RInt_minus _ _ _ _ _ _ N K).
  assert (S : forall t, 0 < t < PI / 2 -> 0 <= sin t) by (intros t H; apply sin_ge_0; lra).
  assert (Q1 := is_RInt_le _ _ _ _ _ _ (ltac:(lra) : 0 <= PI / 2) M Up).
  assert (Q2 := is_RInt_le _ _ _ _ _ _ (ltac:(lra) : 0 <= PI / 2) Lo M).
  unfold plus, minus, opp in Q1, Q2; simpl in Q1, Q2.
  assert (L1 : m <= prim_near 1 - prim_near 0 + (1 / 250 * 1 - 1 / 250 * 0)).
  { apply Q1; intros t H; assert (W := smooth_near (cos t) (cos_between t ltac:(lra))); assert (Z := S t H); nra. }
  assert (L2 : prim_near 1 - prim_near 0 + - (1 / 250 * 1 - 1 / 250 * 0) <= m).
  { apply Q2; intros t H; assert (W := smooth_near (cos t) (cos_between t ltac:(lra))); assert (Z := S t H).
    change (near_double (cos t) * sin t + - (1 / 250 * sin t) <= smooth_double (cos t) * sin t); nra. }
  unfold prim_near in L1, L2; apply Rabs_le; lra.
Qed.

Lemma diffuse_mean g c : get_c_d_j g = Ok c ->
  exists tau m, (forall t, get_tau_d_j_n (Some t) g = Ok (Some (tau t))) /\
    is_RInt (fun t => 2 * tau t * cos t * sin t) 0 (PI / 2) m /\ Rabs (c - m) <= 5 / 1000.
Proof.
unfold get_c_d_j, get_tau_d_j_n; destruct (String.eqb_spec g "single") as [_|_]; [|destruct (String.eqb_spec g "multiple") as [_|_]; [|discriminate]].
- intro H; injection H as <-; exists (fun t => tau_single (cos t)); eexists; split; [reflexivity|split; [exact single_mean|]].
  unfold prim_single; apply Rabs_le; lra.
- intro H; injection H as <-; destruct double_mean as (m & M & B); exists (fun t => tau_double (cos t)), m; split; [reflexivity|split; assumption].
Qed.

Lemma overcast d n area g eta w q : In (d, n) compass -> i_dn w = 0 -> get_qgt_n d area NotShaded g eta w = Ok (Some q) ->
  exists c tau m, q = eta * c * area * total w n /\ (forall t, get_tau_d_j_n (Some t) g = Ok (Some (tau t))) /\
    is_RInt (fun t => 2 * tau t * cos t * sin t) 0 (PI / 2) m /\ Rabs (c - m) <= 5 / 1000.
Proof.
intros I D Q; destruct (qgt_ok _ _ _ _ _ _ _ Q) as (al & be & t & fd & fs & tau & c & Ab & _ & _ & Fs & _ & C & Eq).
destruct (diffuse_mean g c C) as (ta & m & T & M & B); exists c, ta, m; split; [|split; [|split]; assumption].
injection Fs as <-; rewrite Eq, <- (known_direction _ _ _ _ I Ab); unfold total, direct, sky, reflected, horizontal; rewrite up_normal, D.
unfold get_i_hrz_n; field.
Qed.
