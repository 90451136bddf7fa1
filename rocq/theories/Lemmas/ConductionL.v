(* The transfer functions of the response factors solve the heat conduction in the wall *)
From Coq Require Import Reals List Lra.
From Verif Require Import Model.Py Model.ResponseFactor Spec.Conduction Lemmas.PyL.
Import ListNotations.
Local Open Scope R_scope.

(* a function with derivative 0 between 0 and 1 *)
Lemma stays f : (forall x, 0 <= x <= 1 -> derivable_pt_lim f x 0) -> f 0 = f 1.
Proof.
intro H.
assert (D : forall x, 0 <= x <= 1 -> derivable_pt f x) by (intros x X; exists 0; apply H, X).
destruct (MVT_cor2 f (fun _ => 0) 0 1) as (c & E & _); [lra|intros x X; apply H, X|lra].
Qed.

Lemma scaled_sinh t x : derivable_pt_lim (fun y => sinh (t * y)) x (t * cosh (t * x)).
Proof.
replace (t * cosh (t * x)) with (cosh (t * x) * t) by ring.
apply (derivable_pt_lim_comp (fun y => t * y) sinh); [|apply derivable_pt_lim_sinh].
replace t with (t * 1) at 1 by ring; apply (derivable_pt_lim_scal id t x 1), derivable_pt_lim_id.
Qed.
Lemma scaled_cosh t x : derivable_pt_lim (fun y => cosh (t * y)) x (t * sinh (t * x)).
Proof.
replace (t * sinh (t * x)) with (sinh (t * x) * t) by ring.
apply (derivable_pt_lim_comp (fun y => t * y) cosh); [|apply derivable_pt_lim_cosh].
replace t with (t * 1) at 1 by ring; apply (derivable_pt_lim_scal id t x 1), derivable_pt_lim_id.
Qed.

Lemma conduct_massive s r c theta q : r <> 0 -> 0 < r * c * s -> conducts s r c theta q ->
  let t := sqrt (r * c * s) in
  theta 0 = cosh t * theta 1 + r / t * sinh t * q 1 /\ q 0 = t / r * sinh t * theta 1 + cosh t * q 1.
Proof.
intros R0 P [DT DQ] t; assert (T : t * t = r * c * s) by (apply sqrt_sqrt; lra); assert (T0 : 0 < t) by (apply sqrt_lt_R0, P).
assert (S0 : sinh 0 = 0) by (unfold sinh; rewrite Ropp_0; lra); assert (C0 : cosh 0 = 1) by (unfold cosh; rewrite Ropp_0, exp_0; lra).
split.
- assert (E := stays (fun x => cosh (t * x) * theta x + r / t * sinh (t * x) * q x)); cbv beta in E.
  rewrite !Rmult_0_r, !Rmult_1_r, S0, C0 in E; replace (theta 0) with (1 * theta 0 + r / t * 0 * q 0) by ring; apply E.
  intros x X; replace 0 with ((t * sinh (t * x) * theta x + cosh (t * x) * (- r * q x)) +
    (r / t * (t * cosh (t * x)) * q x + r / t * sinh (t * x) * (- (c * s) * theta x))).
  + apply (derivable_pt_lim_plus (fun x => cosh (t * x) * theta x) (fun x => r / t * sinh (t * x) * q x)).
    * apply (derivable_pt_lim_mult (fun x => cosh (t * x)) theta); [apply scaled_cosh|apply DT, X].
    * apply (derivable_pt_lim_mult (fun x => r / t * sinh (t * x)) q); [|apply DQ, X].
      apply (derivable_pt_lim_scal (fun x => sinh (t * x))), scaled_sinh.
  + replace (r / t * sinh (t * x) * (- (c * s) * theta x)) with (- (r * c * s) * sinh (t * x) * theta x / t) by (field; lra).
    rewrite <- T; field; lra.
- assert (E := stays (fun x => t / r * sinh (t * x) * theta x + cosh (t * x) * q x)); cbv beta in E.
  rewrite !Rmult_0_r, !Rmult_1_r, S0, C0 in E; replace (q 0) with (t / r * 0 * theta 0 + 1 * q 0) by ring; apply E.
  intros x X; replace 0 with ((t / r * (t * cosh (t * x)) * theta x + t / r * sinh (t * x) * (- r * q x)) +
    (t * sinh (t * x) * q x + cosh (t * x) * (- (c * s) * theta x))).
  + apply (derivable_pt_lim_plus (fun x => t / r * sinh (t * x) * theta x) (fun x => cosh (t * x) * q x)).
    * apply (derivable_pt_lim_mult (fun x => t / r * sinh (t * x)) theta); [|apply DT, X].
      apply (derivable_pt_lim_scal (fun x => sinh (t * x))), scaled_sinh.
    * apply (derivable_pt_lim_mult (fun x => cosh (t * x)) q); [apply scaled_cosh|apply DQ, X].
  + replace (t / r * (t * cosh (t * x)) * theta x) with ((t * t) / r * cosh (t * x) * theta x) by (field; lra); rewrite T; field; lra.
Qed.

Lemma conduct_light s r theta q : conducts s r 0 theta q -> theta 0 = theta 1 + r * q 1 /\ q 0 = q 1.
Proof.
intros [DT DQ].
assert (Q : forall x, 0 <= x <= 1 -> q 0 = q x).
{ intros x X; destruct (Req_dec x 0) as [-> |N]; [reflexivity|].
  destruct (MVT_cor2 q (fun x => - (0 * s) * theta x) 0 x) as (c & E & _); [lra|intros y Y; apply DQ; lra|lra]. }
split; [|apply Q; lra].
assert (E := stays (fun x => theta x + (r * q 0) * x)); cbv beta in E; rewrite Rmult_0_r, Rplus_0_r, Rmult_1_r in E.
rewrite <- (Q 1) by lra; apply E; clear E; set (k := q 0) in *; intros x X; assert (Z : - r * q x + r * k * 1 = 0) by (rewrite <- (Q x X); ring); rewrite <- Z.
apply (derivable_pt_lim_plus theta (fun x => r * k * x)); [apply DT, X|].
apply (derivable_pt_lim_scal id (r * k) x 1), derivable_pt_lim_id.
Qed.

Definition applies (f : quad) (t0 q0 t1 q1 : R) : Prop := t0 = q00 f * t1 + q01 f * q1 /\ q0 = q10 f * t1 + q11 f * q1.

Lemma fi_conducts s r c fi theta q : 0 < s -> 0 <= r -> 0 <= c -> (1 / 1000 <= c -> 0 < r) ->
  get_fi s r c = Ok fi -> conducts s r (heeded c) theta q -> applies fi (theta 0) (q 0) (theta 1) (q 1).
Proof.
intros S P C M; unfold get_fi, heeded; destruct (Rlt_dec (Rabs c) (1 / 1000)) as [L|L].
- intro H; injection H as <-; intro K; apply conduct_light in K; destruct K as [K1 K2]; unfold applies; simpl; rewrite K1, K2; lra.
- rewrite Rabs_right in L by lra; assert (0 < r) by (apply M; lra); assert (0 < r * c * s) by (repeat apply Rmult_lt_0_compat; lra).
  destruct (Rlt_dec (r * c * s) 0) as [N|_]; [lra|]; intro E; injection E as <-; intro K.
  exact (conduct_massive s r c theta q ltac:(lra) ltac:(lra) K).
Qed.

Lemma qmul_applies a b t0 q0 t1 q1 t2 q2 : applies a t0 q0 t1 q1 -> applies b t1 q1 t2 q2 -> applies (qmul a b) t0 q0 t2 q2.
Proof. intros [-> ->] [-> ->]; unfold applies, qmul; simpl; split; ring. Qed.

Lemma ft_conducts s layers : 0 < s -> (forall rc, In rc layers -> layer_ok rc) -> forall acc f t0 q0 t1 q1 t2 q2,
  get_ft s acc layers = Ok f -> match acc with Some m => applies m t0 q0 t1 q1 | None => t0 = t1 /\ q0 = q1 end ->
  wall_conducts s (heeded_layers layers) t1 q1 t2 q2 -> applies f t0 q0 t2 q2.
Proof.
intro S; induction layers as [|(r, c) layers IH]; intros L acc f t0 q0 t1 q1 t2 q2 F A W.
- destruct acc as [m|]; [|discriminate]; cbn in F; injection F as <-; destruct W as [<- <-]; exact A.
- cbn [get_ft] in F; apply bind_ok in F; destruct F as (fi & Fi & F); cbn in W; destruct W as (theta & q & K & <- & <- & W).
  destruct (L (r, c) (or_introl eq_refl)) as (L1 & L2 & L3); cbn [fst snd] in *.
  assert (B := fi_conducts s r c fi theta q S L1 L2 L3 Fi K).
  refine (IH (fun rc I => L rc (or_intror I)) _ f t0 q0 (theta 1) (q 1) t2 q2 F _ W); destruct acc as [m|].
  + exact (qmul_applies _ _ _ _ _ _ _ _ A B).
  + destruct A as [-> ->]; exact B.
Qed.

(* there is a solution for any temperature and heat flow at the outer surface *)
Lemma layer_solution s r c t1 q1 : 0 < s -> layer_ok (r, c) -> exists theta q, conducts s r (heeded c) theta q /\ theta 1 = t1 /\ q 1 = q1.
Proof.
intros S (P & C & M); cbn [fst snd] in *; unfold heeded; destruct (Rlt_dec (Rabs c) (1 / 1000)) as [_|L].
- exists (fun x => t1 + r * q1 * (1 - x)), (fun _ => q1); split; [split; intros x _|split; ring].
  + replace (- r * q1) with (0 + r * q1 * (0 - 1)) by ring; apply (derivable_pt_lim_plus (fun _ => t1) (fun x => r * q1 * (1 - x))).
    * apply derivable_pt_lim_const.
    * apply (derivable_pt_lim_scal (fun x => 1 - x)), (derivable_pt_lim_minus (fun _ => 1) id); [apply derivable_pt_lim_const|apply derivable_pt_lim_id].
  + replace (- (0 * s) * (t1 + r * q1 * (1 - x))) with 0 by ring; apply derivable_pt_lim_const.
- rewrite Rabs_right in L by lra; assert (r0 : 0 < r) by (apply M; lra); assert (p0 : 0 < r * c * s) by (repeat apply Rmult_lt_0_compat; lra).
  set (t := sqrt (r * c * s)); assert (T : t * t = r * c * s) by (apply sqrt_sqrt; lra); assert (T0 : 0 < t) by (apply sqrt_lt_R0, p0).
  assert (S0 : sinh 0 = 0) by (unfold sinh; rewrite Ropp_0; lra); assert (C0 : cosh 0 = 1) by (unfold cosh; rewrite Ropp_0, exp_0; lra).
  assert (In0 : forall x, derivable_pt_lim (fun x => t * (1 - x)) x (- t)).
  { intro x; replace (- t) with (t * (0 - 1)) by ring; apply (derivable_pt_lim_scal (fun x => 1 - x)), (derivable_pt_lim_minus (fun _ => 1) id);
      [apply derivable_pt_lim_const|apply derivable_pt_lim_id]. }
  assert (Dc : forall x, derivable_pt_lim (fun x => cosh (t * (1 - x))) x (sinh (t * (1 - x)) * - t)).
  { intro x; apply (derivable_pt_lim_comp (fun x => t * (1 - x)) cosh); [apply In0|apply derivable_pt_lim_cosh]. }
  assert (Ds : forall x, derivable_pt_lim (fun x => sinh (t * (1 - x))) x (cosh (t * (1 - x)) * - t)).
  { intro x; apply (derivable_pt_lim_comp (fun x => t * (1 - x)) sinh); [apply In0|apply derivable_pt_lim_sinh]. }
  exists (fun x => t1 * cosh (t * (1 - x)) + r / t * q1 * sinh (t * (1 - x))), (fun x => t / r * t1 * sinh (t * (1 - x)) + q1 * cosh (t * (1 - x))).
  split; [split; intros x _|].
  + replace (- r * (t / r * t1 * sinh (t * (1 - x)) + q1 * cosh (t * (1 - x)))) with
      (t1 * (sinh (t * (1 - x)) * - t) + r / t * q1 * (cosh (t * (1 - x)) * - t)) by (field; lra).
    apply (derivable_pt_lim_plus (fun x => t1 * cosh (t * (1 - x))) (fun x => r / t * q1 * sinh (t * (1 - x)))).
    * apply (derivable_pt_lim_scal (fun x => cosh (t * (1 - x)))), Dc.
    * apply (derivable_pt_lim_scal (fun x => sinh (t * (1 - x)))), Ds.
  + assert (CS : c * s = t * t / r) by (rewrite T; field; lra).
    replace (- (c * s) * (t1 * cosh (t * (1 - x)) + r / t * q1 * sinh (t * (1 - x)))) with
      (t / r * t1 * (cosh (t * (1 - x)) * - t) + q1 * (sinh (t * (1 - x)) * - t)) by (rewrite CS; field; lra).
    apply (derivable_pt_lim_plus (fun x => t / r * t1 * sinh (t * (1 - x))) (fun x => q1 * cosh (t * (1 - x)))).
    * apply (derivable_pt_lim_scal (fun x => sinh (t * (1 - x)))), Ds.
    * apply (derivable_pt_lim_scal (fun x => cosh (t * (1 - x)))), Dc.
  + replace (t * (1 - 1)) with 0 by ring; rewrite S0, C0; split; ring.
Qed.

Lemma wall_solution s layers t1 q1 : 0 < s -> (forall rc, In rc layers -> layer_ok rc) ->
  exists t0 q0, wall_conducts s (heeded_layers layers) t0 q0 t1 q1.
Proof.
intro S; induction layers as [|(r, c) layers IH]; intro L; [exists t1, q1; split; reflexivity|].
destruct (IH (fun rc I => L rc (or_intror I))) as (t & q & W); destruct (layer_solution s r c t q S (L _ (or_introl eq_refl))) as (theta & qf & K & <- & <-).
exists (theta 0), (qf 0), theta, qf; repeat split; try reflexivity; [apply K|apply K|exact W].
Qed.

Lemma transfer rs cs s ga gt t0 q0 q1 : 0 < s -> (forall rc, In rc (combine rs cs) -> layer_ok rc) -> get_g rs cs s = Ok (ga, gt) ->
  wall_conducts s (heeded_layers (combine rs cs)) t0 q0 0 q1 -> t0 = (total rs + ga) * q0 /\ q1 = (1 + gt) * q0.
Proof.
intros S L G W; unfold get_g in G; apply bind_ok in G; destruct G as (f & F & G).
destruct (Req_EM_T (q11 f) 0) as [_|N]; [discriminate|]; injection G as <- <-.
destruct (ft_conducts s (combine rs cs) S L None f t0 q0 t0 q0 0 q1 F (conj eq_refl eq_refl) W) as [A B].
rewrite A, B; split; field; exact N.
Qed.
