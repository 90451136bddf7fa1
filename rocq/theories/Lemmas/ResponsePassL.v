(* Walls give back less heat than they take up (C73): the response factors of a wall whose fitted answer rises. *)
From Coq Require Import Reals List Lra Lia.
From Verif Require Import Model.Py Model.BoundaryDict Model.ResponseFactor Spec.WallResponse Lemmas.PyL Lemmas.ResponseFactorL Lemmas.ResponseFitL.
Import ListNotations.
Local Open Scope R_scope.

Lemma exp_mean t : 0 < t -> 2 * (1 - exp (- t)) < t * (1 + exp (- t)).
Proof.
intro H; pose (f := fun x => x * (1 + exp (- x)) - 2 * (1 - exp (- x))); pose (f' := fun x => 1 - exp (- x) * (1 + x)).
assert (D : forall x, 0 <= x <= t -> derivable_pt_lim f x (f' x)).
{ intros x _; unfold f, f'.
  assert (E : derivable_pt_lim (fun x => exp (- x)) x (exp (- x) * -1)).
  { apply (derivable_pt_lim_comp (fun x => - x) exp x (-1) (exp (- x))); [|apply derivable_pt_lim_exp].
    replace (-1) with (- (1)) by lra; apply derivable_pt_lim_opp, derivable_pt_lim_id. }
  replace (1 - exp (- x) * (1 + x)) with ((1 * (1 + exp (- x)) + x * (0 + exp (- x) * -1)) - 2 * (0 - exp (- x) * -1)) by ring.
  apply (derivable_pt_lim_minus (fun x => x * (1 + exp (- x))) (fun x => 2 * (1 - exp (- x)))).
  - apply (derivable_pt_lim_mult (fun x => x) (fun x => 1 + exp (- x))); [apply derivable_pt_lim_id|].
    apply (derivable_pt_lim_plus (fun _ => 1) (fun x => exp (- x))); [apply derivable_pt_lim_const|exact E].
  - apply (derivable_pt_lim_scal (fun x => 1 - exp (- x)) 2).
    apply (derivable_pt_lim_minus (fun _ => 1) (fun x => exp (- x))); [apply derivable_pt_lim_const|exact E]. }
destruct (MVT_cor2 f f' 0 t H D) as [x [E [x0 _]]].
assert (Z : f 0 = 0) by (unfold f; rewrite Ropp_0, exp_0; ring).
assert (P : 0 < f' x).
{ unfold f'; assert (X := exp_ineq1 x (Rgt_not_eq _ _ x0)); assert (Y := exp_pos (- x)).
  assert (I : exp (- x) * exp x = 1) by (rewrite <- exp_plus, Rplus_opp_l, exp_0; reflexivity).
  nra. }
assert (0 < f t) by (rewrite Z, !Rminus_0_r in E; rewrite E; apply Rmult_lt_0_compat; assumption).
unfold f in *; lra.
Qed.

Definition pass_on (terms ratios : list R) : R := scalar terms (map (fun q => / (1 + q)) ratios).

Lemma pass_terms temp : forall a, List.length temp = List.length a -> (forall t, In t temp -> 0 < t) -> (forall x, In x a -> x <= 0) ->
  let d := total (vmul (map (fun t => (1 - exp (- t)) / t) temp) a) - pass_on (get_rf1 temp a) (get_row temp) in
  add_up a < d \/ (add_up a = d /\ forall x, In x a -> x = 0).
Proof.
induction temp as [|t temp IH]; intros [|x a] L T N; try discriminate L; cbn zeta.
- right; split; [unfold pass_on, scalar; simpl; ring|intros x []].
- specialize (IH a (eq_add_S _ _ L) (fun u I => T u (or_intror I)) (fun u I => N u (or_intror I))); cbn zeta in IH.
  assert (t0 : 0 < t) by (apply T; left; reflexivity); assert (x0 : x <= 0) by (apply N; left; reflexivity).
  set (d := total _ - _) in IH.
  assert (E : total (vmul (map (fun t => (1 - exp (- t)) / t) (t :: temp)) (x :: a)) - pass_on (get_rf1 (t :: temp) (x :: a)) (get_row (t :: temp))
    = x * (2 * (1 - exp (- t)) / (t * (1 + exp (- t)))) + d).
  { unfold d.
    change (total (vmul (map (fun t => (1 - exp (- t)) / t) (t :: temp)) (x :: a)))
      with ((1 - exp (- t)) / t * x + total (vmul (map (fun t => (1 - exp (- t)) / t) temp) a)).
    change (pass_on (get_rf1 (t :: temp) (x :: a)) (get_row (t :: temp)))
      with (- x * (1 / t * (1 - exp (- t)) ^ 2) * / (1 + exp (- t)) + pass_on (get_rf1 temp a) (get_row temp)).
    pose proof (exp_pos (- t)); field; split; lra. }
  rewrite E.
  assert (K : 2 * (1 - exp (- t)) / (t * (1 + exp (- t))) < 1).
  { pose proof (exp_pos (- t)); apply (Rmult_lt_reg_r (t * (1 + exp (- t)))); [apply Rmult_lt_0_compat; lra|].
    unfold Rdiv; rewrite Rmult_assoc, Rinv_l, Rmult_1_r, Rmult_1_l by (apply Rgt_not_eq, Rmult_lt_0_compat; lra).
    apply exp_mean, t0. }
  simpl add_up; set (k := _ / _) in *.
  destruct (Rle_lt_or_eq_dec _ _ x0) as [x1|x1].
  + left; assert (x < x * k) by nra; lra.
  + subst x; rewrite Rmult_0_l, !Rplus_0_l.
    destruct IH as [IH|[IH Z]]; [left; exact IH|right; split; [exact IH|intros u [<-|I]; auto]].
Qed.

(* the last answer of the fit is the answer to heat at the inner surface *)
Lemma calc_pass inv g cs rs rf at0 aa0 at_ aa : right_size inv -> calc_response_factor inv g cs rs = Ok rf ->
  get_step_reps_of_wall inv cs rs (get_laps (get_alpha_m g)) (get_alpha_m g) = Ok (at0, aa0, at_, aa) ->
  (forall x, In x aa -> x <= 0) -> 0 <= aa0 + add_up aa ->
  (forall x, In x (rfa1 rf) -> 0 <= x) /\
  (pass_on (rfa1 rf) (row rf) < rfa0 rf \/ (0 <= rfa0 rf /\ forall x, In x (rfa1 rf) -> x = 0)).
Proof.
intros Rs H S N A; unfold calc_response_factor in H; rewrite S in H; cbn [bind] in H; injection H as <-.
cbn [rfa0 rfa1 row].
unfold get_step_reps_of_wall in S; apply bind_ok in S; destruct S as [gs [G S]]; apply bind_ok in S; destruct S as [u [U S]].
assert (Lu := Rs _ _ _ (mat_u_square _ _) U); destruct Lu as [Lu _].
injection S as _ _ _ Sb.
assert (Lb : List.length aa = List.length (get_alpha_m g)) by (rewrite <- Sb, mulv_length; exact Lu).
set (temp := map (fun a => a * 900) (get_alpha_m g)).
assert (Lt : List.length temp = List.length aa) by (rewrite Lb; apply map_length).
assert (T : forall t, In t temp -> 0 < t) by (intros t I; exact (temp_pos g t I)).
assert (P : pass_on (pad12 (get_rf1 temp aa)) (pad12 (get_row temp)) = pass_on (get_rf1 temp aa) (get_row temp)).
{ unfold pass_on, pad12; rewrite map_app; apply scalar_pad.
  unfold get_rf1, get_row, vmul; rewrite !map_length, combine_length, !map_length; lia. }
assert (Q : forall (q : R -> Prop), q 0 -> (forall t x, In t temp -> In x aa -> q (- x * (1 / t * (1 - exp (- t)) ^ 2))) ->
   forall y, In y (pad12 (get_rf1 temp aa)) -> q y).
{ intros q q0 qx y I; unfold pad12 in I; apply in_app_or in I; destruct I as [I|I]; [|apply repeat_spec in I; subst; exact q0].
  unfold get_rf1, vmul in I; apply in_map_iff in I; destruct I as [[x' t'] [<- I]].
  assert (I1 := in_combine_l _ _ _ _ I); assert (I2 := in_combine_r _ _ _ _ I).
  apply in_map_iff in I1; destruct I1 as [x [<- I1]]; apply in_map_iff in I2; destruct I2 as [t [<- I2]].
  apply qx; assumption. }
split.
- apply Q; [lra|]; intros t x It Ix; specialize (N x Ix); specialize (T t It).
  apply Rmult_le_pos; [lra|]; apply Rmult_le_pos; [|apply pow2_ge_0].
  unfold Rdiv; rewrite Rmult_1_l; apply Rlt_le, Rinv_0_lt_compat, T.
- rewrite P; unfold get_rf; pose proof (pass_terms temp aa Lt T N) as D; cbn zeta in D.
  destruct D as [D|[D Z]]; [left; lra|right; split].
  + assert (W : pass_on (get_rf1 temp aa) (get_row temp) = 0).
    { unfold pass_on. enough (G0 : forall l m, (forall y, In y l -> y = 0) -> scalar l m = 0).
      { apply G0; intros y I; unfold get_rf1, vmul in I; apply in_map_iff in I; destruct I as [[x' t'] [<- I]].
        assert (I1 := in_combine_l _ _ _ _ I); apply in_map_iff in I1; destruct I1 as [x [<- I1]]; rewrite (Z x I1); simpl; ring. }
      clear; induction l as [|y l IH]; intros [|z m] H; unfold scalar in *; simpl; try reflexivity.
      rewrite (H y (or_introl eq_refl)), (IH m (fun u I => H u (or_intror I))); ring. }
    lra.
  + apply Q; [reflexivity|]; intros t x _ Ix; rewrite (Z x Ix); ring.
Qed.

(* a wall without mass: nothing to give back *)
Lemma reps_massless inv g cs rs at0 aa0 at_ aa : List.length rs = List.length cs -> rs <> [] -> (forall c, In c cs -> c = 0) ->
  get_step_reps_of_wall inv cs rs (get_laps (get_alpha_m g)) (get_alpha_m g) = Ok (at0, aa0, at_, aa) ->
  aa0 = add_up rs /\ forall x, In x aa -> x = 0.
Proof.
intros L N H St; unfold get_step_reps_of_wall in St; rewrite (mapM_const _ _ _ (0, 0)) in St by (intros; apply g_massless; auto).
simpl bind in St; apply bind_ok in St; destruct St as [u [U St]]; rewrite !map_map in St; simpl in St.
injection St as _ <- _ <-; split; [unfold total, add_up; reflexivity|].
intros x I; unfold mulv in I; apply in_map_iff in I; destruct I as [r [<- _]].
unfold get_mat_c; rewrite (map_ext _ (fun _ => 0)) by (intro i; rewrite inner_scalar; apply scalar_zero_r).
rewrite inner_scalar; apply scalar_zero_r.
Qed.
