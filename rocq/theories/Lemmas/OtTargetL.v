(* Facts about comfort targets and operation modes (C17, C18) *)
From mathcomp Require Import all_ssreflect ssralg ssrnum zmodp matrix.
From Coq Require Import ZArith Ring Field.
From Verif Require Import Model.OperationMode Model.Numpy Model.Dec Model.PreCalc Model.Tick Model.OtTarget.
From Verif Require Import Lemmas.FieldTac Lemmas.NumpyL Lemmas.DecL.
Set Implicit Arguments. Unset Strict Implicit. Unset Printing Implicit Defensive.
Import Order.TTheory GRing.Theory Num.Theory.
Local Open Scope ring_scope.

Section OtTargetL.
Variable F : realFieldType.
Add Field Ffield : (ffield_theory F).
Ltac fring := ffold F; ring.
Ltac ffield := ffold F; field.
Local Notation d := (dec F).

Lemma h_hum_r_gt0 : 0 < h_hum_r F.
Proof.
rewrite /h_hum_r [X in X ^+ 3]dec_add exprS exprS expr1 (dec_nat F 4) !dec_mul.
by apply: dec_gt0; vm_compute.
Qed.

Lemma h_hum_r_lt_c : h_hum_r F < h_hum_c F.
Proof.
rewrite /h_hum_r /h_hum_c [X in X ^+ 3]dec_add exprS exprS expr1 (dec_nat F 4) !dec_mul.
by apply: dec_lt; vm_compute.
Qed.

Variable e0 : F.
Hypothesis e0_ge0 : 0 <= e0.

Lemma pmv_gain_gt0 : 0 < pmv_gain e0.
Proof. by rewrite /pmv_gain ltr_paddl ?dec_gt0 // mulr_ge0 // dec_ge0. Qed.

Lemma get_i_cl_ge0 (clo : F) : 0 <= clo -> 0 <= get_i_cl clo.
Proof. by move=> c0; rewrite /get_i_cl mulr_ge0 // dec_ge0. Qed.

Lemma get_f_cl_gt0 (i : F) : 0 <= i -> 0 < get_f_cl i.
Proof.
move=> i0; rewrite /get_f_cl; case: ifP => _.
  by rewrite ltr_paddr ?ltr01 // mulr_ge0 // dec_ge0.
by rewrite ltr_paddr ?dec_gt0 // mulr_ge0 // dec_ge0.
Qed.

Section Formula.
Variables (clo h : F).
Hypothesis clo_ge0 : 0 <= clo.
Hypothesis h_gt0 : 0 < h.
Let i := get_i_cl clo.
Let f := get_f_cl i.

Lemma i_ge0 : 0 <= i. Proof. exact: get_i_cl_ge0. Qed.
Lemma f_gt0 : 0 < f. Proof. exact/get_f_cl_gt0/i_ge0. Qed.
Lemma den_gt0 : 0 < 1 + i * f * h.
Proof.
by apply: ltr_paddr ltr01; apply: mulr_ge0 (mulr_ge0 i_ge0 (ltW f_gt0)) (ltW h_gt0).
Qed.
Lemma slope_gt0 : 0 < d 14 4 * get_m F + f * h / (1 + i * f * h).
Proof.
apply: addr_gt0; first by apply: mulr_gt0; apply: dec_gt0.
exact: divr_gt0 (mulr_gt0 f_gt0 h_gt0) den_gt0.
Qed.

(* PMV at air temperature = operative temperature = target *)
Lemma pmv_at_target p t :
  get_pmv e0 (get_theta_ot_target e0 clo p h t) clo p h (get_theta_ot_target e0 clo p h t) = t.
Proof.
rewrite /get_pmv; set T := get_theta_ot_target _ _ _ _ _.
have := erefl T; rewrite {2}/T /get_theta_ot_target -/i -/f.
move: pmv_gain_gt0 den_gt0 slope_gt0; rewrite -/i -/f.
move: (pmv_gain e0) (get_m F) (Num.max _ _) (d 305 2) (d 1 3) (d 5733 0) (d 699 2) (d 17 1) (d 1 5) (d 5867 0)
  (d 14 4) (d 34 0) (d 357 1) (d 28 3) => g m mx a1 a2 a3 a4 a5 a6 a7 a8 a9 a10 a11.
move: T f i => T f' i' g0 d0 s0.
have /eqP gn : g != 0 by rewrite gt_eqF.
have /eqP dn : 1 + i' * f' * h != 0 by rewrite gt_eqF.
have sn : a8 * m + f' * h / (1 + i' * f' * h) != 0 by rewrite gt_eqF.
set N := (X in _ = X / _) => E.
have {E} NE : N = T * (a8 * m + f' * h / (1 + i' * f' * h)) by rewrite E divfK.
have tE : t = g * (t / g) by ffield; exact: gn.
rewrite [RHS]tE; congr (_ * _).
have -> : t / g = t / g - (N - T * (a8 * m + f' * h / (1 + i' * f' * h))) by rewrite NE subrr subr0.
by rewrite /N; move: (t / g) => tg; ffield; exact: dn.
Qed.

Lemma target_mono p t t' : t < t' -> get_theta_ot_target e0 clo p h t < get_theta_ot_target e0 clo p h t'.
Proof.
move=> tt; rewrite /get_theta_ot_target -/i -/f ltr_pmul2r ?invr_gt0 ?slope_gt0 //.
by do 6 (rewrite ltr_add2r); rewrite ltr_pmul2r // invr_gt0 pmv_gain_gt0.
Qed.

Lemma target_anti_p p p' t : p < p' -> get_theta_ot_target e0 clo p' h t < get_theta_ot_target e0 clo p h t.
Proof.
move=> pp; rewrite /get_theta_ot_target -/i -/f ltr_pmul2r ?invr_gt0 ?slope_gt0 //.
rewrite -subr_gt0; set a := d 305 2 * d 1 3; set b := d 17 1 * d 1 5 * get_m F.
have a0 : 0 < a by apply: mulr_gt0; apply: dec_gt0.
have b0 : 0 < b by apply: mulr_gt0; [apply: mulr_gt0; apply: dec_gt0 | apply: dec_gt0].
rewrite (_ : _ - _ = (a + b) * (p' - p)); first by rewrite mulr_gt0 ?subr_gt0 // addr_gt0.
clear a0 b0; move: (t / _) (get_m F) (Num.max _ _) a b (d 5733 0) (d 699 2) (d 5867 0) (d 14 4) (d 34 0)
  (f * h * _ / _) => ? ? ? ? ? ? ? ? ? ? ?; fring.
Qed.

Lemma pmv_mono_ot p tr o o' : o < o' -> get_pmv e0 tr clo p h o < get_pmv e0 tr clo p h o'.
Proof.
move=> oo; rewrite /get_pmv -/i -/f ltr_pmul2l ?pmv_gain_gt0 // ltr_add2l ltr_opp2.
rewrite ltr_pmul2r ?invr_gt0 ?den_gt0 // ltr_pmul2l; last exact: mulr_gt0 f_gt0 h_gt0.
by rewrite ltr_add2l ltr_opp2.
Qed.

Lemma pmv_mono_tr p tr tr' o : tr < tr' -> get_pmv e0 tr clo p h o < get_pmv e0 tr' clo p h o.
Proof.
move=> oo; rewrite /get_pmv -/i -/f ltr_pmul2l ?pmv_gain_gt0 // ltr_add2r ltr_add2l ltr_opp2.
rewrite ltr_pmul2l; last by apply: mulr_gt0; apply: dec_gt0.
by rewrite ltr_add2l ltr_opp2.
Qed.
End Formula.

(* the mode function *)
Lemma op_mode_none (ac : F) m a b c :
  get_operation_mode ac m a b c = None <-> (0 < ac /\ m = HEATING_AND_COOLING).
Proof.
rewrite /get_operation_mode; case: ifP => ac0; last by split=> // -[].
by split=> [|[_ ->]//]; case: m.
Qed.

Lemma op_mode_legal (ac : F) m a b c m' : get_operation_mode ac m a b c = Some m' -> m' <> HEATING_AND_COOLING.
Proof.
by rewrite /get_operation_mode; case: ifP => _; [case: m => // -[<-]; do ? case: ifP | move=> [<-]].
Qed.

Section Rooms.
Variable ni : nat.
Lemma ot_total x_r (mns : 'I_ni -> mode) tr tm (ac : 'cV[F]_ni) :
  (forall i, 0 < ac i 0 -> mns i <> HEATING_AND_COOLING) ->
  exists modes lo up, get_ot_target_and_h_hum e0 x_r mns tr tm ac
    = Some (\matrix_(i, j) h_hum_c F, \matrix_(i, j) h_hum_r F, modes, lo, up).
Proof.
move=> H; rewrite /get_ot_target_and_h_hum.
case: ifP => [_|/negP[]]; first by do 3 eexists.
apply/forallP => i; rewrite /ot_target_pmv.
by case E: (get_operation_mode _ _ _ _ _) => [m|] //; case/op_mode_none: E => /H.
Qed.

Lemma ot_no_demand x_r (mns : 'I_ni -> mode) tr tm ac hc hr modes lo up i :
  get_ot_target_and_h_hum e0 x_r mns tr tm ac = Some (hc, hr, modes, lo, up) ->
  ac i 0 <= 0 -> modes i = STOP_CLOSE.
Proof.
rewrite /get_ot_target_and_h_hum; case: ifP => // _ [_ _ <- _ _].
by rewrite /ot_target_pmv /get_operation_mode leNgt => /negbTE ->.
Qed.

Lemma ot_fixed_h x_r (mns : 'I_ni -> mode) tr tm ac hc hr modes lo up :
  get_ot_target_and_h_hum e0 x_r mns tr tm ac = Some (hc, hr, modes, lo, up) ->
  [/\ hc = \matrix_(i, j) h_hum_c F, hr = \matrix_(i, j) h_hum_r F
    & forall i, modes i <> HEATING_AND_COOLING].
Proof.
rewrite /get_ot_target_and_h_hum; case: ifP => // /forallP H [<- <- <- _ _]; split=> // i.
move: (H i); rewrite /ot_target_pmv.
by case E: (get_operation_mode _ _ _ _ _) => [m|//] _; exact: op_mode_legal E.
Qed.
End Rooms.
End OtTargetL.
