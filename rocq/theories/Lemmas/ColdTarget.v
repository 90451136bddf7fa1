(* At 0 degrees in dry air an occupant in heavy clothing is cold: the equipment heats, towards a target above 0 degrees. *)
From mathcomp Require Import all_ssreflect ssralg ssrnum zmodp matrix.
From Coq Require Import ZArith.
From Verif Require Import Model.OperationMode Model.Numpy Model.Dec Model.PreCalc Model.Tick Model.OtTarget.
From Verif Require Import Lemmas.NumpyL Lemmas.DecL Lemmas.OtTargetL.
Set Implicit Arguments. Unset Strict Implicit. Unset Printing Implicit Defensive.
Import Order.TTheory GRing.Theory Num.Theory.
Local Open Scope ring_scope.

Section ColdTarget.
Variable F : realFieldType.
Variable e0 : F.
Hypothesis e0_ge0 : 0 <= e0.
Local Notation d := (dec F).
Local Notation hh := (h_hum_c F + h_hum_r F).

Lemma cold_feels : get_pmv e0 0 (clo_heavy F) 0 hh 0 < - d 5 1.
Proof.
rewrite /get_pmv /clo_heavy /get_m /get_i_cl /get_f_cl !dec_mul.
have -> : (d (11 * 155) (1 + 3) <= d 78 3) = false.
  by apply/negbTE; rewrite -ltNge; apply: dec_lt; vm_compute.
rewrite subrr mulr0 maxxx !subr0 dec_add.
set D := (d _ _ - _ - _ - _); set L := (_ / _).
have D1 : D <= d 334 1.
  by rewrite /D !(dec_mul, dec_opp, dec_add); apply: dec_le; vm_compute.
have L1 : d 60 0 <= L.
  have o1 : 1 = d 1 0 := dec_nat F 1.
  have h0 : 0 < hh by rewrite addr_gt0 ?h_hum_r_gt0 // dec_gt0.
  rewrite /L ler_pdivl_mulr; last first.
    by rewrite addr_gt0 ?ltr01 // mulr_gt0 // mulr_gt0 // dec_gt0.
  rewrite /h_hum_r /h_hum_c [X in X ^+ 3]dec_add exprS exprS expr1 (dec_nat F 4) o1 !(dec_mul, dec_opp, dec_add).
  by apply: dec_le; vm_compute.
have B : D - L <= - d 20 0.
  apply: le_trans (ler_sub D1 L1) _; rewrite !(dec_opp, dec_add); apply: dec_le; by vm_compute.
have g : d 28 3 <= pmv_gain e0 by rewrite /pmv_gain ler_addr mulr_ge0 // dec_ge0.
have g0 : 0 < pmv_gain e0 by apply: lt_le_trans g; rewrite dec_gt0.
apply: le_lt_trans (_ : pmv_gain e0 * - d 20 0 < _); first by rewrite ler_pmul2l.
rewrite mulrN ltr_opp2; apply: lt_le_trans (_ : d 28 3 * d 20 0 <= _); last by rewrite ler_pmul2r // dec_gt0.
by rewrite dec_mul; apply: dec_lt; vm_compute.
Qed.

Definition tgt : F := get_theta_ot_target e0 (clo_heavy F) 0 hh (- d 5 1).

Lemma tgt_gt0 : 0 < tgt.
Proof.
have h0 : 0 < hh by rewrite addr_gt0 ?h_hum_r_gt0 // dec_gt0.
have c0 : 0 <= clo_heavy F by rewrite dec_ge0.
rewrite ltNge; apply/negP => t0; have := pmv_at_target e0_ge0 c0 h0 0 (- d 5 1); rewrite -/tgt.
apply/eqP; rewrite lt_eqF //; apply: le_lt_trans cold_feels.
move: t0; rewrite le_eqVlt => /orP[/eqP->//|t0].
apply: le_trans (ltW (pmv_mono_ot e0_ge0 c0 h0 _ _ t0)) _.
by apply: ltW; apply: pmv_mono_tr.
Qed.

Section Rooms.
Variable ni : nat.
Variable ac : 'cV[F]_ni.
Hypothesis ac_gt0 : forall i, 0 < ac i 0.

Lemma cold_ot : exists md lo up, get_ot_target_and_h_hum e0 0 (fun _ : 'I_ni => HEATING) 0 0 ac =
  Some (const_mx (h_hum_c F), const_mx (h_hum_r F), md, lo, up) /\ forall i, md i = HEATING /\ lo i 0 = tgt.
Proof.
have one i : ot_target_pmv e0 0 HEATING 0 0 (ac i 0) = Some (HEATING, tgt).
  rewrite /ot_target_pmv /get_operation_mode ac_gt0.
  have -> : get_p_v_r 0 = 0 :> F by rewrite /get_p_v_r mulr0 mul0r.
  rewrite ifT //; rewrite /get_h_hum_and_pmv !mulr0 addr0 mul0r [h_hum_r F + _]addrC.
  apply: ltW; apply: lt_trans cold_feels _; apply: lt_trans (_ : 0 < _); last by rewrite dec_gt0.
  by rewrite oppr_lt0 dec_gt0.
rewrite /get_ot_target_and_h_hum ifT; last by apply/forallP => i; rewrite !mxE one.
have cE (a : F) : (\matrix_(i, j) a : 'cV[F]_ni) = const_mx a by apply/matrixP => i j; rewrite !mxE.
rewrite !cE; do 3 eexists; split; first by [].
by move=> i; rewrite !mxE one.
Qed.
End Rooms.

End ColdTarget.
