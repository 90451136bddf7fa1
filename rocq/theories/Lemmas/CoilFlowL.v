(* The air flow of a room air conditioner as a function of its load *)
From mathcomp Require Import all_ssreflect ssralg ssrnum zmodp matrix.
From Coq Require Import Ring Field.
From Verif Require Import Model.OperationMode Model.Numpy Model.PreCalc Model.HeatExchanger Lemmas.FieldTac.
Set Implicit Arguments. Unset Strict Implicit. Unset Printing Implicit Defensive.
Import Order.TTheory GRing.Theory Num.Theory.
Local Open Scope ring_scope.

Section CoilFlow.
Variable F : realFieldType.
Add Field Ffield : (ffield_theory F).
Ltac fring := ffold F; ring.
Ltac ffield := ffold F; field.
Variables (q1 q0 v1 v0 : F).
Hypothesis q01 : q0 < q1.
Let flow q := get_vac q1 q0 q v1 v0.

Let sixty : (0 : F) < 60%:R. Proof. by rewrite ltr0n. Qed.
Let width : 0 < q1 - q0. Proof. by rewrite subr_gt0. Qed.

(* the slope *)
Lemma flow_diff q q' : flow q' - flow q = (v1 - v0) / (q1 - q0) * (q' - q) / 60%:R.
Proof. rewrite /flow /get_vac -mulrBl; congr (_ / _); fring. Qed.

Lemma flow_at_min : flow q0 = v0 / 60%:R.
Proof. by rewrite /flow /get_vac subrr mulr0 addr0. Qed.
Lemma flow_at_max : flow q1 = v1 / 60%:R.
Proof. by rewrite /flow /get_vac divfK ?gt_eqF // addrCA subrr addr0. Qed.

Lemma flow_mono q q' : v0 <= v1 -> q <= q' -> flow q <= flow q'.
Proof.
by move=> v01 qq; rewrite -subr_ge0 flow_diff !(divr_ge0, mulr_ge0) ?subr_ge0 // ltW.
Qed.
Lemma flow_incr q q' : v0 < v1 -> (flow q < flow q') = (q < q').
Proof.
move=> v01; have s0 : 0 < (v1 - v0) / (q1 - q0) by rewrite divr_gt0 // subr_gt0.
by rewrite -subr_gt0 flow_diff pmulr_lgt0 ?invr_gt0 // pmulr_rgt0 // subr_gt0.
Qed.
Lemma flow_incr_le q q' : v0 < v1 -> (flow q <= flow q') = (q <= q').
Proof. by move=> v01; rewrite !leNgt flow_incr. Qed.

Lemma flow_limits q : v0 < v1 -> (v0 / 60%:R <= flow q <= v1 / 60%:R) = (q0 <= q <= q1).
Proof. by move=> v01; rewrite -flow_at_min -flow_at_max !flow_incr_le. Qed.

Lemma flow_pos q : 0 <= v0 -> v0 < v1 -> v1 * q0 <= v0 * q1 -> 0 < q -> 0 < flow q.
Proof.
move=> v00 v01 h qp; rewrite /flow /get_vac divr_gt0 //.
have -> : v0 + (v1 - v0) / (q1 - q0) * (q - q0) = (v0 * q1 - v1 * q0) / (q1 - q0) + (v1 - v0) / (q1 - q0) * q.
  have n0 : q1 - q0 <> 0 by apply/eqP; rewrite gt_eqF.
  by ffield.
by rewrite ltr_paddl ?divr_ge0 ?subr_ge0 ?(ltW q01) // mulr_gt0 ?divr_gt0 ?subr_gt0.
Qed.

(* below the break-even load the calculated flow is not positive *)
Lemma flow_neg q : v0 < v1 -> (flow q <= 0) = (q <= (v1 * q0 - v0 * q1) / (v1 - v0)).
Proof.
move=> v01; have vp : 0 < v1 - v0 by rewrite subr_gt0.
have n0 : q1 - q0 <> 0 by apply/eqP; rewrite gt_eqF.
have m0 : v1 - v0 <> 0 by apply/eqP; rewrite gt_eqF.
have -> : 0 = flow ((v1 * q0 - v0 * q1) / (v1 - v0)).
  rewrite /flow /get_vac.
  have -> : v0 + (v1 - v0) / (q1 - q0) * ((v1 * q0 - v0 * q1) / (v1 - v0) - q0) = 0; last by rewrite mul0r.
  by ffield.
exact: flow_incr_le.
Qed.
End CoilFlow.
