(* Airtightness estimated from the insulation. *)
From Coq Require Import ZArith String List.
From mathcomp Require Import all_ssreflect ssralg ssrnum ssrint zmodp matrix.
From Verif Require Import Model.Dec Model.Py Model.Infiltration Model.CValue Spec.InfiltrationSpec Spec.CValueSpec Lemmas.DecL Lemmas.InfiltrationL.
Set Implicit Arguments. Unset Strict Implicit. Unset Printing Implicit Defensive.
Import Order.TTheory GRing.Theory Num.Theory.
Local Open Scope ring_scope.

Section CValue.
Variable F : realFieldType.

Lemma c_factor_gt0 s : 0 < c_factor F s. Proof. case: s; exact: dec_gt0. Qed.
Lemma c_factor_le s s' : tighter s s' -> c_factor F s <= c_factor F s'.
Proof. by case: s; case: s' => // _; rewrite /c_factor // dec_le. Qed.
Lemma c_factor_lt s s' : concrete s -> ~~ concrete s' -> c_factor F s < c_factor F s'.
Proof. by case: s => //; case: s' => // _ _; rewrite /c_factor dec_lt. Qed.

Lemma c_ge0 (ua : F) s : 0 <= ua -> 0 <= estimate_c_value ua s.
Proof. by move=> u0; rewrite mulr_ge0 // ltW // c_factor_gt0. Qed.

Lemma c_le (ua ua' : F) s s' : 0 <= ua -> ua <= ua' -> tighter s s' -> estimate_c_value ua s <= estimate_c_value ua' s'.
Proof.
move=> u0 uu t; apply: (le_trans (y := c_factor F s' * ua)); first by rewrite ler_wpmul2r // c_factor_le.
by rewrite ler_pmul2l // c_factor_gt0.
Qed.

Lemma c_linear (ua k : F) s : estimate_c_value (k * ua) s = k * estimate_c_value ua s.
Proof. by rewrite /estimate_c_value mulrCA. Qed.

Lemma c_structure (ua : F) s s' : concrete s = concrete s' -> estimate_c_value ua s = estimate_c_value ua s'.
Proof. by case: s; case: s'. Qed.
Lemma c_strict (ua : F) s s' : 0 < ua -> concrete s -> ~~ concrete s' -> estimate_c_value ua s < estimate_c_value ua s'.
Proof. by move=> u0 c c'; rewrite ltr_pmul2r // c_factor_lt. Qed.
Lemma c_value (ua : F) s : estimate_c_value ua s * 100%:R = (if concrete s then 416%:R else 828%:R) * ua.
Proof.
have e n : n%:R = z2f F (Z.of_nat n) by rewrite z2f_nat.
have d z : dec F z 2 * 100%:R = z2f F z by rewrite decE (e 100%N) mulfVK // lt0r_neq0 // z2f_gt0.
by case: s; rewrite /estimate_c_value /c_factor /concrete mulrAC d e.
Qed.
End CValue.

Lemma structure_known s : (exists t, structure_of s = Ok t) <-> (s = "rc" \/ s = "src" \/ s = "wooden" \/ s = "steel")%string.
Proof.
split; last by case=> [->|[->|[->| ->]]]; eexists; reflexivity.
rewrite /structure_of; case: String.eqb_spec => [->|_]; first by left.
case: String.eqb_spec => [->|_]; first by right; left.
case: String.eqb_spec => [->|_]; first by do 2 right; left.
by case: String.eqb_spec => [->|_ []//]; do 3 right.
Qed.
Lemma structure_error s e : structure_of s = Err e -> e = ValueError.
Proof.
rewrite /structure_of; case: String.eqb_spec => // _; case: String.eqb_spec => // _; case: String.eqb_spec => // _.
by case: String.eqb_spec => // _ [].
Qed.

Section Infil.
Variables (F : rcfType) (ni : nat).
Lemma infil_c_value (ua ua' : F) st st' (v : 'cV[F]_ni) s p theta o (q q' : 'cV[F]_ni) :
  (forall i, 0 <= v i 0) -> 0 <= ua -> ua <= ua' -> tighter st st' ->
  infiltration_residential (estimate_c_value ua st) v s p theta o = Ok q ->
  infiltration_residential (estimate_c_value ua' st') v s p theta o = Ok q' -> forall i, q i 0 <= q' i 0.
Proof. by move=> v0 u0 uu t e e'; exact: (infil_mono v0 (c_ge0 _ u0) (c_le u0 uu t) (lexx _) e e'). Qed.
End Infil.
