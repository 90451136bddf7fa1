(* The vapour pressure used for PMV (Model.OtTarget) *)
From mathcomp Require Import all_ssreflect ssralg ssrnum zmodp matrix.
From Coq Require Import ZArith.
From Verif Require Import Model.Dec Model.OtTarget Lemmas.DecL.
Set Implicit Arguments. Unset Strict Implicit. Unset Printing Implicit Defensive.
Import Order.TTheory GRing.Theory Num.Theory.
Local Open Scope ring_scope.

Section Vapour.
Variable F : realFieldType.

Section Abs.
Variables (f w : F).
Hypotheses (f0 : 0 < f) (w0 : 0 < w).
Let p (x : F) := f * x / (x + w).

Let den x : 0 <= x -> x + w != 0.
Proof. by move=> x0; rewrite gt_eqF ?ltr_paddl. Qed.

Lemma vap_rest x : 0 <= x -> f - p x = f * w / (x + w).
Proof. by move=> x0; apply: (mulIf (den x0)); rewrite mulrBl !divfK ?den // mulrDr addrC addKr. Qed.

Lemma vap_range x : 0 <= x -> 0 <= p x < f.
Proof.
move=> x0; have d0 : 0 < x + w by rewrite ltr_paddl.
by rewrite /p divr_ge0 ?mulr_ge0 ?(ltW f0) ?(ltW d0) //= ltr_pdivr_mulr // ltr_pmul2l // ltr_addl.
Qed.

Lemma vap_inv x : 0 <= x -> w * p x / (f - p x) = x.
Proof.
move=> x0; have q0 : f - p x != 0 by rewrite gt_eqF // subr_gt0; case/andP: (vap_range x0).
apply: (mulIf q0); rewrite divfK // vap_rest // /p.
by rewrite !mulrA; congr (_ / _); rewrite -mulrA mulrC (mulrC f x).
Qed.

Lemma vap_incr x y : 0 <= x -> x < y -> p x < p y.
Proof.
move=> x0 xy; have y0 : 0 <= y by exact: le_trans x0 (ltW xy).
have dx : 0 < x + w by rewrite ltr_paddl.
have dy : 0 < y + w by rewrite ltr_paddl.
rewrite /p -!mulrA ltr_pmul2l // ltr_pdivr_mulr // mulrAC ltr_pdivl_mulr // !mulrDr (mulrC y x) ltr_add2l.
by rewrite ltr_pmul2r.
Qed.
End Abs.

Lemma vapour_zero : get_p_v_r (0 : F) = 0.
Proof. by rewrite /get_p_v_r mulr0 mul0r. Qed.
Lemma vapour_range (x : F) : 0 <= x -> 0 <= get_p_v_r x < dec F 101325 0.
Proof. by apply: vap_range; apply: dec_gt0. Qed.
Lemma vapour_incr (x y : F) : 0 <= x -> x < y -> get_p_v_r x < get_p_v_r y.
Proof. by apply: vap_incr; apply: dec_gt0. Qed.
Lemma vapour_inverse (x : F) : 0 <= x -> dec F 62198 5 * get_p_v_r x / (dec F 101325 0 - get_p_v_r x) = x.
Proof. by apply: vap_inv; apply: dec_gt0. Qed.
End Vapour.
