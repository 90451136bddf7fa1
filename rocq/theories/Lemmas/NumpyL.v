(* Entrywise and algebraic facts about the numpy operations of Model/Numpy.v *)
From mathcomp Require Import all_ssreflect ssralg ssrnum zmodp matrix.
From Verif Require Import Model.Numpy.
Set Implicit Arguments. Unset Strict Implicit. Unset Printing Implicit Defensive.
Import Order.TTheory GRing.Theory Num.Theory.
Local Open Scope ring_scope.

Section NumpyL.
Variable F : realFieldType.

Lemma invP n (A B : 'M[F]_n) : inv A = Some B -> A \in unitmx /\ B = invmx A.
Proof. by rewrite /inv; case: ifP => // uA [<-]. Qed.

Lemma inv_mulV n (A B : 'M[F]_n) : inv A = Some B -> A *m B = 1%:M /\ B *m A = 1%:M.
Proof. by case/invP => uA ->; rewrite mulmxV // mulVmx. Qed.

Lemma inv_some n (A B : 'M[F]_n) : B *m A = 1%:M -> inv A = Some B.
Proof.
move=> BA; have uA : A \in unitmx by have [] := mulmx1_unit BA.
rewrite /inv uA; congr Some.
by rewrite -[invmx A]mul1mx -BA -mulmxA mulmxV // mulmx1.
Qed.

Lemma addE m n (A B : 'M[F]_(m, n)) i j : (A + B) i j = A i j + B i j. Proof. by rewrite mxE. Qed.
Lemma subE m n (A B : 'M[F]_(m, n)) i j : (A - B) i j = A i j - B i j. Proof. by rewrite !mxE. Qed.
Lemma oppE m n (A : 'M[F]_(m, n)) i j : (- A) i j = - A i j. Proof. by rewrite mxE. Qed.
Lemma emulE m n (A B : 'M[F]_(m, n)) i j : emul A B i j = A i j * B i j. Proof. by rewrite mxE. Qed.
Lemma cmulE m n (v : 'cV[F]_m) (A : 'M[F]_(m, n)) i j : cmul v A i j = v i 0 * A i j. Proof. by rewrite mxE. Qed.
Lemma smulE m n (v : F) (A : 'M[F]_(m, n)) i j : smul v A i j = v * A i j. Proof. by rewrite mxE. Qed.
Lemma matE m n (f : 'I_m -> 'I_n -> F) i j : (\matrix_(i, j) f i j) i j = f i j. Proof. by rewrite mxE. Qed.

Lemma dotE m n p (A : 'M[F]_(m, n)) (B : 'M[F]_(n, p)) i j : dot A B i j = \sum_k A i k * B k j.
Proof. by rewrite /dot mxE. Qed.

Lemma vdiag_mulE m n (v : 'cV[F]_m) (A : 'M[F]_(m, n)) : vdiag v *m A = cmul v A.
Proof.
apply/matrixP => i j; rewrite !mxE (bigD1 i) //= !mxE eqxx big1 ?addr0 // => k nki.
by rewrite !mxE eq_sym (negbTE nki) mul0r.
Qed.

Lemma cmul_mulmx m n p (v : 'cV[F]_m) (A : 'M[F]_(m, n)) (B : 'M[F]_(n, p)) :
  cmul v (A *m B) = cmul v A *m B.
Proof. by rewrite -!vdiag_mulE mulmxA. Qed.

Lemma cmul_cV m (v w : 'cV[F]_m) : cmul v w = emul v w.
Proof. by apply/matrixP => i j; rewrite !mxE !(ord1 j). Qed.

Lemma cdivE m n (A : 'M[F]_(m, n)) (v : 'cV[F]_m) : cdiv A v = cmul (\matrix_(i, j) (v i 0)^-1) A.
Proof. by apply/matrixP => i j; rewrite !mxE mulrC. Qed.

Lemma vdiagE m (v : 'cV[F]_m) i j : vdiag v i j = if i == j then v i 0 else 0.
Proof. by rewrite mxE. Qed.

Lemma vdiag_mulvE m (v w : 'cV[F]_m) i : (vdiag v *m w) i 0 = v i 0 * w i 0.
Proof. by rewrite vdiag_mulE !mxE. Qed.

End NumpyL.
