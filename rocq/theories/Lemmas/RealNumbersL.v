(* Field expressions over the real numbers as expressions of R *)
From Coq Require Import Reals Lra ZArith.
From mathcomp Require Import all_ssreflect ssralg ssrnum.
From Verif Require Import Model.Dec Model.RealNumbers.
Set Implicit Arguments. Unset Strict Implicit. Unset Printing Implicit Defensive.
Import Order.TTheory GRing.Theory Num.Theory.
Delimit Scope R_scope with coqR.

Lemma R_divE (x y : R) : y <> R0 -> (x / y)%R = (x / y)%coqR.
Proof. by move=> N; rewrite -[LHS]/(x * (y^-1)%R)%coqR R_invE. Qed.

Lemma R_p2fE p : p2f R_realFieldType p = IZR (Zpos p).
Proof.
have H q : p2f R_realFieldType q = IPR q; last by rewrite H.
have I2 : (2%:R : R)%R = 2%coqR by rewrite R_natE /=; lra.
elim: q => [q IH|q IH|] //=; rewrite IH -?[@GRing.natmul _ _ _]/(2%:R : R)%R I2.
- by rewrite -!INR_IPR Pos2Nat.inj_xI S_INR mult_INR /= R_1E R_addE R_mulE; lra.
- by rewrite -!INR_IPR Pos2Nat.inj_xO mult_INR /= R_mulE; lra.
Qed.

Lemma R_decE z k : dec R_realFieldType z k = (IZR z / 10 ^ k)%coqR.
Proof.
rewrite /dec; have -> : z2f R_realFieldType z = IZR z by case: z => [|p|p] //=; rewrite R_p2fE.
have I : (10%:R : R)%R = 10%coqR by rewrite R_natE /=; lra.
by rewrite I R_expE R_divE //; apply: pow_nonzero; lra.
Qed.
