(* Strictly diagonally dominant matrices over a real field. *)
From mathcomp Require Import all_ssreflect ssralg ssrnum zmodp matrix mxalgebra.
From Verif Require Import Model.Numpy Lemmas.NumpyL.
Set Implicit Arguments. Unset Strict Implicit. Unset Printing Implicit Defensive.
Import Order.TTheory GRing.Theory Num.Theory.
Local Open Scope ring_scope.

Section MMatrix.
Variable F : realFieldType.

(* strictly diagonally dominant by rows, with positive diagonal *)
Definition sdd n (A : 'M[F]_n) : Prop :=
  forall i, \sum_(j | j != i) `|A i j| < A i i.

(* off-diagonal entries non-positive *)
Definition zmx n (A : 'M[F]_n) : Prop := forall i j, i != j -> A i j <= 0.

Lemma argmin n (f : 'I_n.+1 -> F) : exists i, forall j, f i <= f j.
Proof. by exists [arg min_(i < ord0) f i]%O; case: arg_minP => //= i _ H j; exact: H. Qed.

Lemma mul_diag n (A : 'M[F]_n) (v : 'cV[F]_n) i :
  (A *m v) i 0 = A i i * v i 0 + \sum_(j | j != i) A i j * v j 0.
Proof. by rewrite mxE (bigD1 i). Qed.

(* discrete maximum principle for Z-matrices *)
Lemma sdd_z_monotone n (A : 'M[F]_n) (v : 'cV[F]_n) :
  sdd A -> zmx A -> (forall i, 0 <= (A *m v) i 0) -> forall i, 0 <= v i 0.
Proof.
case: n A v => [|n] A v sA zA H i; first by case: i.
have [m Hm] := argmin (fun i => v i 0).
apply: le_trans (Hm i); rewrite leNgt; apply/negP => vm.
suff : (A *m v) m 0 < 0 by move/lt_geF; rewrite H.
rewrite mul_diag -ltr_subr_addr sub0r.
apply: (@lt_le_trans _ _ (- (\sum_(j | j != m) A m j * v m 0))).
  rewrite -mulr_suml -mulNr -subr_gt0 -mulrBl nmulr_lgt0 //.
  rewrite -sumrN subr_lt0.
  apply: le_lt_trans (sA m); apply: ler_sum => j nj.
  by rewrite -normrN ler_norm.
rewrite ler_opp2; apply: ler_sum => j nj.
by apply: ler_wnmul2l; [apply: zA; rewrite eq_sym | exact: Hm].
Qed.

Lemma sdd_inj n (A : 'M[F]_n) (v : 'cV[F]_n) : sdd A -> A *m v = 0 -> v = 0.
Proof.
case: n A v => [|n] A v sA Av; first by apply/matrixP => [[]].
have [m Hm] := argmin (fun i => - `|v i 0|).
have {}Hm j : `|v j 0| <= `|v m 0| by rewrite -ler_opp2 Hm.
have vm0 : `|v m 0| = 0.
  apply/eqP; case: (ltgtP `|v m 0| 0) => [|vm|//]; first by rewrite ltNge normr_ge0.
  have /matrixP/(_ m 0) := Av; rewrite mul_diag [in RHS]mxE => /eqP.
  rewrite addr_eq0 => /eqP E.
  have : A m m * `|v m 0| <= (\sum_(j | j != m) `|A m j|) * `|v m 0|.
    have Am : 0 <= A m m by apply: le_trans (ltW (sA m)); apply: sumr_ge0 => j _; exact: normr_ge0.
    rewrite -{1}(ger0_norm Am) -normrM E normrN mulr_suml.
    apply: (le_trans (ler_norm_sum _ _ _)); apply: ler_sum => j _.
    by rewrite normrM ler_wpmul2l // normr_ge0.
  by rewrite ler_pmul2r // leNgt sA.
apply/matrixP => i j; rewrite (ord1 j) mxE; apply/eqP; rewrite -normr_le0.
by rewrite -vm0 Hm.
Qed.

Lemma inj_unit n (A : 'M[F]_n) : (forall v : 'cV[F]_n, A *m v = 0 -> v = 0) -> A \in unitmx.
Proof.
move=> iA; rewrite -unitmx_tr -row_free_unit -kermx_eq0; apply/eqP/row_matrixP => i.
rewrite row0; apply: trmx_inj; rewrite trmx0; apply: iA.
apply: trmx_inj; rewrite trmx_mul trmxK trmx0.
by apply/sub_kermxP/row_sub.
Qed.

Lemma inj_inv n (A : 'M[F]_n) : (forall v : 'cV[F]_n, A *m v = 0 -> v = 0) -> exists B, inv A = Some B.
Proof. by move/inj_unit => uA; rewrite /inv uA; exists (invmx A). Qed.

Lemma sdd_unit n (A : 'M[F]_n) : sdd A -> A \in unitmx.
Proof.
by move=> sA; apply: inj_unit => v; apply: sdd_inj.
Qed.

Lemma sdd_inv n (A : 'M[F]_n) : sdd A -> exists B, inv A = Some B.
Proof. by move/sdd_unit => uA; rewrite /inv uA; exists (invmx A). Qed.

(* entries of the inverse of such a Z-matrix are non-negative *)
Lemma sdd_z_sol n p (A B : 'M[F]_n) (C : 'M[F]_(n, p)) :
  sdd A -> zmx A -> inv A = Some B -> (forall i j, 0 <= C i j) -> forall i j, 0 <= (B *m C) i j.
Proof.
move=> sA zA /inv_mulV [AB _] C0 i j.
have E : A *m col j (B *m C) = col j C.
  by apply/matrixP => k l; rewrite [RHS]mxE -[C in RHS]mul1mx -AB -mulmxA !mxE; apply: eq_bigr => m _; rewrite mxE.
have := @sdd_z_monotone _ A (col j (B *m C)) sA zA; rewrite E => H.
by have := H _ i; rewrite mxE; apply=> k; rewrite mxE; apply: C0.
Qed.

Lemma sdd_z_pos n (A B : 'M[F]_n) :
  sdd A -> zmx A -> inv A = Some B -> forall i j, 0 <= B i j.
Proof.
move=> sA zA iA i j; rewrite -[B]mulmx1; apply: (sdd_z_sol sA zA iA) => k l.
by rewrite mxE ler0n.
Qed.

(* diagonal entries of the inverse are positive *)
Lemma sdd_z_diag n (A B : 'M[F]_n) i :
  sdd A -> zmx A -> inv A = Some B -> 0 < B i i.
Proof.
move=> sA zA iA; have B0 := sdd_z_pos sA zA iA.
rewrite lt_neqAle B0 andbT; apply/eqP => Bii.
have [AB _] := inv_mulV iA; move/matrixP/(_ i i): AB.
rewrite !mxE eqxx (bigD1 i) //= -Bii mulr0 add0r => E.
have : \sum_(k | k != i) A i k * B k i <= 0.
  rewrite -oppr_ge0 -sumrN; apply: sumr_ge0 => k nk.
  by rewrite -mulNr mulr_ge0 // oppr_ge0 zA // eq_sym.
by rewrite E ler10.
Qed.

End MMatrix.
