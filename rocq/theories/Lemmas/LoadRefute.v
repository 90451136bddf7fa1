(* Two coupled rooms: radiant output beyond capacity (C07), cooling a heated room (C08). *)
From mathcomp Require Import all_ssreflect ssralg ssrnum zmodp matrix.
From Coq Require Import Ring Field.
From Verif Require Import Model.OperationMode Model.Numpy Model.NextCondition Lemmas.FieldTac
  Lemmas.NumpyL Lemmas.NextConditionL Lemmas.MMatrix.
Set Implicit Arguments. Unset Strict Implicit. Unset Printing Implicit Defensive.
Import Order.TTheory GRing.Theory Num.Theory.
Local Open Scope ring_scope.

Section LoadRefute.
Variable F : realFieldType.
Add Field Ffield : (ffield_theory F).
Ltac fring := ffold F; ring.

Definition mx2 (a b c e : F) : 'M[F]_2 :=
  \matrix_(i, j) (if i == 0 then (if j == 0 then a else b) else (if j == 0 then c else e)).
Definition col2 (a b : F) : 'cV[F]_2 := \matrix_(i, j) (if i == 0 then a else b).

Lemma all2 (P : 'I_2 -> Prop) : P 0 -> P 1 -> forall i, P i.
Proof.
move=> p0 p1 [[|[|//]]] hi.
  by have -> : Ordinal hi = 0 by apply: val_inj.
by have -> : Ordinal hi = 1 by apply: val_inj.
Qed.

Lemma sum2 (f : 'I_2 -> F) : \sum_i f i = f 0 + f 1.
Proof. by rewrite !big_ord_recl big_ord0 addr0; congr (_ + f _); apply: val_inj. Qed.

Lemma tri2_inv (A : 'M[F]_2) : A 0 1 = 0 -> A 0 0 != 0 -> A 1 1 != 0 -> exists B, inv A = Some B.
Proof.
move=> a01 a00 a11; apply: inj_inv => v Av.
have r i : A i 0 * v 0 0 + A i 1 * v 1 0 = 0.
  by have := congr1 (fun z : 'cV_2 => z i 0) Av; rewrite /= !mxE sum2.
have v0 : v 0 0 = 0.
  by have /eqP := r 0; rewrite a01 mul0r addr0 mulf_eq0 (negbTE a00) => /eqP.
have v1 : v 1 0 = 0.
  by have /eqP := r 1; rewrite v0 mulr0 add0r mulf_eq0 (negbTE a11) => /eqP.
by apply/matrixP => i j; rewrite (ord1 j) [RHS]mxE; move: i; exact: all2.
Qed.

Lemma glt2 kt (kr : 'M[F]_2) k ts lcs lrs (nt c r : 'I_2 -> bool) : kr 0 1 = 0 -> kr 0 0 = 1 -> kr 1 1 = 1 ->
  (forall i, nt i = false) -> (forall i, c i = ~~ r i) ->
  exists t, get_load_and_temp (kt : 'M[F]_2) 1%:M kr k nt ts c lcs r lrs = Some t.
Proof.
move=> k01 k00 k11 n0 cr; rewrite /get_load_and_temp.
set x1 := (_ - _ - _); suff [B ->] : exists B, inv x1 = Some B by eexists.
apply: tri2_inv; rewrite /x1 !mxE ?k01 ?k00 ?k11 !n0 ?cr /= ?mulr0 ?mul0r ?subr0 //.
  by case: (r 0); rewrite /= ?(mulr0, mulr1, mulr0n, subr0, sub0r) oppr_eq0 oner_eq0.
by case: (r 1); rewrite /= ?(mulr0, mulr1, mulr0n, subr0, sub0r) oppr_eq0 oner_eq0.
Qed.

Lemma calc2 (kt kr : 'M[F]_2) (lo caph : 'cV[F]_2) rad : kt \in unitmx ->
  kr 0 1 = 0 -> kr 0 0 = 1 -> kr 1 1 = 1 -> (forall i, 0 < lo i 0) -> (forall i, 0 <= caph i 0) ->
  exists t, calc_next_temp_and_load (fun _ => rad) (fun _ => rad) 0 kt kr lo 0 caph caph
              (fun _ => HEATING) (const_mx 1) = Some t.
Proof.
move=> uk k01 k00 k11 lo0 c0; rewrite /calc_next_temp_and_load /inv uk /dot mulmx0.
set nt := fun i => ~~ _ && _; set c := fun i => _ || _; set r := fun i => _ || _.
have n0 i : nt i = false by rewrite /nt mxE lo0.
have cr i : c i = ~~ r i by rewrite /c /r mxE lo0 /= !orbF.
set ts := vwhere _ _ (vwhere _ _ _).
have [[[t0 l0] lr] E] := glt2 kt 0 ts 0 0 k01 k00 k11 n0 cr.
rewrite E; apply: glt2 => // i.
by rewrite -/(c i) -/(r i) cr; case: (r i); rewrite ?andbT ?andbF ?orbF ?orbT //; do 2!case: (_ < _).
Qed.

(* C07 *)
Definition kr7 : 'M[F]_2 := mx2 1 0 (1 / 2%:R) 1.

Lemma over_capacity : exists theta lc lr,
  [/\ calc_next_temp_and_load (fun _ => true) (fun _ => true) 0 1%:M kr7 (col2 4%:R 3%:R) 0
        (col2 2%:R 1) (col2 2%:R 1) (fun _ => HEATING) (const_mx 1) = Some (theta, lc, lr),
      lr 1 0 = 2%:R & (col2 2%:R 1) 1 0 < lr 1 0].
Proof.
have lo0 : forall i, 0 < (col2 4%:R 3%:R) i 0 by apply: all2; rewrite mxE /= ltr0n.
have c0 : forall i, 0 <= (col2 2%:R 1) i 0 by apply: all2; rewrite mxE /= ?ler0n ?ler01.
have [[[theta lc] lr] H] := calc2 true (unitmx1 F 2) (kr := kr7) (mxE _ _ _ _) (mxE _ _ _ _) (mxE _ _ _ _) lo0 c0.
exists theta, lc, lr.
have tnE : 1%:M *m (0 : 'cV[F]_2) = 0 by rewrite mulmx0.
have hh i : heats (col2 4%:R 3%:R) (fun _ => HEATING) 0 i by rewrite /heats /= [X in X < _]mxE lo0.
have [th0 [lc0 [lr0 [E1 E2]]]] := calc_cases H tnE.
have t0 i : th0 i 0 = (col2 4%:R 3%:R) i 0.
  have [e _] := glt_theta_set E1 i; rewrite e ?hh // !mxE hh /cools /=.
  by rewrite mulr1 mul0r addr0.
have t i : theta i 0 = (col2 4%:R 3%:R) i 0.
  have [e _] := glt_theta_set E2 i; rewrite e ?hh // !mxE hh /cools /=.
  by rewrite mulr1 mul0r addr0.
have z i : lc0 i 0 = 0.
  by have [_ [e _]] := glt_theta_set E1 i; rewrite e ?mxE // hh /cools.
have b0 i : th0 i 0 = kr7 i 0 * lr0 0 0 + kr7 i 1 * lr0 1 0.
  have /(congr1 (fun w : 'cV_2 => w i 0)) := glt_balance E1.
  by rewrite /= !mul1mx addr0 addE z add0r mxE sum2.
have l0 : lr0 0 0 = 4%:R by have := b0 0; rewrite t0 !mxE /= mul1r mul0r addr0.
have l1 : lr0 1 0 = 1.
  have := b0 1; rewrite t0 l0 !mxE /= !mul1r mulrC => e.
  apply/eqP; rewrite -subr_eq0; apply/eqP.
  have -> : lr0 1 0 - 1 = 4%:R / 2%:R + lr0 1 0 - 3%:R + (2%:R - 4%:R / 2%:R) by fring.
  by rewrite -e subrr add0r -[4%N]/(2 * 2)%N natrM mulfK ?subrr // pnatr_eq0.
have [_ [_ f0]] := glt_theta_set E2 0; have [_ [f1 _]] := glt_theta_set E2 1.
have {}f0 : lr 0 0 = 2%:R.
  have o : (2%:R < 4%:R :> F) by rewrite ltr_nat.
  have u : (4%:R < - 2%:R :> F) = false.
    by rewrite ltNge (le_trans _ (ler0n _ _)) // oppr_le0 ler0n.
  by rewrite f0 !mxE ?l0 /= ?u ?o ?andbF.
have {}f1 : lc 1 0 = 0.
  have u : (1 < - 1 :> F) = false by rewrite ltNge (le_trans _ ler01) // oppr_le0 ler01.
  by rewrite f1 !mxE // l1 /= u ltxx hh /cools /=.
have r1 : lr 1 0 = 2%:R.
  have /(congr1 (fun w : 'cV_2 => w 1 0)) := glt_balance E2.
  rewrite /= !mul1mx addr0 addE f1 add0r mxE sum2 f0 t !mxE /= !mul1r => e.
  apply/eqP; rewrite -subr_eq0; apply/eqP.
  have -> : lr 1 0 - 2%:R = 2%:R^-1 * 2%:R + lr 1 0 - 3%:R + (1 - 2%:R^-1 * 2%:R) by fring.
  by rewrite -e subrr add0r mulVf ?subrr // pnatr_eq0.
by split=> //; rewrite r1 mxE /= ltr1n.
Qed.

(* C08 *)
Definition kt8 : 'M[F]_2 := mx2 2%:R (- 1) (- 1) 2%:R.

Lemma heated_cools : exists theta lc lr,
  [/\ calc_next_temp_and_load (fun _ => false) (fun _ => false) 0 kt8 1%:M (col2 1 10%:R) 0
        0 0 (fun _ => HEATING) (const_mx 1) = Some (theta, lc, lr),
      lr 0 0 = 0, lc 0 0 = - 8%:R & lc 0 0 + lr 0 0 < 0].
Proof.
have lo0 : forall i, 0 < (col2 1 10%:R) i 0 by apply: all2; rewrite mxE /= ?ltr0n ?ltr01.
have c0 : forall i, 0 <= (0 : 'cV[F]_2) i 0 by move=> i; rewrite mxE.
have uk : kt8 \in unitmx.
  apply: inj_unit => v Av.
  have r i : kt8 i 0 * v 0 0 + kt8 i 1 * v 1 0 = 0.
    by have := congr1 (fun z : 'cV_2 => z i 0) Av; rewrite /= mxE sum2 [X in _ = X]mxE.
  have n3 : (3%:R == 0 :> F) = false by rewrite pnatr_eq0.
  have v0 : v 0 0 = 0.
    have : 3%:R * v 0 0 = 2%:R * (kt8 0 0 * v 0 0 + kt8 0 1 * v 1 0) + (kt8 1 0 * v 0 0 + kt8 1 1 * v 1 0).
      by rewrite !mxE /=; fring.
    by rewrite !r mulr0 addr0 => /eqP; rewrite mulf_eq0 n3 => /eqP.
  have v1 : v 1 0 = 0.
    by have := r 0; rewrite v0 mulr0 add0r !mxE /= mulN1r => /eqP; rewrite oppr_eq0 => /eqP.
  by apply/matrixP => i j; rewrite (ord1 j) [RHS]mxE; move: i; exact: all2.
have [] := @calc2 kt8 1%:M (col2 1 10%:R) 0 false uk; rewrite ?mxE //.
move=> [[theta lc] lr] H; exists theta, lc, lr.
have tnE : kt8 *m (0 : 'cV[F]_2) = 0 by rewrite mulmx0.
have hh i : heats (col2 1 10%:R) (fun _ => HEATING) 0 i by rewrite /heats /= [X in X < _]mxE lo0.
have t i : theta i 0 = (col2 1 10%:R) i 0.
  by have [-> //] := calc_set H i tnE; rewrite /tset !mxE mulr1 mul0r addr0.
have r0 i : lr i 0 = 0.
  by apply: (calc_convective H c0 c0 tnE); rewrite hh.
have l : lc 0 0 = - 8%:R.
  have /(congr1 (fun w : 'cV_2 => w 0 0)) := calc_balance H.
  rewrite /= mul1mx addr0 addE r0 addr0 mxE sum2 !t !mxE /= => <-; fring.
by split=> //; rewrite l r0 addr0 oppr_lt0 ltr0n.
Qed.

End LoadRefute.
