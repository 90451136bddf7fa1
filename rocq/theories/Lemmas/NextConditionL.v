From mathcomp Require Import all_ssreflect ssralg ssrnum zmodp matrix.
From Coq Require Import Ring Field.
From Verif Require Import Model.OperationMode Model.Numpy Model.NextCondition.
From Verif Require Import Lemmas.FieldTac Lemmas.NumpyL.
Set Implicit Arguments. Unset Strict Implicit. Unset Printing Implicit Defensive.
Import Order.TTheory GRing.Theory Num.Theory.
Local Open Scope ring_scope.

Section NextConditionL.
Variable F : realFieldType.
Variable n : nat.
Add Field Ffield : (ffield_theory F).
Ltac fring := ffold F; ring.

Implicit Types (kt kc kr : 'M[F]_n) (k ts lcs lrs theta lc lr : 'cV[F]_n) (nt c r : 'I_n -> bool).

Lemma zmod_lin (V : zmodType) (a b c d e f k : V) :
  a - b - c = - d + e + f + k -> a + d = b + e + (c + f) + k.
Proof.
move/(canRL (subrK _))/(canRL (subrK _)) ->.
by rewrite [LHS](ACl ((1*7)*(6*2*(5*3)*4)))/= addNr add0r.
Qed.

Lemma glt_balance kt kc kr k nt ts c lcs r lrs theta lc lr :
  get_load_and_temp kt kc kr k nt ts c lcs r lrs = Some (theta, lc, lr) ->
  kt *m theta = kc *m lc + kr *m lr + k.
Proof.
rewrite /get_load_and_temp; set x1 := (_ - _ - _); set x2 := (_ + k).
case E: (inv x1) => [x1i|//] [<- <- <-].
have [Hx _] := inv_mulV E.
have Hv : x1 *m (x1i *m x2) = x2 by rewrite mulmxA Hx mul1mx.
set v := dot x1i x2; rewrite -/(dot x1i x2) -/v in Hv.
have mask (b : 'I_n -> bool) (w : 'cV[F]_n) :
  emul v (ind F b) + emul (vwhere b 0 w) (ssub 1 (ind F b)) = emul (ind F b) v + vwhere b 0 w.
  apply/matrixP => i j; rewrite !mxE !(ord1 j); case: (b i) => /=; fring.
have rm (A : 'M[F]_n) (b : 'I_n -> bool) : rmul A (ind F b) *m v = A *m emul (ind F b) v.
  by apply/matrixP => i j; rewrite !mxE; apply: eq_bigr => l _; rewrite !mxE !(ord1 j) mulrA.
rewrite !mask !mulmxDr.
move: Hv; rewrite /x1 /x2 !mulmxBl !rm /dot => Hv.
exact: zmod_lin Hv.
Qed.

Lemma glt_theta_set kt kc kr k nt ts c lcs r lrs theta lc lr :
  get_load_and_temp kt kc kr k nt ts c lcs r lrs = Some (theta, lc, lr) ->
  forall i, (~~ nt i -> theta i 0 = ts i 0) /\ (~~ c i -> lc i 0 = lcs i 0)
            /\ (~~ r i -> lr i 0 = lrs i 0).
Proof.
rewrite /get_load_and_temp; case: (inv _) => [x1i|//] [<- <- <-] i.
rewrite !mxE; split; [|split] => /negbTE ->; rewrite /= mulr0 add0r subr0 mulr1 //.
Qed.

Section Calc.
Variables (rh rc : 'I_n -> bool) (brc : 'cV[F]_n) (brm brl : 'M[F]_n).
Variables (lo up caph capc : 'cV[F]_n) (om : 'I_n -> mode) (ac : 'cV[F]_n).
Variables (theta lc lr : 'cV[F]_n).
Hypothesis H : calc_next_temp_and_load rh rc brc brm brl lo up caph capc om ac = Some (theta, lc, lr).

Lemma calc_balance : brm *m theta = lc + brl *m lr + brc.
Proof.
move: H; rewrite /calc_next_temp_and_load; case: (inv brm) => [kti|//].
case: (get_load_and_temp _ _ _ _ _ _ _ _ _ _) => [[[? ?] lr0]|//].
by move/glt_balance; rewrite mul1mx.
Qed.

Lemma calc_unit : brm \in unitmx.
Proof. by move: H; rewrite /calc_next_temp_and_load /inv; case: (brm \in unitmx). Qed.

Definition heats (tn : 'cV[F]_n) i := mode_eqb (om i) HEATING && (tn i 0 < lo i 0).
Definition cools (tn : 'cV[F]_n) i := mode_eqb (om i) COOLING && (up i 0 < tn i 0).
Definition tset (tn : 'cV[F]_n) (t : 'cV[F]_n) i := t i 0 * ac i 0 + tn i 0 * (1 - ac i 0).

Lemma natural_unique tn : brm *m tn = brc -> tn = invmx brm *m brc.
Proof. by move=> <-; rewrite mulKmx // calc_unit. Qed.

Lemma heats_cools tn i : heats tn i -> cools tn i = false.
Proof. by rewrite /heats /cools; case: (om i). Qed.

(* what the second call of get_load_and_temp sees *)
Lemma calc_cases tn : brm *m tn = brc ->
  exists th0 lc0 lr0,
    let over i := caph i 0 < lr0 i 0 in
    let under i := lr0 i 0 < - capc i 0 in
    let nt i := ~~ heats tn i && ~~ cools tn i in
    let ts := vwhere (cools tn) (emul up ac + emul tn (ssub 1 ac))
                (vwhere (heats tn) (emul lo ac + emul tn (ssub 1 ac)) 0) in
    let c i := (heats tn i && ~~ rh i) || (cools tn i && ~~ rc i) in
    let r i := (heats tn i && rh i) || (cools tn i && rc i) in
    get_load_and_temp brm 1%:M brl brc nt ts c 0 r 0 = Some (th0, lc0, lr0) /\
    get_load_and_temp brm 1%:M brl brc nt ts (fun i => under i || (over i || c i)) 0
      (fun i => ~~ under i && (~~ over i && r i))
      (vwhere under (- capc) (vwhere over caph 0)) = Some (theta, lc, lr).
Proof.
move/natural_unique => tnE; move: H; rewrite /calc_next_temp_and_load /inv calc_unit.
rewrite -/(dot (invmx brm) brc); rewrite /dot -tnE.
set e := get_load_and_temp _ _ _ _ _ _ _ _ _ _.
case E: e => [[[th0 lc0] lr0]|//] H2; exists th0, lc0, lr0; split.
  by move: E; rewrite /e.
exact: H2.
Qed.

Lemma calc_set tn i : brm *m tn = brc ->
  (heats tn i -> theta i 0 = tset tn lo i) /\ (cools tn i -> theta i 0 = tset tn up i).
Proof.
move=> tnE; have [th0 [lc0 [lr0 [_ /glt_theta_set/(_ i)[]]]]] := calc_cases tnE.
move=> E _; split=> hi; rewrite E /tset ?hi ?andbF //= !mxE.
  by rewrite (heats_cools hi) hi.
by rewrite hi.
Qed.

Hypothesis caph_ge0 : forall i, 0 <= caph i 0.
Hypothesis capc_ge0 : forall i, 0 <= capc i 0.

Lemma calc_off tn i : brm *m tn = brc -> ~~ heats tn i -> ~~ cools tn i ->
  lc i 0 = 0 /\ lr i 0 = 0.
Proof.
move=> tnE nh nc; have [th0 [lc0 [lr0 [E1 E2]]]] := calc_cases tnE.
have [_ [_ lr0E]] := glt_theta_set E1 i.
have {}lr0E : lr0 i 0 = 0 by rewrite lr0E ?mxE // (negbTE nh) (negbTE nc).
have [_ [lcE lrE]] := glt_theta_set E2 i.
have o1 : (caph i 0 < lr0 i 0) = false by rewrite lr0E ltNge caph_ge0.
have o2 : (lr0 i 0 < - capc i 0) = false by rewrite lr0E ltNge oppr_le0 capc_ge0.
rewrite lcE ?lrE ?mxE; rewrite ?(negbTE nh) ?(negbTE nc) ?o1 ?o2 ?orbF ?andbF //=.
Qed.

(* equipment kind *)
Lemma calc_convective tn i : brm *m tn = brc ->
  (heats tn i && ~~ rh i) || (cools tn i && ~~ rc i) -> lr i 0 = 0.
Proof.
move=> tnE hc; have [th0 [lc0 [lr0 [E1 E2]]]] := calc_cases tnE.
have nr : (heats tn i && rh i) || (cools tn i && rc i) = false.
  case/orP: hc => /andP[h1 /negbTE h2]; rewrite h2 andbF //=.
    by rewrite (heats_cools h1).
  by case hh: (heats tn i) => //=; move: (heats_cools hh); rewrite h1.
have [_ [_ lr0E]] := glt_theta_set E1 i.
have {}lr0E : lr0 i 0 = 0 by rewrite lr0E ?nr // mxE.
have [_ [_ lrE]] := glt_theta_set E2 i.
have o1 : (caph i 0 < lr0 i 0) = false by rewrite lr0E ltNge caph_ge0.
have o2 : (lr0 i 0 < - capc i 0) = false by rewrite lr0E ltNge oppr_le0 capc_ge0.
by rewrite lrE ?nr ?andbF // !mxE o1 o2.
Qed.

(* a room with radiant equipment either uses only that equipment or runs it at full power *)
Lemma calc_radiative tn i : brm *m tn = brc ->
  (heats tn i && rh i) || (cools tn i && rc i) ->
  lc i 0 = 0 \/ lr i 0 = caph i 0 \/ lr i 0 = - capc i 0.
Proof.
move=> tnE hr; have [th0 [lc0 [lr0 [E1 E2]]]] := calc_cases tnE.
have nc : (heats tn i && ~~ rh i) || (cools tn i && ~~ rc i) = false.
  case/orP: hr => /andP[h1 h2]; rewrite h2 andbF //=.
    by rewrite (heats_cools h1).
  by case hh: (heats tn i) => //=; move: (heats_cools hh); rewrite h1.
have [_ [lcE lrE]] := glt_theta_set E2 i.
case o2 : (lr0 i 0 < - capc i 0).
  by right; right; rewrite lrE ?o2 // !mxE o2.
case o1 : (caph i 0 < lr0 i 0).
  by right; left; rewrite lrE ?o1 ?o2 ?andbF // !mxE o1 o2.
by left; rewrite lcE ?nc ?o1 ?o2 // mxE.
Qed.

(* if no room exceeds its limits in the first pass, the second pass repeats the first *)
Lemma glt_ext kt kc kr k nt ts c c' lcs r r' lrs lrs' :
  c =1 c' -> r =1 r' -> lrs = lrs' ->
  get_load_and_temp kt kc kr k nt ts c lcs r lrs = get_load_and_temp kt kc kr k nt ts c' lcs r' lrs'.
Proof.
move=> ec er ->; have ei (b b' : 'I_n -> bool) : b =1 b' -> ind F b = ind F b'.
  by move=> e; apply/matrixP => i j; rewrite !mxE e.
have ew (b b' : 'I_n -> bool) (x y : 'cV[F]_n) : b =1 b' -> vwhere b x y = vwhere b' x y.
  by move=> e; apply/matrixP => i j; rewrite !mxE e.
by rewrite /get_load_and_temp (ei _ _ ec) (ei _ _ er) (ew _ _ _ _ ec) (ew _ _ _ _ er).
Qed.

Lemma calc_lr_single i : n = 1%N -> - capc i 0 <= lr i 0 <= caph i 0.
Proof.
move=> n1; have uni (j : 'I_n) : j = i by case: (n) n1 i j => [//|[|//]] _ i' j'; rewrite !ord1.
have tnE : brm *m (invmx brm *m brc) = brc by rewrite mulKVmx // calc_unit.
have [th0 [lc0 [lr0 [E1 E2]]]] := calc_cases tnE.
have [_ [_ lrE]] := glt_theta_set E2 i.
have mid : - capc i 0 <= caph i 0 by rewrite (le_trans _ (caph_ge0 i)) // oppr_le0.
case o2 : (lr0 i 0 < - capc i 0).
  by rewrite lrE ?o2 // !mxE o2 lexx mid.
case o1 : (caph i 0 < lr0 i 0).
  by rewrite lrE ?o1 ?o2 ?andbF // !mxE o1 o2 lexx mid.
have E3 := E2; rewrite (glt_ext _ _ _ _ _ _ (c' := fun i =>
    (heats (invmx brm *m brc) i && ~~ rh i) || (cools (invmx brm *m brc) i && ~~ rc i)) _
  (r' := fun i => (heats (invmx brm *m brc) i && rh i) || (cools (invmx brm *m brc) i && rc i))
  (lrs' := 0)) in E3.
- move: E3; rewrite E1 => -[_ _ <-].
  by rewrite leNgt o2 leNgt o1.
- by move=> j; rewrite (uni j) o1 o2.
- by move=> j; rewrite (uni j) o1 o2.
- by apply/matrixP => j l; rewrite !mxE (uni j) o1 o2.
Qed.

End Calc.
End NextConditionL.
