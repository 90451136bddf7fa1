(* What more heat in a room does to the loads of the step (C76). *)
From mathcomp Require Import all_ssreflect ssralg ssrnum zmodp matrix.
From Coq Require Import Ring Field.
From Verif Require Import Model.OperationMode Model.Numpy Model.NextCondition Model.PreCalc Model.HeatExchanger Model.Tick
  Model.Step Model.OtTarget Model.CoreStep Spec.Physical Spec.Natural Spec.StepEq Spec.Equil Spec.Warmer Spec.Damp Spec.Gains.
From Verif Require Import Lemmas.FieldTac Lemmas.NumpyL Lemmas.NextConditionL Lemmas.TickL Lemmas.MMatrix Lemmas.TickTotal
  Lemmas.TickNatural Lemmas.TickSign Lemmas.StepL Lemmas.StepProps Lemmas.CoreStepL.
Set Implicit Arguments. Unset Strict Implicit. Unset Printing Implicit Defensive.
Import Order.TTheory GRing.Theory Num.Theory.
Local Open Scope ring_scope.

Section Shift.
Variable F : realFieldType.
Variable n : nat.
Implicit Types (nt c r : 'I_n -> bool).

(* heat d where convective equipment is at work is taken off its load *)
Lemma glt_shift (kt kr : 'M[F]_n) (k d ts lcs lrs th lc lr : 'cV[F]_n) nt c r :
  (forall i, d i 0 != 0 -> [/\ nt i = false, c i & r i = false]) ->
  get_load_and_temp kt 1%:M kr k nt ts c lcs r lrs = Some (th, lc, lr) ->
  get_load_and_temp kt 1%:M kr (k + d) nt ts c lcs r lrs = Some (th, lc - d, lr).
Proof.
move=> dz; rewrite /get_load_and_temp; set x1 := (_ - _ - _); set x2 := (_ + k).
case E: (inv x1) => [x1i|//] [<- <- <-]; have [_ Hx] := inv_mulV E.
have dE (b : 'I_n -> bool) v i : (d i 0 != 0 -> b i = v) -> d i 0 * (b i)%:R = d i 0 * v%:R.
  by case: (eqVneq (d i 0) 0) => [->|_ ->] //; rewrite !mul0r.
have xd : x1 *m (- d) = d.
  apply/matrixP => i j; rewrite (ord1 j) mulmxN mxE /x1 !mulmxBl !mxE.
  have z (A : 'M[F]_n) (b : 'I_n -> bool) : (forall l, d l 0 != 0 -> b l = false) -> \sum_l (rmul A (ind F b)) i l * d l 0 = 0.
    move=> bz; apply: big1 => l _; rewrite !mxE -mulrA [_ * d l 0]mulrC (dE _ false) ?mulr0 // => /bz //.
  rewrite (z kt nt) => [|l /dz[] //]; rewrite (z kr r) => [|l /dz[] //].
  rewrite sub0r subr0 opprK (bigD1 i) //= big1 => [|l li]; last by rewrite !mxE eq_sym (negbTE li) !mul0r.
  by rewrite !mxE eqxx mul1r addr0 mulrC (dE _ true) ?mulr1 // => /dz[].
have vE : dot x1i (x2 + d) = dot x1i x2 - d by rewrite /dot mulmxDr -[- d]mul1mx -Hx -mulmxA xd.
rewrite -/x2 addrA -/x2 vE; congr (Some (_, _, _)); apply/matrixP => i j; rewrite (ord1 j) !mxE.
- rewrite mulrBl (dE _ false) ?mulr0 ?subr0 // => /dz[] //.
- rewrite mulrBl (dE _ true) ?mulr1 ?(addrAC _ (- _)) // => /dz[] //.
- rewrite mulrBl (dE _ false) ?mulr0 ?subr0 // => /dz[] //.
Qed.

Variables (rh rc : 'I_n -> bool) (k d : 'cV[F]_n) (brm brl : 'M[F]_n).
Variables (lo up caph capc : 'cV[F]_n) (om : 'I_n -> mode) (ac th lc lr th2 lc2 lr2 tn tn2 : 'cV[F]_n).
Hypothesis H : calc_next_temp_and_load rh rc k brm brl lo up caph capc om ac = Some (th, lc, lr).
Hypothesis H2 : calc_next_temp_and_load rh rc (k + d) brm brl lo up caph capc om ac = Some (th2, lc2, lr2).
Hypothesis tnE : brm *m tn = k.
Hypothesis tnE2 : brm *m tn2 = k + d.
Hypothesis same : forall i, heats lo om tn2 i = heats lo om tn i /\ cools up om tn2 i = cools up om tn i.
Hypothesis full : forall i, heats lo om tn i || cools up om tn i -> tn2 i 0 * (1 - ac i 0) = tn i 0 * (1 - ac i 0).
Hypothesis dz : forall i, d i 0 != 0 -> (heats lo om tn i && ~~ rh i) || (cools up om tn i && ~~ rc i).

Lemma calc_shift : [/\ th2 = th, lc2 = lc - d & lr2 = lr].
Proof.
have [th0 [lc0 [lr0 [E1 E2]]]] := calc_cases H tnE.
have [th3 [lc3 [lr3 [E3 E4]]]] := calc_cases H2 tnE2.
have ts0 : vwhere (cools up om tn2) (emul up ac + emul tn2 (ssub 1 ac)) (vwhere (heats lo om tn2) (emul lo ac + emul tn2 (ssub 1 ac)) 0)
  = vwhere (cools up om tn) (emul up ac + emul tn (ssub 1 ac)) (vwhere (heats lo om tn) (emul lo ac + emul tn (ssub 1 ac)) 0).
  apply/matrixP => i j; rewrite (ord1 j) !mxE; have [-> ->] := same i.
  by case hE: (heats lo om tn i) (full (i := i)); case: (cools up om tn i) => //= ->.
have mask i : d i 0 != 0 -> [/\ ~~ heats lo om tn i && ~~ cools up om tn i = false,
    (heats lo om tn i && ~~ rh i) || (cools up om tn i && ~~ rc i) & (heats lo om tn i && rh i) || (cools up om tn i && rc i) = false].
  move=> /dz hc; split=> //; case/orP: hc => /andP[h1 /negbTE h2]; rewrite h1 ?h2 ?andbF //=.
    by rewrite (heats_cools up h1).
  by case hh: (heats lo om tn i) => //=; move: (heats_cools up hh); rewrite h1.
pose nt i := ~~ heats lo om tn i && ~~ cools up om tn i.
have ext c c' lcs r r' lrs lrs' ts : c =1 c' -> r =1 r' -> lrs = lrs' ->
   get_load_and_temp brm 1%:M brl (k + d) (fun i => ~~ heats lo om tn2 i && ~~ cools up om tn2 i) ts c lcs r lrs
   = get_load_and_temp brm 1%:M brl (k + d) nt ts c' lcs r' lrs'.
  move=> e1 e2 e3; rewrite (glt_ext _ _ _ _ _ _ _ e1 e2 e3) /get_load_and_temp.
  have -> : ind F (fun i => ~~ heats lo om tn2 i && ~~ cools up om tn2 i) = ind F nt.
    by apply/matrixP => i j; rewrite !mxE /nt; have [-> ->] := same i.
  have -> // : vwhere (fun i => ~~ heats lo om tn2 i && ~~ cools up om tn2 i) 0 ts = vwhere nt 0 ts.
  by apply/matrixP => i j; rewrite !mxE /nt; have [-> ->] := same i.
rewrite ts0 in E3 E4.
rewrite (ext _ (fun i => (heats lo om tn i && ~~ rh i) || (cools up om tn i && ~~ rc i)) _ _
  (fun i => (heats lo om tn i && rh i) || (cools up om tn i && rc i)) _ _ _ _ _ erefl) in E3; last first.
- by move=> i; have [-> ->] := same i.
- by move=> i; have [-> ->] := same i.
have := glt_shift mask E1; rewrite E3 => -[_ _ lrE]; rewrite lrE in E4.
rewrite (ext _ (fun i => (lr0 i 0 < - capc i 0) || ((caph i 0 < lr0 i 0) || ((heats lo om tn i && ~~ rh i) || (cools up om tn i && ~~ rc i)))) _ _
  (fun i => ~~ (lr0 i 0 < - capc i 0) && (~~ (caph i 0 < lr0 i 0) && ((heats lo om tn i && rh i) || (cools up om tn i && rc i)))) _ _ _ _ _ erefl) in E4; last first.
- by move=> i; have [-> ->] := same i.
- by move=> i; have [-> ->] := same i.
have := @glt_shift _ _ _ d _ _ _ _ _ _ _ _ _ _ E2; rewrite E4 => E.
have {}E := E (fun i di => ltac:(by have [m1 m2 m3] := mask i di; split; rewrite ?m2 ?m3 ?orbT ?andbF)).
by case: E.
Qed.
End Shift.

(* one conditioned room *)
Section Plan.
Variable F : realFieldType.
Variable n : nat.
Add Field Ffield0 : (ffield_theory F).
Ltac fring := ffold F; ring.
Variables (rh rc : 'I_n -> bool) (brm brl : 'M[F]_n) (lo up caph capc : 'cV[F]_n) (om : 'I_n -> mode) (ac : 'cV[F]_n).
Hypothesis caph_ge0 : forall i, 0 <= caph i 0.
Hypothesis capc_ge0 : forall i, 0 <= capc i 0.
Variable i : 'I_n.
Hypothesis one : forall k, k != i -> om k <> HEATING /\ om k <> COOLING.
Let A := invmx brm i i.
Let B := (invmx brm *m brl) i i.
Hypothesis A0 : 0 < A.
Hypothesis B0 : rh i || rc i -> 0 < B.
Hypothesis a01 : 0 <= ac i 0 <= 1.

Let a0 : 0 <= ac i 0. Proof. by case/andP: a01. Qed.

Section One.
Variables (k th lc lr tn : 'cV[F]_n).
Hypothesis H : calc_next_temp_and_load rh rc k brm brl lo up caph capc om ac = Some (th, lc, lr).
Hypothesis tnE : brm *m tn = k.

Lemma one_off l : l != i -> ~~ heats lo om tn l /\ ~~ cools up om tn l.
Proof. by move=> /one; rewrite /heats /cools; case: (om l) => -[]. Qed.

Lemma B0' : (heats lo om tn i && rh i) || (cools up om tn i && rc i) -> 0 < B.
Proof. by move=> rr; apply: B0; case/orP: rr => /andP[_ ->]; rewrite ?orbT. Qed.

Lemma plan_rise : th i 0 - tn i 0 = A * lc i 0 + B * lr i 0.
Proof.
apply: (rise_eq H tnE (calc_balance H)) => l nl; have [h1 h2] := one_off nl.
exact: (calc_off H caph_ge0 capc_ge0 tnE h1 h2).
Qed.

Lemma plan_heat : heats lo om tn i ->
  [/\ A * lc i 0 + B * lr i 0 = ac i 0 * (lo i 0 - tn i 0), 0 <= lc i 0, 0 <= lr i 0, rh i = false -> lr i 0 = 0
    & rh i -> (lc i 0 = 0 /\ lr i 0 <= caph i 0) \/ lr i 0 = caph i 0].
Proof.
move=> hc; have nc := heats_cools up hc; have [S1 _] := calc_set H i tnE; have [C1 _] := calc_sign H caph_ge0 capc_ge0 tnE one_off A0 B0' a0.
have [lc_ge0 lr_ge0] := C1 hc; have rise := plan_rise.
have tE : th i 0 - tn i 0 = ac i 0 * (lo i 0 - tn i 0) by rewrite S1 // /tset; fring.
split=> //; first by rewrite -rise tE.
- by move=> rE; apply: (calc_convective H caph_ge0 capc_ge0 tnE); rewrite hc rE.
move=> rE; have [th0 [lc0 [lr0 [E1 E2]]]] := calc_cases H tnE.
have E1b := glt_balance E1; rewrite mul1mx in E1b.
have zero0 l : l != i -> lc0 l 0 = 0 /\ lr0 l 0 = 0.
  move=> nl; have [/negbTE h1 /negbTE h2] := one_off nl; have [_ [e1 e2]] := glt_theta_set E1 l.
  by rewrite e1 ?e2 ?mxE // h1 h2.
have := rise_eq H tnE E1b zero0.
have [t2E [lcE lrE]] := glt_theta_set E2 i; have [t0E [lc0E lr0E]] := glt_theta_set E1 i.
have lc0z : lc0 i 0 = 0 by rewrite lc0E ?mxE // hc nc rE.
have thE : th0 i 0 = th i 0 by rewrite t2E ?t0E // hc.
rewrite lc0z mulr0 add0r thE -/B => rise0.
have Bp : 0 < B by apply: B0; rewrite rE.
have lr0p : 0 <= lr0 i 0.
  rewrite -(pmulr_rge0 _ Bp) -rise0 tE mulr_ge0 // subr_ge0; by case/andP: hc => _ /ltW.
have o2 : (lr0 i 0 < - capc i 0) = false by apply/negbTE; rewrite -leNgt (le_trans _ lr0p) // oppr_le0.
case o1 : (caph i 0 < lr0 i 0); first by right; rewrite lrE ?o1 ?o2 ?andbF // !mxE o1 o2.
left; have lcz : lc i 0 = 0 by rewrite lcE ?mxE // o1 o2 hc nc rE.
split=> //; move: rise; rewrite lcz mulr0 add0r rise0 => /(mulfI (lt0r_neq0 Bp)) <-.
by rewrite leNgt o1.
Qed.

Lemma plan_cool : cools up om tn i ->
  [/\ A * lc i 0 + B * lr i 0 = ac i 0 * (up i 0 - tn i 0), lc i 0 <= 0, lr i 0 <= 0, rc i = false -> lr i 0 = 0
    & rc i -> (lc i 0 = 0 /\ - capc i 0 <= lr i 0) \/ lr i 0 = - capc i 0].
Proof.
move=> hc; have nh : heats lo om tn i = false by apply/negbTE/negP => /(heats_cools up); rewrite hc.
have [_ S1] := calc_set H i tnE; have [_ C1] := calc_sign H caph_ge0 capc_ge0 tnE one_off A0 B0' a0.
have [lc_ge0 lr_ge0] := C1 hc; have rise := plan_rise.
have tE : th i 0 - tn i 0 = ac i 0 * (up i 0 - tn i 0) by rewrite S1 // /tset; fring.
split=> //; first by rewrite -rise tE.
- by move=> rE; apply: (calc_convective H caph_ge0 capc_ge0 tnE); rewrite hc rE orbT.
move=> rE; have [th0 [lc0 [lr0 [E1 E2]]]] := calc_cases H tnE.
have E1b := glt_balance E1; rewrite mul1mx in E1b.
have zero0 l : l != i -> lc0 l 0 = 0 /\ lr0 l 0 = 0.
  move=> nl; have [/negbTE h1 /negbTE h2] := one_off nl; have [_ [e1 e2]] := glt_theta_set E1 l.
  by rewrite e1 ?e2 ?mxE // h1 h2.
have := rise_eq H tnE E1b zero0.
have [t2E [lcE lrE]] := glt_theta_set E2 i; have [t0E [lc0E lr0E]] := glt_theta_set E1 i.
have lc0z : lc0 i 0 = 0 by rewrite lc0E ?mxE // hc nh rE.
have thE : th0 i 0 = th i 0 by rewrite t2E ?t0E // hc ?andbF.
rewrite lc0z mulr0 add0r thE -/B => rise0.
have Bp : 0 < B by apply: B0; rewrite rE orbT.
have lr0p : lr0 i 0 <= 0.
  rewrite -(pmulr_rle0 _ Bp) -rise0 tE mulr_ge0_le0 // subr_le0; by case/andP: hc => _ /ltW.
have o1 : (caph i 0 < lr0 i 0) = false by apply/negbTE; rewrite -leNgt (le_trans lr0p).
case o2 : (lr0 i 0 < - capc i 0); first by right; rewrite lrE ?o2 // !mxE o2.
left; have lcz : lc i 0 = 0 by rewrite lcE ?mxE // o1 o2 hc nh rE.
split=> //; move: rise; rewrite lcz mulr0 add0r rise0 => /(mulfI (lt0r_neq0 Bp)) <-.
by rewrite leNgt o2.
Qed.

Lemma plan_off : ~~ heats lo om tn i -> ~~ cools up om tn i -> lc i 0 = 0 /\ lr i 0 = 0.
Proof. exact: (calc_off H caph_ge0 capc_ge0 tnE). Qed.
End One.

(* less is asked for: none of the two loads is larger *)
Lemma plan_le (D D2 lc lr lc2 lr2 cap : F) (r : bool) : (r -> 0 < B) -> D2 <= D ->
  A * lc + B * lr = D -> A * lc2 + B * lr2 = D2 -> 0 <= lc -> 0 <= lc2 ->
  (r = false -> lr = 0) -> (r = false -> lr2 = 0) ->
  (r -> (lc = 0 /\ lr <= cap) \/ lr = cap) -> (r -> (lc2 = 0 /\ lr2 <= cap) \/ lr2 = cap) -> lc2 <= lc /\ lr2 <= lr.
Proof.
move=> Bp DD E E2 l0 l2 z z2 p p2; case rE: r Bp z z2 p p2 => Bp z z2 p p2; last first.
  by move: DD; rewrite -E -E2 z // z2 // mulr0 !addr0 ler_pmul2l.
have {}Bp := Bp isT; have {p} := p isT; have {p2} := p2 isT.
move=> [[c2 q2]|q2] [[c1 q1]|q1]; rewrite -?E -?E2 ?c1 ?c2 ?q1 ?q2 in DD *.
- by move: DD; rewrite !mulr0 !add0r ler_pmul2l.
- by split.
- have : lc2 <= 0.
    rewrite -(pmulr_rle0 _ A0); move: DD; rewrite mulr0 add0r -ler_subr_addr => /le_trans; apply.
    by rewrite -mulrBr pmulr_rle0 // subr_le0.
  move=> l20; have lz : lc2 = 0 by apply/eqP; rewrite eq_le l20.
  by move: DD; rewrite lz mulr0 !add0r ler_pmul2l.
- by split=> //; move: DD; rewrite ler_add2r ler_pmul2l.
Qed.

Section Two.
Variables (k th lc lr tn k2 th2 lc2 lr2 tn2 : 'cV[F]_n).
Hypothesis H : calc_next_temp_and_load rh rc k brm brl lo up caph capc om ac = Some (th, lc, lr).
Hypothesis H2 : calc_next_temp_and_load rh rc k2 brm brl lo up caph capc om ac = Some (th2, lc2, lr2).
Hypothesis tnE : brm *m tn = k.
Hypothesis tnE2 : brm *m tn2 = k2.
Hypothesis warm : tn i 0 <= tn2 i 0.

Lemma asked_le (t : 'cV[F]_n) : ac i 0 * (t i 0 - tn2 i 0) <= ac i 0 * (t i 0 - tn i 0).
Proof. by rewrite ler_wpmul2l // ler_sub. Qed.

Lemma calc_mono : [/\ lc2 i 0 <= lc i 0, lr2 i 0 <= lr i 0 & th i 0 <= th2 i 0].
Proof.
have r1 := plan_rise H tnE; have r2 := plan_rise H2 tnE2; have /andP[_ a1] := a01.
case h1: (heats lo om tn i).
  have [E c0 l0 z p] := plan_heat H tnE h1.
  case h2: (heats lo om tn2 i).
    have [E2 c20 l20 z2 p2] := plan_heat H2 tnE2 h2.
    have [] := plan_le (r := rh i) (fun r => B0 (introT orP (or_introl r))) (asked_le lo) E E2 c0 c20 z z2 p p2; split=> //.
    have e1 : th i 0 = tn i 0 + ac i 0 * (lo i 0 - tn i 0) by rewrite -E -r1 addrC subrK.
    have e2 : th2 i 0 = tn2 i 0 + ac i 0 * (lo i 0 - tn2 i 0) by rewrite -E2 -r2 addrC subrK.
    rewrite e1 e2 -subr_ge0.
    have -> : tn2 i 0 + ac i 0 * (lo i 0 - tn2 i 0) - (tn i 0 + ac i 0 * (lo i 0 - tn i 0)) = (1 - ac i 0) * (tn2 i 0 - tn i 0) by fring.
    by rewrite mulr_ge0 // subr_ge0.
  have hm : om i = HEATING by move: h1; rewrite /heats; case: (om i).
  have nc2 : cools up om tn2 i = false by rewrite /cools hm.
  have [e1 e2] := plan_off H2 tnE2 (negbT h2) (negbT nc2); rewrite e1 e2; split=> //.
  move: r2; rewrite e1 e2 !mulr0 addr0 => /eqP; rewrite subr_eq0 => /eqP ->.
  have l2 : lo i 0 <= tn2 i 0 by move: h2; rewrite /heats hm /= => /negbT; rewrite -leNgt.
  have -> : th i 0 = tn i 0 + ac i 0 * (lo i 0 - tn i 0) by rewrite -E -r1 addrC subrK.
  apply: le_trans l2; rewrite -subr_ge0.
  have -> : lo i 0 - (tn i 0 + ac i 0 * (lo i 0 - tn i 0)) = (1 - ac i 0) * (lo i 0 - tn i 0) by fring.
  by rewrite mulr_ge0 // subr_ge0 // ltW //; case/andP: h1.
have h2 : heats lo om tn2 i = false.
  by move: h1; rewrite /heats; case: (mode_eqb _ _) => //= /negbT; rewrite -leNgt => l; apply/negbTE; rewrite -leNgt (le_trans l).
case c2: (cools up om tn2 i).
  have [E2 c20 l20 z2 p2] := plan_cool H2 tnE2 c2.
  have hm : om i = COOLING by move: c2; rewrite /cools; case: (om i).
  have t2E : th2 i 0 = tn2 i 0 + ac i 0 * (up i 0 - tn2 i 0) by rewrite -E2 -r2 addrC subrK.
  case c1: (cools up om tn i).
    have [E c0 l0 z p] := plan_cool H tnE c1.
    have tE : th i 0 = tn i 0 + ac i 0 * (up i 0 - tn i 0) by rewrite -E -r1 addrC subrK.
    have EN : A * - lc i 0 + B * - lr i 0 = - (ac i 0 * (up i 0 - tn i 0)) by rewrite -E; fring.
    have EN2 : A * - lc2 i 0 + B * - lr2 i 0 = - (ac i 0 * (up i 0 - tn2 i 0)) by rewrite -E2; fring.
    have [||||||||a b] := @plan_le _ _ _ _ _ _ (capc i 0) (rc i) _ _ EN2 EN.
    + by move=> r; apply: B0; rewrite r orbT.
    + by rewrite ler_opp2 asked_le.
    + by rewrite oppr_ge0.
    + by rewrite oppr_ge0.
    + by move=> /z2 ->; rewrite oppr0.
    + by move=> /z ->; rewrite oppr0.
    + by move=> /p2 [[-> l]|->]; [left; rewrite oppr0 ler_oppl | right; rewrite opprK].
    + by move=> /p [[-> l]|->]; [left; rewrite oppr0 ler_oppl | right; rewrite opprK].
    rewrite !ler_opp2 in a b; split=> //; rewrite tE t2E -subr_ge0.
    have -> : tn2 i 0 + ac i 0 * (up i 0 - tn2 i 0) - (tn i 0 + ac i 0 * (up i 0 - tn i 0)) = (1 - ac i 0) * (tn2 i 0 - tn i 0) by fring.
    by rewrite mulr_ge0 // subr_ge0.
  have [e1 e2] := plan_off H tnE (negbT h1) (negbT c1); rewrite e1 e2; split=> //.
  move: r1; rewrite e1 e2 !mulr0 addr0 => /eqP; rewrite subr_eq0 => /eqP ->.
  have l1 : tn i 0 <= up i 0 by move: c1; rewrite /cools hm /= => /negbT; rewrite -leNgt.
  apply: le_trans l1 _; rewrite t2E -subr_ge0.
  have -> : tn2 i 0 + ac i 0 * (up i 0 - tn2 i 0) - up i 0 = (1 - ac i 0) * (tn2 i 0 - up i 0) by fring.
  by rewrite mulr_ge0 // subr_ge0 // ltW //; case/andP: c2.
have c1 : cools up om tn i = false.
  by move: c2; rewrite /cools; case: (mode_eqb _ _) => //= /negbT; rewrite -leNgt => l; apply/negbTE; rewrite -leNgt (le_trans warm).
have [e1 e2] := plan_off H tnE (negbT h1) (negbT c1); have [e3 e4] := plan_off H2 tnE2 (negbT h2) (negbT c2).
move: r1 r2; rewrite e1 e2 e3 e4 !mulr0 addr0 => /eqP; rewrite subr_eq0 => /eqP -> /eqP; rewrite subr_eq0 => /eqP ->.
by split.
Qed.
End Two.
End Plan.

Section TwoTicks.
Variable F : realFieldType.
Variables ni nj nm : nat.
Add Field Ffield1 : (ffield_theory F).
Ltac fring := ffold F; ring.
Variables (dt : F) (h : house F ni nj nm) (q : pp F ni nj).
Variables (ot : ot_fun F ni) (infil : infil_fun F ni) (x_sat : F -> F).
Variables (s s2 : step_data F ni nj) (c c' c2 : conditions F ni nj nm) (o o2 : outputs F ni nj).
Hypothesis Ht : run_tick ot infil x_sat dt h q s c = Some (c', o).
Hypothesis Ht2 : run_tick ot infil x_sat dt h q s2 c = Some (c2, o2).
Hypothesis caph : forall i, 0 <= cap_h h i 0.
Hypothesis capc : forall i, 0 <= cap_c h i 0.
Hypothesis eac : ac_demand s2 = ac_demand s.
Hypothesis eto : theta_o s2 = theta_o s.
Hypothesis evm : v_mec_local s2 = v_mec_local s.

(* both steps solve the same system, with other right hand sides *)
Lemma two_natural : exists c0 o0 c02 o02 k k2 xot hc hr md lo up,
  let v_out := o_v_leak o + v_mec h s + o_v_ntrl o in
  let brm := brm_non_vent q + smul (c_air F * rho_air F) (vdiag v_out + v_int h) in
  let kc := ediv hc (hc + hr) in let kr := ediv hr (hc + hr) in
  let brl_ot := brl q + brm *m (xot *m (cmul kr (f_mrt_hum_is_js h *m wsb q))) in
  [/\ run_tick (ot_off ot) infil x_sat dt h q s c = Some (c0, o0) /\ run_tick (ot_off ot) infil x_sat dt h q s2 c = Some (c02, o02),
      [/\ ot (x_r c) (operation_mode c) (theta_r c) (theta_mrt_hum c) (ac_demand s) = Some (hc, hr, md, lo, up),
          operation_mode c' = md, operation_mode c2 = md, o_h_hum_c o = hc & o_h_hum_r o = hr],
      inv (vdiag kc + cmul kr (f_mrt_hum_is_js h *m wsr q)) = Some xot,
      (brm *m xot) *m o_theta_ot o0 = k /\ (brm *m xot) *m o_theta_ot o02 = k2 &
      calc_next_temp_and_load (is_rad_h h) (is_rad_c h) k (brm *m xot) brl_ot lo up (cap_h h) (cap_c h)
        md (ac_demand s) = Some (o_theta_ot o, o_l_cs o, o_l_rs o) /\
      calc_next_temp_and_load (is_rad_h h) (is_rad_c h) k2 (brm *m xot) brl_ot lo up (cap_h h) (cap_c h)
        md (ac_demand s) = Some (o_theta_ot o2, o_l_cs o2, o_l_rs o2)].
Proof.
have [c0 [o0 [k [xot [hc [hr [md [lo [up /= [[H1 _] [otE mdE] xotE tnE H5]]]]]]]]]] := natural_step Ht caph capc.
have [c02 [o02 [k2 [xot2 [hc2 [hr2 [md2 [lo2 [up2 /= [[H12 _] [otE2 mdE2] xotE2 tnE2 H52]]]]]]]]]] := natural_step Ht2 caph capc.
have lE : o_v_leak o2 = o_v_leak o.
  case: (run_tickP Ht) => ? ? ? ? ? ? ? ? ? ? ? ? ? ? ? ? ? ? ? _ _ _ _ _ -> *.
  by case: (run_tickP Ht2) => ? ? ? ? ? ? ? ? ? ? ? ? ? ? ? ? ? ? ? _ _ _ _ _ -> *; rewrite eto.
rewrite eac otE in otE2; move: mdE2 xotE2 tnE2 H52; case: otE2 => <- <- <- <- <- mdE2 xotE2 tnE2 H52.
have nE : o_v_ntrl o2 = o_v_ntrl o.
  case: (run_tickP Ht) => ? ? ? ? ? ? ? ? ? ? ? ? ? ? ? ? ? ? ? _ e1 _ _ _ _ _ _ _ _ -> *.
  by case: (run_tickP Ht2) => ? ? ? ? ? ? ? ? ? ? ? ? ? ? ? ? ? ? ? _ e2 _ _ _ _ _ _ _ _ -> *; rewrite -e1 -e2 mdE mdE2.
have mE : v_mec h s2 = v_mec h s by rewrite /v_mec evm.
rewrite xotE in xotE2; case: xotE2 => ?; subst xot2.
rewrite lE nE mE eac in tnE2 H52.
have [hcE hrE] : o_h_hum_c o = hc /\ o_h_hum_r o = hr.
  case: (run_tickP Ht) => md' lo' up' ? ? ? ? ? ? ? ? ? ? ? ? ? ? ? ?.
  by rewrite otE => -[<- <-].
by exists c0, o0, c02, o02, k, k2, xot, hc, hr, md, lo, up.
Qed.

Lemma one_room_A i (hc hr : 'cV[F]_ni) (Y xot : 'M[F]_ni) : physical_boundaries h -> make_pp h dt = Some q -> physical_hum h ->
  (forall k, 0 <= hr k 0) -> (forall k, hr k 0 < hc k 0) -> sdd Y -> zmx Y ->
  inv (vdiag (ediv hc (hc + hr)) + cmul (ediv hr (hc + hr)) (f_mrt_hum_is_js h *m wsr q)) = Some xot ->
  0 < invmx (Y *m xot) i i.
Proof.
move=> Hb Hq Hh hr_ge0' hr_hc' sY zY xotE.
have [Yi YiE] := sdd_inv sY.
have [YY1 YY2] := inv_mulV YiE.
set X := vdiag _ + _ in xotE.
have [XX1 XX2] := inv_mulV xotE.
have uM : Y *m xot \in unitmx.
  by rewrite unitmx_mul sdd_unit //=; have [uX ->] := invP xotE; rewrite unitmx_inv.
have MiE : invmx (Y *m xot) = X *m Yi.
  have e : (X *m Yi) *m (Y *m xot) = 1%:M by rewrite mulmxA -(mulmxA X) YY2 mulmx1 XX1.
  by rewrite -[LHS]mul1mx -e mulmxK.
have sum_gt0 k : 0 < hc k 0 + hr k 0 by rewrite ltr_paddr // (le_lt_trans (hr_ge0' k)).
have kr0 k : 0 <= ediv hr (hc + hr) k 0 by rewrite mxE addE divr_ge0 // ltW.
have fw0 k l : 0 <= (f_mrt_hum_is_js h *m wsr q) k l.
  rewrite mxE; apply: sumr_ge0 => j _; rewrite mulr_ge0 ?(wsr_ge0 Hb Hq) //.
  by rewrite !mxE mulr_ge0 ?ler0n ?(ph_fh Hh).
have X0 k l : 0 <= X k l.
  rewrite /X addE vdiagE cmulE addr_ge0 ?mulr_ge0 //; case: ifP => // _.
  by rewrite mxE addE divr_ge0 // ltW // (le_lt_trans (hr_ge0' k)).
have Xd k : 0 < X k k.
  rewrite /X addE vdiagE eqxx cmulE ltr_paddr ?mulr_ge0 //.
  by rewrite mxE addE divr_gt0 // (le_lt_trans (hr_ge0' k)).
have Yi0 := sdd_z_pos sY zY YiE.
have Yid k : 0 < Yi k k by exact: (sdd_z_diag _ sY zY YiE).
rewrite MiE mxE (bigD1 i) //=; apply: ltr_paddr; first by apply: sumr_ge0 => k _; rewrite mulr_ge0.
by rewrite mulr_gt0.
Qed.

Lemma swap_gain (a g g2 b r k : 'cV[F]_ni) : a + g + b + r + k + (g2 - g) = a + g2 + b + r + k.
Proof. by apply/matrixP => i j; rewrite !mxE; fring. Qed.

(* the gains enter the right hand side unchanged, and nothing else *)
Lemma gains_k : same_but_gains s s2 -> exists k lo up xot,
  let v_out := o_v_leak o + v_mec h s + o_v_ntrl o in
  let brm := brm_non_vent q + smul (c_air F * rho_air F) (vdiag v_out + v_int h) in
  let kc := ediv (o_h_hum_c o) (o_h_hum_c o + o_h_hum_r o) in let kr := ediv (o_h_hum_r o) (o_h_hum_c o + o_h_hum_r o) in
  let brl_ot := brl q + brm *m (xot *m (cmul kr (f_mrt_hum_is_js h *m wsb q))) in
  [/\ inv (vdiag kc + cmul kr (f_mrt_hum_is_js h *m wsr q)) = Some xot,
      calc_next_temp_and_load (is_rad_h h) (is_rad_c h) k (brm *m xot) brl_ot lo up (cap_h h) (cap_c h)
        (operation_mode c') (ac_demand s) = Some (o_theta_ot o, o_l_cs o, o_l_rs o),
      calc_next_temp_and_load (is_rad_h h) (is_rad_c h) (k + (q_gen s2 - q_gen s)) (brm *m xot) brl_ot lo up (cap_h h) (cap_c h)
        (operation_mode c') (ac_demand s) = Some (o_theta_ot o2, o_l_cs o2, o_l_rs o2)
    & o_theta_ot o2 = o_theta_ot o -> o_l_rs o2 = o_l_rs o -> same_heat c' c2 /\ o_theta_s o2 = o_theta_s o].
Proof.
move=> [e1 e2 e3 e4 e5 e6 e7 e8]; move: Ht Ht2; rewrite /run_tick; cbv zeta.
have f1 : q_sol_js h s2 = q_sol_js h s by rewrite /q_sol_js e7.
have f2 : theta_dstrb h s2 = theta_dstrb h s by rewrite /theta_dstrb e8.
have f3 : q_sol_frt s2 = q_sol_frt s by rewrite /q_sol_frt e7.
have f4 : v_mec h s2 = v_mec h s by rewrite /v_mec e3.
have f5 : wsc h s2 (ivs_ax q) = wsc h s (ivs_ax q) by rewrite /wsc /crx f1 f2.
rewrite f1 f2 f3 f4 f5 e1 e2 e4 e5 e6.
case: (ot _ _ _ _ _) => [[[[[hc hr] md] lo] up]|//].
case xE: (inv _) => [xot|//].
set brm := dot _ xot; set brl' := brl q + _; set vv := _ + v_mec h s + _.
set k0 := dot (brm_non_vent q + _) _.
set ka := _ + q_gen s + _ + _; set kb := _ + q_gen s2 + _ + _.
case E1: (calc_next_temp_and_load _ _ _ _ _ _ _ _ _ _ _) => [[[t1 l1] r1]|//].
case: (inv _) => [b|//].
case: (get_dehumid_coeff _ _ _ _ _ _ _ _) => [b1 b2]; case: (inv (_ + b1)) => [i1|//] [<- <-].
case E2: (calc_next_temp_and_load _ _ _ _ _ _ _ _ _ _ _) => [[[t2 l2] r2]|//].
case: (get_dehumid_coeff _ _ _ _ _ _ _ _) => [b3 b4]; case: (inv (_ + b3)) => [i3|//] [<- <-].
exists (ka + k0), lo, up, xot; cbn [o_v_leak o_v_ntrl o_h_hum_c o_h_hum_r o_theta_ot o_l_cs o_l_rs o_theta_s operation_mode].
split=> [//|//||e9 e10].
  have kE : ka + k0 + (q_gen s2 - q_gen s) = kb + k0 by exact: swap_gain.
  by rewrite kE; exact: E2.
by subst t2 r2.
Qed.
End TwoTicks.

Section TwoSteps.
Variable F : realFieldType.
Variables ni nj nm : nat.
Variables (e0 : F) (infil : infil_fun F ni) (x_sat : F -> F) (dt : F) (h : house F ni nj nm).
Variables (s s2 : step_data F ni nj) (c c' c2 : conditions F ni nj nm) (o o2 : outputs F ni nj).
Let ot := get_ot_target_and_h_hum e0 (ni := ni).
Hypothesis Hs : core_step e0 infil x_sat dt h s c = Some (c', o).
Hypothesis Hs2 : core_step e0 infil x_sat dt h s2 c = Some (c2, o2).
Hypothesis caph : forall i, 0 <= cap_h h i 0.
Hypothesis capc : forall i, 0 <= cap_c h i 0.

Lemma heatedP (md : 'I_ni -> mode) (lo tn : 'cV[F]_ni) i : reflect (heated md lo tn i) (heats lo md tn i).
Proof. by apply: (iffP idP); rewrite /heated /heats; case: (md i) => //= -[]. Qed.
Lemma cooledP (md : 'I_ni -> mode) (up tn : 'cV[F]_ni) i : reflect (cooled md up tn i) (cools up md tn i).
Proof. by apply: (iffP idP); rewrite /cooled /cools; case: (md i) => //= -[]. Qed.

Lemma gains_replace c0 o0 c02 o02 hc hr md lo up : same_but_gains s s2 ->
  step (ot_off ot) infil x_sat dt h s c = Some (c0, o0) -> step (ot_off ot) infil x_sat dt h s2 c = Some (c02, o02) ->
  ot (x_r c) (operation_mode c) (theta_r c) (theta_mrt_hum c) (ac_demand s) = Some (hc, hr, md, lo, up) ->
  (forall i, (heated md lo (o_theta_ot o02) i <-> heated md lo (o_theta_ot o0) i)
    /\ (cooled md up (o_theta_ot o02) i <-> cooled md up (o_theta_ot o0) i)) ->
  (forall i, heated md lo (o_theta_ot o0) i \/ cooled md up (o_theta_ot o0) i ->
    ac_demand s i 0 = 1 \/ o_theta_ot o02 i 0 = o_theta_ot o0 i 0) ->
  (forall i, q_gen s2 i 0 <> q_gen s i 0 ->
    heated md lo (o_theta_ot o0) i /\ is_rad_h h i = false \/ cooled md up (o_theta_ot o0) i /\ is_rad_c h i = false) ->
  [/\ same_heat c' c2, o_theta_ot o2 = o_theta_ot o, o_theta_s o2 = o_theta_s o, o_l_rs o2 = o_l_rs o
    & forall i, o_l_cs o2 i 0 = o_l_cs o i 0 - (q_gen s2 i 0 - q_gen s i 0)].
Proof.
move=> sg N N2 otE same full dz; have [q [Hq Ht]] := stepP Hs; have [q2 [Hq2 Ht2]] := stepP Hs2.
have e : q2 = q by move: Hq2; rewrite Hq => -[].
rewrite {q2 Hq2}e in Ht2.
have [a0 [b0 [a2 [b2 [k [k2 [xot [hc' [hr' [md' [lo' [up' /= [[M M2] [otE' mE mE2 cE rE] xE [tE tE2] [C C2]]]]]]]]]]]]]] :=
  two_natural Ht Ht2 caph capc (sg_demand sg) (sg_theta_o sg) (sg_vent sg).
rewrite /ot in otE; rewrite otE in otE'; move: mE mE2 cE rE xE tE tE2 C C2; case: otE' => <- <- <- <- <- mE mE2 cE rE xE tE tE2 C C2.
have [_ ?] : c0 = a0 /\ o0 = b0 by move: N; rewrite /step Hq M => -[-> ->].
have [_ ?] : c02 = a2 /\ o02 = b2 by move: N2; rewrite /step Hq M2 => -[-> ->].
subst b0 b2.
have [k' [lo2 [up2 [xot2 /= [xE2 D D2 R]]]]] := gains_k Ht Ht2 sg.
rewrite cE rE in xE2 D D2; rewrite xE in xE2; move: D D2; case: xE2 => <- D D2.
have kE : k' = k by have := calc_balance D; rewrite (calc_balance C) => /addrI ->.
have k2E : k2 = k + (q_gen s2 - q_gen s) by have := calc_balance D2; rewrite (calc_balance C2) kE => /addrI ->.
rewrite k2E in tE2 C2.
have [] := calc_shift C C2 tE tE2.
- by move=> i; have [h1 h2] := same i; split; [apply/heatedP/heatedP => w|apply/cooledP/cooledP => w]; tauto.
- move=> i w; have [|->|->//] := full i; last by rewrite subrr !mulr0.
  by case/orP: w => [/heatedP|/cooledP]; tauto.
- move=> i; rewrite addE oppE subr_eq0 => /eqP /dz [[/heatedP w ->]|[/cooledP w ->]]; by rewrite w ?orbT.
move=> tE' lE' rE'; have [R1 R2] := R tE' rE'; split=> // i.
by rewrite lE' !addE !oppE addE oppE.
Qed.

Lemma gains_less i : physical_boundaries h -> physical_rooms dt h -> physical_air h s -> physical_hum h ->
  (forall tr to i, 0 <= infil tr to i 0) -> (forall i k, i != k -> v_int h i k = 0) ->
  (forall j, 0 <= k_eo h j 0 * (phi_t0 h j 0 + \sum_m phi_t1 h j m)) ->
  warmer s s2 -> 0 <= ac_demand s i 0 <= 1 ->
  (forall k, k != i -> operation_mode c' k <> HEATING /\ operation_mode c' k <> COOLING) ->
  (is_rad_h h i || is_rad_c h i -> physical_radiant h) ->
  [/\ o_l_cs o2 i 0 <= o_l_cs o i 0, o_l_rs o2 i 0 <= o_l_rs o i 0 & o_theta_ot o i 0 <= o_theta_ot o2 i 0].
Proof.
move=> Hb Hr Ha Hh i0 v0 k0 w a01 one rad.
have [q [Hq Ht]] := stepP Hs; have [q2 [Hq2 Ht2]] := stepP Hs2.
have e : q2 = q by move: Hq2; rewrite Hq => -[].
rewrite {q2 Hq2}e in Ht2.
have [a0 [b0 [a2 [b2 [k [k2 [xot [hc [hr [md [lo [up /= [[M M2] [otE mE mE2 cE rE] xE [tE tE2] [C C2]]]]]]]]]]]]]] :=
  two_natural Ht Ht2 caph capc (w_demand w) (w_air w) (w_vent w).
rewrite mE in one.
have hr0 l : 0 <= hr l 0 by rewrite -rE; exact: (core_hr_ge0 Hs).
have hrc l : hr l 0 < hc l 0 by rewrite -rE -cE; exact: (core_hr_lt Hs).
have vge l : 0 <= (o_v_leak o + v_mec h s + o_v_ntrl o) l 0 by rewrite /v_mec !addE; exact: (step_vout Hs).
set Y := brm_non_vent q + _ in tE tE2 C C2.
have sY : sdd Y by exact: (brm_sdd Hb Hr Hq vge).
have zY : zmx Y by exact: (brm_z Hb Hq).
have A0 := one_room_A i Hb Hq Hh hr0 hrc sY zY xE.
have N : step (ot_off ot) infil x_sat dt h s c = Some (a0, b0) by rewrite /step Hq.
have N2 : step (ot_off ot) infil x_sat dt h s2 c = Some (a2, b2) by rewrite /step Hq.
have [hcE hrE] : o_h_hum_c b0 = hc /\ o_h_hum_r b0 = hr.
  case: (run_tickP M) => md' lo' up' ? ? ? ? ? ? ? ? ? ? ? ? ? ? ? ?.
  by rewrite /ot_off otE => -[<- <-].
have off : equipment_off a0.
  move=> l; case: (run_tickP M) => md' lo' up' ? ? ? ? ? ? ? ? ? ? ? ? ? ? ? ?.
  by rewrite /ot_off otE => -[_ _ <- _ _] -> *; exact: off_mode_off.
have warm : o_theta_ot b0 i 0 <= o_theta_ot b2 i 0.
  apply: (aw_operative (step_warmer N N2 caph capc Hb Hr Ha Hh i0 v0 k0 off _ _ w)) => l; rewrite ?hcE ?hrE //.
  by apply: le_lt_trans (hrc l).
apply: (calc_mono caph capc one A0 _ a01 C C2 tE tE2 warm) => rr.
by have [] := one_room_gt0 Hb Hq i (rad rr) Hh hr0 hrc sY zY xE.
Qed.
End TwoSteps.
