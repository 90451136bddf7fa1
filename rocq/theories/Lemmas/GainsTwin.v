(* Witness against C76 with two conditioned rooms: more heat in one room, more heating in the other. *)
From mathcomp Require Import all_ssreflect ssralg ssrnum zmodp matrix.
From Coq Require Import Ring Field ZArith.
From Verif Require Import Model.OperationMode Model.Numpy Model.Dec Model.NextCondition Model.PreCalc
  Model.HeatExchanger Model.Tick Model.Step Model.OtTarget Model.CoreStep Spec.Physical Spec.Natural Spec.Gains.
From Verif Require Import Lemmas.FieldTac Lemmas.NumpyL Lemmas.DecL Lemmas.NextConditionL Lemmas.TickL Lemmas.TickBalance Lemmas.MMatrix Lemmas.TickTotal
  Lemmas.LoadRefute Lemmas.OtTargetL Lemmas.StepProps Lemmas.CoreStepL Lemmas.ModeL Lemmas.ColdL Lemmas.ColdTarget Lemmas.TwinL Lemmas.GainsL Examples.House2 Examples.Twin.
Set Implicit Arguments. Unset Strict Implicit. Unset Printing Implicit Defensive.
Import Order.TTheory GRing.Theory Num.Theory.
Local Open Scope ring_scope.

Section GainsTwin.
Variable F : realFieldType.
Add Field Ffield : (ffield_theory F).
Ltac fring := ffold F; ring.
Variable e0 : F.
Hypothesis e0_ge0 : 0 <= e0.
Variable x_sat : F -> F.
Local Notation g := (g F).
Local Notation lam := (lam F).
Local Notation T := (tgt e0).

(* room 1 asks for the part a of its heating *)
Definition ta : F := lam / (lam + g).
Definition tac : 'cV[F]_2 := col2 1 ta.
Definition tg : 'cV[F]_2 := col2 (g * T) 0.
Definition tw_gain : step_data F 2 4 := {|
  theta_o := 0; x_o := 0; v_mec_local := 0; q_gen := tg; x_gen := 0; n_hum := 0; ac_demand := tac;
  q_trs_sol := 0; theta_o_sol := 0 |}.
Local Notation H := (twin (half F) false 0).

Lemma lam0 : 0 < lam. Proof. exact: lt_trans (g_gt0 F) (lam_gt F). Qed.
Lemma lg0 : 0 < lam + g. Proof. exact: addr_gt0 lam0 (g_gt0 F). Qed.
Lemma ta_gt0 : 0 < ta. Proof. exact: divr_gt0 lam0 lg0. Qed.
Lemma ta_lt1 : ta < 1. Proof. by rewrite ltr_pdivr_mulr ?lg0 // mul1r ltr_addl g_gt0. Qed.
Lemma tac_gt0 i : 0 < tac i 0.
Proof. by move: i; apply: all2; rewrite mxE /= ?ltr01 ?ta_gt0. Qed.

Lemma tw_total s : ac_demand s = tac -> physical_air H s -> exists c' o, core_step e0 (@infil2 F) x_sat 900%:R H s (tw_cond F) = Some (c', o).
Proof.
move=> ae ha; have [c' [o [Ho _]]] : exists c' o, core_step e0 (@infil2 F) x_sat 900%:R H s (tw_cond F) = Some (c', o)
    /\ forall i, operation_mode c' i <> HEATING_AND_COOLING.
  apply: step_completes; first [exact: twin_boundaries | exact: twin_rooms | exact: ha |
    exact: twin_hum (half_ge0 F) (half_le1 F) | by move=> tr to i; rewrite mxE divr_ge0 ?ler01 ?ler0n | by move=> i; rewrite mxE |
    by left | by []].
by exists c', o.
Qed.

Lemma twin_gains : exists c' o c2 o2,
  [/\ core_step e0 (@infil2 F) x_sat 900%:R H (tw_step tac) (tw_cond F) = Some (c', o),
      core_step e0 (@infil2 F) x_sat 900%:R H tw_gain (tw_cond F) = Some (c2, o2),
      (forall i, operation_mode c' i = HEATING /\ operation_mode c2 i = HEATING), o_l_rs o = 0 /\ o_l_rs o2 = 0
    & 0 < o_l_cs o 1 0 < o_l_cs o2 1 0].
Proof.
have ha : physical_air H tw_gain by exact: (twin_air _ _ _ tac).
have [c' [o H1]] := tw_total (s := tw_step tac) erefl (twin_air _ _ _ tac); have [c2 [o2 H2]] := tw_total (s := tw_gain) erefl ha.
exists c', o, c2, o2.
have [q [xot [md [lo [up [Hq Hx mdE fw _]]]]]] := twin_setup e0_ge0 x_sat false 0 (half_ge0 F) (half_le1 F) tac_gt0.
have [omE cE] := fw _ _ H1.
have [md' [lo' [up' [otE mdE']]]] := cold_ot e0_ge0 tac_gt0.
have cap0 : forall i, 0 <= cap_h H i 0 by move=> i; rewrite mxE.
have cap0' : forall i, 0 <= cap_c H i 0 by move=> i; rewrite mxE.
have [q1 [Hq1 Ht]] := stepP H1; have [q2 [Hq2 Ht2]] := stepP H2.
have e1 : q1 = q by move: Hq1; rewrite Hq => -[].
have e2 : q2 = q by move: Hq2; rewrite Hq => -[].
rewrite {q1 Hq1}e1 in Ht; rewrite {q2 Hq2}e2 in Ht2.
have [a0 [b0 [a2 [b2 [k [k2 [xot' [hc [hr [md2 [lo2 [up2 /= [_ [otE2 mE mE2 hcE hrE] xE [tE tE2] [C C2]]]]]]]]]]]]]] :=
  two_natural Ht Ht2 cap0 cap0' erefl erefl erefl.
have sg : same_but_gains (tw_step tac) tw_gain by [].
have [k' [lo3 [up3 [xot3 /= [xE3 D D2 _]]]]] := gains_k Ht Ht2 sg.
have E : Some (hc, hr, md2, lo2, up2) = Some (const_mx (h_hum_c F), const_mx (h_hum_r F), md', lo', up') by exact: etrans (esym otE2) otE.
case: E => e3 e4 e5 e6 e7; move: mE mE2 hcE hrE xE C C2; rewrite {}e3 {}e4 {}e5 {}e6 {}e7 => mE mE2 hcE hrE xE C C2.
rewrite hcE hrE xE in xE3 D D2; move: D D2; case: xE3 => <- D D2.
have kcE : ediv (const_mx (h_hum_c F)) (const_mx (h_hum_c F) + const_mx (h_hum_r F)) = const_mx (kc F) :> 'cV[F]_2.
  by apply/matrixP => i j; rewrite !mxE.
have krE : ediv (const_mx (h_hum_r F)) (const_mx (h_hum_c F) + const_mx (h_hum_r F)) = const_mx (kr F) :> 'cV[F]_2.
  by apply/matrixP => i j; rewrite !mxE.
rewrite kcE krE Hx in xE; rewrite krE in C C2 D D2; case: xE => xE; rewrite -{}xE in tE tE2 C C2 D D2.
have voE : o_v_leak o + v_mec H (tw_step tac) + o_v_ntrl o = const_mx (v0 F).
  case: (run_tickP Ht) => ? ? ? ? ? ? ? ? ? ? ? ? ? ? ? ? ? ? ? _ f1 _ _ _ -> _ _ _ _ -> *.
  apply/matrixP => i j; rewrite (ord1 j) !mxE -f1 mE.
  by have [-> _] := mdE' i; rewrite /= addr0 addr0.
rewrite voE in tE tE2 C C2 D D2.
set A := (_ + _) *m xot in tE tE2 C C2 D D2.
have AE : A = tw_a (half F) false 0 q (v0 F) xot by [].
have a10' : A 1 0 * 2%:R = g - lam by exact: (a10 Hq Hx).
have a11' : A 1 1 * 2%:R = g + lam by exact: (a11 Hq Hx).
have ae i : A i 0 + A i 1 = g by exact: (a_even Hq Hx).
have ao i : A i 0 - A i 1 = if i == 0 then lam else - lam by exact: (a_odd Hq Hx).
have kE : k' = k by have := calc_balance D; rewrite (calc_balance C) => /addrI ->.
have k0 : k = 0 by have := calc_balance cE; rewrite -AE (calc_balance C) => /addrI.
have k2E : k2 = tg by have := calc_balance D2; rewrite (calc_balance C2) kE k0 add0r => /addrI ->; rewrite subr0.
rewrite k0 in tE C; rewrite k2E in tE2 C2.
have T0 : 0 < T by exact: tgt_gt0.
have g0 := g_gt0 F; have l0 := lam0.
have c00 : forall i, 0 <= (0 : 'cV[F]_2) i 0 by move=> i; rewrite mxE.
set x := o_theta_ot b2 0 0; set y := o_theta_ot b2 1 0.
have r i : A i 0 * x + A i 1 * y = tg i 0 by rewrite -tE2 [RHS]mxE sum2.
have r0 : A 0 0 * x + A 0 1 * y = g * T by rewrite r mxE.
have r1 : A 1 0 * x + A 1 1 * y = 0 by rewrite r mxE.
have [s0 s1 d0 d1'] : [/\ A 0 0 + A 0 1 = g, A 1 0 + A 1 1 = g, A 0 0 - A 0 1 = lam & A 1 0 - A 1 1 = - lam] by rewrite !ae !ao.
have n2 : (2%:R : F) != 0 by rewrite pnatr_eq0.
have xy : x + y = T.
  apply: (mulfI (lt0r_neq0 g0)); apply: (mulfI n2); rewrite (_ : g * T = (A 0 0 * x + A 0 1 * y) + (A 1 0 * x + A 1 1 * y)) ; last by rewrite r0 r1 addr0.
  have x0 : A 0 1 = g - A 0 0 by rewrite -s0; fring.
  have x1 : A 1 1 = g - A 1 0 by rewrite -s1; fring.
  have x3 : A 0 0 * 2%:R = g + lam by rewrite -d0 x0; fring.
  rewrite x0 x1; transitivity ((A 0 0 * 2%:R + A 1 0 * 2%:R) * (x - y) + 4%:R * g * y); last by fring.
  by rewrite a10' x3; fring.
have dxy : lam * (x - y) = g * T.
  apply: (mulfI n2); rewrite (_ : g * T = (A 0 0 * x + A 0 1 * y) - (A 1 0 * x + A 1 1 * y)) ; last by rewrite r0 r1 subr0.
  have x0 : A 0 1 = g - A 0 0 by rewrite -s0; fring.
  have x1 : A 1 1 = g - A 1 0 by rewrite -s1; fring.
  have x3 : A 0 0 * 2%:R = g + lam by rewrite -d0 x0; fring.
  rewrite x0 x1; transitivity ((A 0 0 * 2%:R - A 1 0 * 2%:R) * (x - y)); last by fring.
  by rewrite a10' x3; fring.
have dlt : x - y < T.
  rewrite -(ltr_pmul2l l0) dxy ltr_pmul2r //; exact: lam_gt.
have dgt : 0 < x - y by rewrite -(pmulr_rgt0 _ l0) dxy mulr_gt0.
have y0 : 0 < y.
  rewrite -(pmulr_rgt0 _ (ltr0Sn F 1)); have -> : 2%:R * y = (x + y) - (x - y) by fring.
  by rewrite xy subr_gt0.
have xT : x < T by rewrite -xy ltr_addl.
have yT : y < T.
  rewrite -xy ltr_addr; apply: lt_trans y0 _; by rewrite -subr_gt0.
have hh i : heats lo' md' (o_theta_ot b2) i.
  rewrite /heats; have [-> ->] := mdE' i; move: i; exact: all2.
have V : o_theta_ot b0 = 0.
  have [V VE] := a_unit Hq Hx; have [_ VA] := inv_mulV VE.
  by rewrite -[LHS]mul1mx -VA -mulmxA -AE tE mulmx0.
rewrite {b0}V in tE.
have h0 i : heats lo' md' 0 i by rewrite /heats; have [-> ->] := mdE' i; rewrite mxE.
have lr : o_l_rs o = 0.
  by apply/matrixP => i j; rewrite (ord1 j) [RHS]mxE; apply: (calc_convective C c00 c00 tE); rewrite h0.
have lr2 : o_l_rs o2 = 0.
  by apply/matrixP => i j; rewrite (ord1 j) [RHS]mxE; apply: (calc_convective C2 c00 c00 tE2); rewrite hh.
have t i : o_theta_ot o i 0 = T * tac i 0.
  by have [-> //] := calc_set C i tE; rewrite /tset; have [_ ->] := mdE' i; rewrite [X in _ + X * _]mxE mul0r addr0.
have t2 i : o_theta_ot o2 i 0 = T * tac i 0 + o_theta_ot b2 i 0 * (1 - tac i 0).
  by have [-> //] := calc_set C2 i tE2; rewrite /tset; have [_ ->] := mdE' i.
have L1 : o_l_cs o 1 0 = A 1 0 * T + A 1 1 * (T * ta).
  have /(congr1 (fun w : 'cV_2 => w 1 0)) := calc_balance C.
  by rewrite /= lr mulmx0 !addr0 mxE sum2 !t ![tac _ _]mxE /= mulr1.
have L2 : o_l_cs o2 1 0 = A 1 0 * T + A 1 1 * (T * ta + y * (1 - ta)).
  have /(congr1 (fun w : 'cV_2 => w 1 0)) := calc_balance C2.
  rewrite /= lr2 mulmx0 addr0 [RHS]addE [tg _ _]mxE /= addr0 => <-.
  by rewrite mxE sum2 !t2 ![tac _ _]mxE /= subrr mulr0 addr0 mulr1.
have taE : ta * (lam + g) = lam by rewrite /ta divfK // gt_eqF ?lg0.
have p1 : o_l_cs o 1 0 * 2%:R = g * T.
  rewrite L1; transitivity (A 1 0 * 2%:R * T + A 1 1 * 2%:R * ta * T); first by fring.
  rewrite a10' a11' [g + lam]addrC [(lam + g) * ta]mulrC taE; fring.
have p2 : (o_l_cs o2 1 0 - o_l_cs o 1 0) * 2%:R = g * y.
  rewrite L1 L2; transitivity (A 1 1 * 2%:R * y * (1 - ta)); first by fring.
  rewrite a11'; transitivity (y * ((lam + g) - ta * (lam + g))); first by fring.
  by rewrite taE; fring.
split=> //; first by move=> i; rewrite mE mE2; have [-> _] := mdE' i.
have two0 : (0 : F) < 2%:R by rewrite ltr0Sn.
by rewrite -(pmulr_lgt0 _ two0) p1 mulr_gt0 //= -subr_gt0 -(pmulr_lgt0 _ two0) p2 mulr_gt0.
Qed.

Lemma rooms_refute : exists (h : house F 2 4 1) (s s2 : step_data F 2 4) (c c' c2 : conditions F 2 4 1) o o2,
  [/\ [/\ physical_boundaries h, physical_rooms 900%:R h, physical_air h s & physical_hum h],
      (forall i, is_rad_h h i = false /\ is_rad_c h i = false) /\ (forall i k, v_int h i k = 0),
      same_but_gains s s2 /\ (forall i, q_gen s i 0 <= q_gen s2 i 0 /\ 0 < ac_demand s i 0 <= 1),
      core_step e0 (@infil2 F) x_sat 900%:R h s c = Some (c', o)
      /\ core_step e0 (@infil2 F) x_sat 900%:R h s2 c = Some (c2, o2)
    & exists i, 0 < o_l_cs o i 0 < o_l_cs o2 i 0].
Proof.
have [c' [o [c2 [o2 [H1 H2 _ _ H5]]]]] := twin_gains.
exists H, (tw_step tac), tw_gain, (tw_cond F), c', c2, o, o2; split=> //; last by exists 1.
- split; [exact: twin_boundaries|exact: twin_rooms|exact: twin_air|exact: twin_hum (half_ge0 F) (half_le1 F)].
- by split=> // i k; rewrite mxE.
split=> // i; split.
  by move: i; apply: all2; rewrite !mxE //= mulr_ge0 ?(ltW (g_gt0 F)) ?ltW ?tgt_gt0.
by rewrite tac_gt0 /=; move: i; apply: all2; rewrite mxE //= ltW ?ta_lt1.
Qed.
End GainsTwin.
