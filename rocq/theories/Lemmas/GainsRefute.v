(* Witness against C76 in houses with air paths: more heat in a room lowers the cooling load of the room its air
   comes from; and a cooled house that meets the conditions of the positive half. *)
From Coq Require Import ZArith.
From mathcomp Require Import all_ssreflect ssralg ssrnum zmodp matrix.
From Coq Require Import Ring Field.
From Verif Require Import Model.OperationMode Model.Numpy Model.NextCondition Model.Dec Model.PreCalc
  Model.HeatExchanger Model.Tick Model.Step Model.OtTarget Model.CoreStep Spec.Physical Spec.Natural Spec.StepEq Spec.Warmer Spec.Gains.
From Verif Require Import Lemmas.FieldTac Lemmas.NumpyL Lemmas.DecL Lemmas.NextConditionL Lemmas.TickL
  Lemmas.TickBalance Lemmas.MMatrix Lemmas.TickTotal Lemmas.TickNatural Lemmas.StepL
  Lemmas.StepProps Lemmas.CoreStepL Lemmas.OtTargetL.
From Verif Require Import Examples.House2 Examples.House2Ex Lemmas.TickRefute Lemmas.DehumidRefute.
Set Implicit Arguments. Unset Strict Implicit. Unset Printing Implicit Defensive.
Import Order.TTheory GRing.Theory Num.Theory.
Local Open Scope ring_scope.

Section GainsRefute.
Variable F : realFieldType.
Add Field Ffield : (ffield_theory F).
Ltac fring := ffold F; ring.
Ltac ffield := ffold F; field.
Variables (e0 : F) (x_sat : F -> F).
Hypothesis e0_ge0 : 0 <= e0.
Local Notation c := (cd (start e0)).
Local Notation hd := (hd F).
Local Notation K := (K F).
Local Notation air := (air e0).
Local Notation target := (target e0).
Local Notation b := (B (start e0)).
Let ot := get_ot_target_and_h_hum e0 (ni := 2).

Lemma g_run (g : 'cV[F]_2) : exists c' o c0 o0 hc hr md lo up,
  [/\ core_step e0 (@infil2 F) x_sat 900%:R hd (sd g 0) c = Some (c', o)
      /\ step (ot_off ot) (@infil2 F) x_sat 900%:R hd (sd g 0) c = Some (c0, o0),
      ot (x_r c) (operation_mode c) (theta_r c) (theta_mrt_hum c) (ac_demand (sd g 0)) = Some (hc, hr, md, lo, up)
      /\ (forall i, md i = COOLING /\ up i 0 = target),
      (forall i, target < o_theta_ot o0 i 0 <-> air < theta_r c0 i 0),
      K * (theta_r c0 1 0 - air) = g 1 0 - (K * air - b)
      /\ K * (theta_r c0 0 0 - air) = g 0 0 - (K * air - b) - cap_air F * (1 / 60%:R * theta_r c0 1 0)
    & [/\ forall i, air < theta_r c0 i 0 -> theta_r c' i 0 = air, forall i, theta_r c0 i 0 <= air -> o_l_cs o i 0 = 0,
          K * theta_r c' 1 0 = b + g 1 0 + o_l_cs o 1 0
        & K * theta_r c' 0 0 + cap_air F * (1 / 60%:R * theta_r c' 1 0) = b + g 0 0 + o_l_cs o 0 0]].
Proof.
have [c' [o [Hs _]]] : exists c' o, step ot (@infil2 F) x_sat 900%:R hd (sd g 0) c = Some (c', o)
    /\ forall i, operation_mode c' i <> HEATING_AND_COOLING.
  apply: step_completes => //=.
  - by move=> i; rewrite mxE.
  - by move=> i; rewrite mxE.
  - exact: hd_boundaries.
  - exact: hd_rooms.
  - exact: house2_air.
  - exact: house2_hum.
  - by move=> tr to i; rewrite mxE divr_ge0 ?ler01 ?ler0n.
  - by left.
have cap0 i : 0 <= cap_h hd i 0 by rewrite mxE.
have cap0' i : 0 <= cap_c hd i 0 by rewrite mxE.
have [c0 [o0 [hc [hr [md [lo [up [[Hs0 [l0 r0]] [otE mdE] ld]]]]]]]] := step_load Hs cap0 cap0'.
have [hc2 [hr2 [md2 [lo2 [up2 [otE2 cool]]]]]] := d_ot x_sat e0_ge0.
have E : Some (hc, hr, md, lo, up) = Some (hc2, hr2, md2, lo2, up2) by exact: etrans (esym otE) otE2.
case: E cool => <- <- <- _ <- cool {otE2 hc2 hr2 md2 lo2 up2}.
have closed i : operation_mode c' i <> STOP_OPEN by rewrite mdE; have [-> _ _ _] := cool i.
have hs_gt0 : 0 < h_hum_c F + h_hum_r F by rewrite addr_gt0 ?h_hum_r_gt0 ?hc_gt0.
have hsn : h_hum_c F + h_hum_r F != 0 by rewrite gt_eqF.
have hcn : h_hum_c F != 0 by rewrite gt_eqF ?hc_gt0.
have airE : h_hum_c F * air / (h_hum_c F + h_hum_r F) = target.
  rewrite /DehumidRefute.air; move: hcn hsn; move: (h_hum_c F) (h_hum_r F) target => u v t /eqP u0 /eqP v0.
  by ffield; split.
have op (t : F) : h_hum_c F * t / (h_hum_c F + h_hum_r F) - target = (t - air) * (h_hum_c F / (h_hum_c F + h_hum_r F)).
  by rewrite -airE -mulrBl -mulrBr; fring.
have k0 : 0 < h_hum_c F / (h_hum_c F + h_hum_r F) by rewrite divr_gt0 ?hc_gt0.
have [closed0 hE0] : (forall i, operation_mode c0 i <> STOP_OPEN) /\
    forall i, o_h_hum_c o0 i 0 = h_hum_c F /\ o_h_hum_r o0 i 0 = h_hum_r F.
  have [q [Hq Ht]] := stepP Hs0; case: (run_tickP Ht) => ? ? ? ? ? ? ? ? ? ? ? ? ? ? ? ? ? ? ?.
  rewrite {1}/ot_off otE => -[<- <- <- _ _] -> *.
  by split=> i; have [m1 _ e3 e4] := cool i; rewrite ?m1 ?e3 ?e4.
have ot0 i : o_theta_ot o0 i 0 = h_hum_c F * theta_r c0 i 0 / (h_hum_c F + h_hum_r F).
  have [h1 h2] := hE0 i; have := step_operative Hs0 (i := i); rewrite h1 h2 => /(_ hsn) ->.
  by rewrite h1 h2 (d_mrt Hs0) mulr0 addr0.
have warm i : (target < o_theta_ot o0 i 0) = (air < theta_r c0 i 0).
  by rewrite -subr_gt0 ot0 op pmulr_lgt0 // subr_gt0.
have lr0 i : o_l_rs o i 0 = 0.
  have [m1 u1 _ _] := cool i; have := ld i; cbv zeta; rewrite m1 u1 => -[_ _ N [_ C _ _]].
  case w: (target < o_theta_ot o0 i 0); first by apply: C.
  by apply: (proj2 (N _ _)) => -[] //; rewrite w.
exists c', o, c0, o0, hc, hr, md, lo, up; split=> //.
- by split=> // i; have [] := cool i.
- by move=> i; rewrite warm.
- split.
    have := d_heat Hs0 closed0 (i := 1); rewrite l0 r0 (proj2 (sum_v10 _)) !mxE /= => /(_ erefl) E.
    by rewrite mulrBr -[K * theta_r _ _ _]addr0 -(mulr0 (cap_air F)) E; fring.
  have := d_heat Hs0 closed0 (i := 0); rewrite l0 r0 (proj1 (sum_v10 _)) !mxE /= => /(_ erefl) E.
  rewrite mulrBr -[K * theta_r _ _ _](addrK (cap_air F * (1 / 60%:R * theta_r c0 1 0))) E.
  by move: (1 / 60%:R * _) (K * air) (cap_air F) b => u v d e; fring.
split.
- move=> i w; have [m1 u1 _ _] := cool i; have := ld i; cbv zeta; rewrite m1 u1 => -[_ A _ _].
  have otT : o_theta_ot o i 0 = target by rewrite A ?warm //= mxE mul1r subrr mul0r addr0.
  have [h1 h2] := core_h Hs i; have := step_operative Hs (i := i); rewrite h1 h2 => /(_ hsn).
  rewrite /operative_is_mean h1 h2 (d_mrt Hs) mulr0 addr0 otT => /esym/eqP; rewrite -subr_eq0 op mulf_eq0.
  by rewrite (gt_eqF k0) orbF subr_eq0 => /eqP.
- move=> i w; have [m1 u1 _ _] := cool i; have := ld i; cbv zeta; rewrite m1 u1 => -[_ _ N _].
  by apply: (proj1 (N _ _)) => -[] //; rewrite warm ltNge w.
- by have := d_heat Hs closed (lr0 1); rewrite (proj2 (sum_v10 _)) mulr0 addr0.
by have := d_heat Hs closed (lr0 0); rewrite (proj1 (sum_v10 _)).
Qed.

(* room 1, not cooled, comes to the temperature air + w *)
Definition gw (w : F) : 'cV[F]_2 := \col_i
  (K * air - b + (if i == 0 then 1000%:R + cap_air F * (1 / 60%:R * air) else K * w)).

Lemma gw_load (w : F) : w <= 0 -> exists c' o,
  core_step e0 (@infil2 F) x_sat 900%:R hd (sd (gw w) 0) c = Some (c', o)
  /\ o_l_cs o 0 0 = cap_air F * (1 / 60%:R) * w - 1000%:R.
Proof.
move=> w0; have [c' [o [c0 [o0 [hc [hr [md [lo [up [[H _] _ _ [n1 n0] [A L h1 h0]]]]]]]]]]] := g_run (gw w).
exists c', o; split=> //; rewrite !mxE /= in n1 n0 h1 h0.
have Kn : K != 0 by rewrite gt_eqF ?K_gt0.
have t1 : theta_r c0 1 0 - air = w by apply: (mulfI Kn); rewrite n1; fring.
have q0 : theta_r c0 1 0 <= air by rewrite -subr_le0 t1.
have t1' : theta_r c' 1 0 = air + w.
  by apply: (mulfI Kn); rewrite h1 (L 1 q0); fring.
have w1 : air < theta_r c0 0 0.
  rewrite -subr_gt0 -(pmulr_rgt0 _ (K_gt0 F)) n0 (_ : theta_r c0 1 0 = air + w) -?t1 ?[air + _]addrC ?subrK //.
  have -> : K * air - b + (1000%:R + cap_air F * (1 / 60%:R * air)) - (K * air - b) - cap_air F * (1 / 60%:R * theta_r c0 1 0)
     = 1000%:R + cap_air F * (1 / 60%:R) * - (theta_r c0 1 0 - air) by move: (1 / 60%:R) 1000%:R => u v; fring.
  apply: ltr_paddr; last by rewrite ltr0n.
  by rewrite mulr_ge0 ?oppr_ge0 ?t1 // mulr_ge0 ?(ltW (cap_gt0 F)) ?divr_ge0 ?ler01 ?ler0n.
move: h0; rewrite t1' (A 0 w1) => h0.
have -> : o_l_cs o 0 0 = b + (K * air - b + (1000%:R + cap_air F * (1 / 60%:R * air))) + o_l_cs o 0 0
   - (b + (K * air - b + (1000%:R + cap_air F * (1 / 60%:R * air)))) by fring.
by rewrite -h0; move: (1 / 60%:R) 1000%:R => u v; fring.
Qed.

Lemma gains_refute : exists (h : house F 2 4 1) (s s2 : step_data F 2 4) (st c' c2 : conditions F 2 4 1) o o2,
  [/\ [/\ physical_boundaries h, physical_rooms 900%:R h, physical_air h s & physical_hum h],
      (forall i, is_rad_h h i = false /\ is_rad_c h i = false), same_but_gains s s2 /\ (forall i, q_gen s i 0 <= q_gen s2 i 0),
      core_step e0 (@infil2 F) x_sat 900%:R h s st = Some (c', o)
      /\ core_step e0 (@infil2 F) x_sat 900%:R h s2 st = Some (c2, o2)
    & o_l_cs o 0 0 < o_l_cs o2 0 0 < 0].
Proof.
have [c' [o [H1 L1]]] := gw_load (lerN10 _); have [c2 [o2 [H2 L2]]] := gw_load (lexx 0).
exists hd, (sd (gw (-1)) 0), (sd (gw 0) 0), c, c', c2, o, o2; split=> //.
- split; [exact: hd_boundaries|exact: hd_rooms|exact: house2_air|exact: house2_hum].
- by split=> // i; rewrite !mxE; case: ifP => // _; rewrite ler_add2l ler_pmul2l ?K_gt0 // lerN10.
have p : 0 < cap_air F * (1 / 60%:R) by rewrite mulr_gt0 ?cap_gt0 ?divr_gt0 ?ltr01 ?ltr0n.
by rewrite L1 L2 ltr_add2r ltr_pmul2l // ltrN10 mulr0 add0r oppr_lt0 ltr0n.
Qed.

(* both rooms cooled, in both cases *)
Definition ga (w : F) : 'cV[F]_2 := \col_i
  (K * air - b + (if i == 0 then cap_air F * (1 / 60%:R * (air + w)) else 0) + K * w).

Lemma ga_run (w : F) : 0 < w -> exists c' o c0 o0 hc hr md lo up,
  [/\ core_step e0 (@infil2 F) x_sat 900%:R hd (sd (ga w) 0) c = Some (c', o),
      step (ot_off ot) (@infil2 F) x_sat 900%:R hd (sd (ga w) 0) c = Some (c0, o0),
      ot (x_r c) (operation_mode c) (theta_r c) (theta_mrt_hum c) (const_mx 1) = Some (hc, hr, md, lo, up)
    & forall i, cooled md up (o_theta_ot o0) i].
Proof.
move=> w0; have [c' [o [c0 [o0 [hc [hr [md [lo [up [[H H0] [otE cE] W [n1 n0] _]]]]]]]]]] := g_run (ga w).
exists c', o, c0, o0, hc, hr, md, lo, up; split=> // i; rewrite !mxE /= in n1 n0.
have Kn : K != 0 by rewrite gt_eqF ?K_gt0.
have t1 : theta_r c0 1 0 = air + w by apply: (mulfI Kn); move: n1; rewrite mulrBr => /eqP; rewrite subr_eq => /eqP ->; fring.
have t0 : theta_r c0 0 0 = air + w.
  apply: (mulfI Kn); move: n0; rewrite t1 mulrBr => /eqP; rewrite subr_eq => /eqP ->.
  by move: (1 / 60%:R * _) => u; fring.
have [m u] := cE i; split=> //; rewrite u; apply/W; rewrite -subr_gt0.
case: i {m u} => [[|[|//]]] hi; [have -> : Ordinal hi = 0 by apply: val_inj|have -> : Ordinal hi = 1 by apply: val_inj].
  by rewrite t0 addrC addKr.
by rewrite t1 addrC addKr.
Qed.

Lemma gains_ex : exists c' o c2 o2 c0 o0 c02 o02 hc hr md lo up,
  [/\ core_step e0 (@infil2 F) x_sat 900%:R hd (sd (ga 1) 0) c = Some (c', o)
      /\ core_step e0 (@infil2 F) x_sat 900%:R hd (sd (ga 2%:R) 0) c = Some (c2, o2),
      step (ot_off ot) (@infil2 F) x_sat 900%:R hd (sd (ga 1) 0) c = Some (c0, o0)
      /\ step (ot_off ot) (@infil2 F) x_sat 900%:R hd (sd (ga 2%:R) 0) c = Some (c02, o02),
      [/\ same_but_gains (sd (ga 1) 0) (sd (ga 2%:R) 0), (forall i, ga 1 i 0 < ga 2%:R i 0)
          & ot (x_r c) (operation_mode c) (theta_r c) (theta_mrt_hum c) (ac_demand (sd (ga 1) 0)) = Some (hc, hr, md, lo, up)],
      (forall i, cooled md up (o_theta_ot o0) i /\ cooled md up (o_theta_ot o02) i)
    & forall i, is_rad_c hd i = false /\ ac_demand (sd (ga 1) 0) i 0 = 1].
Proof.
have [c' [o [c0 [o0 [hc [hr [md [lo [up [H1 H2 H3 H4]]]]]]]]]] := ga_run ltr01.
have [|c2 [o2 [c02 [o02 [hc2 [hr2 [md2 [lo2 [up2 [H5 H6 H7 H8]]]]]]]]]] := @ga_run 2%:R; first by rewrite ltr0n.
exists c', o, c2, o2, c0, o0, c02, o02, hc, hr, md, lo, up; rewrite H3 in H7; case: H7 => _ _ e1 _ e2.
split=> //.
- split=> // i; rewrite !mxE.
  have d : K * 1 < K * 2%:R by rewrite ltr_pmul2l ?K_gt0 // ltr1n.
  case: ifP => _; last by rewrite ltr_add2l.
  apply: ltr_add => //; rewrite ltr_add2l ltr_pmul2l ?cap_gt0 // ltr_pmul2l ?divr_gt0 ?ltr01 ?ltr0n //.
  by rewrite ltr_add2l ltr1n.
- by move=> i; split; [exact: H4|rewrite e1 e2; exact: H8].
by move=> i; rewrite !mxE.
Qed.
End GainsRefute.

(* only room 0 asks for heating; 200 W more in both rooms *)
Section One.
Variable F : realFieldType.
Definition step_more : step_data F 2 4 := {|
  theta_o := 5%:R; x_o := 3%:R / 1000%:R; v_mec_local := 0; q_gen := const_mx 300%:R;
  x_gen := const_mx (1 / 100000%:R); n_hum := const_mx 1; ac_demand := \col_i (i == 0)%:R;
  q_trs_sol := const_mx 200%:R; theta_o_sol := const_mx 6%:R |}.

Lemma gains_one_ex : exists (T : F) c' o c2 o2,
  [/\ core_step (1 / 8%:R) (@infil2 F) (@x_sat2 F) 900%:R (hx F) (@step_one F) (cond2 HEATING T) = Some (c', o)
      /\ core_step (1 / 8%:R) (@infil2 F) (@x_sat2 F) 900%:R (hx F) step_more (cond2 HEATING T) = Some (c2, o2),
      [/\ physical_boundaries (hx F), physical_rooms 900%:R (hx F), physical_air (hx F) (@step_one F) & physical_hum (hx F)],
      (forall i k, i != k -> v_int (hx F) i k = 0) /\ (forall j, 0 <= k_eo (hx F) j 0 * (phi_t0 (hx F) j 0 + \sum_m phi_t1 (hx F) j m)),
      warmer (@step_one F) step_more /\ ac_demand (@step_one F) 0 0 = 1
    & operation_mode c' 0 = HEATING /\ forall k, k != 0 -> operation_mode c' k <> HEATING /\ operation_mode c' k <> COOLING].
Proof.
have [t0 t1] := tenth F; have [T [c' [o [H P V m O]]]] := hx_one_ex F.
have [c2 [o2 H2]] : exists c' o, step (@ot2 F) (@infil2 F) (@x_sat2 F) 900%:R (hx F) step_more (cond2 HEATING T) = Some (c', o).
  apply: house2_step => //; [exact: pa_ge0|exact: four_gt0|exact: zero_ge0|exact: sum0_lt].
exists T, c', o, c2, o2; split=> //.
- by split=> //; have [_ [_ [_ [_ [_ _ _ _ k]]]]] := hx_warm_ex (0 : F).
- split; last by rewrite mxE.
  by split=> //= i; rewrite !mxE ler_nat.
Qed.
End One.
