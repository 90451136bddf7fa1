(* Step-level forms of the lemmas about run_tick, in terms of the specifications. *)
From mathcomp Require Import all_ssreflect ssralg ssrnum zmodp matrix.
From Coq Require Import Ring Field.
From Verif Require Import Model.OperationMode Model.Numpy Model.NextCondition Model.PreCalc
  Model.HeatExchanger Model.Tick Model.Step Model.OtTarget Spec.Physical Spec.Natural Spec.StepEq
  Spec.Equil Spec.Coil Spec.Warmer.
From Verif Require Import Lemmas.FieldTac Lemmas.NumpyL Lemmas.NextConditionL Lemmas.TickL
  Lemmas.TickBalance Lemmas.MMatrix Lemmas.TickTotal Lemmas.TickMoist Lemmas.TickEquil
  Lemmas.TickNatural Lemmas.TickSign Lemmas.TickMono Lemmas.TickEnergy Lemmas.StepL Lemmas.OtTargetL.
Set Implicit Arguments. Unset Strict Implicit. Unset Printing Implicit Defensive.
Import Order.TTheory GRing.Theory Num.Theory.
Local Open Scope ring_scope.

Section StepProps.
Variable F : realFieldType.
Variables ni nj nm : nat.
Add Field Ffield : (ffield_theory F).
Ltac fring := ffold F; ring.

Lemma colE n (v : 'cV[F]_n) (f : 'I_n -> F) : (forall i, v i 0 = f i) -> v = \matrix_(i, _) f i.
Proof. by move=> e; apply/matrixP => i j; rewrite (ord1 j) mxE. Qed.
Lemma colc n (v : 'cV[F]_n) (a : F) : (forall i, v i 0 = a) -> v = const_mx a.
Proof. by move=> e; apply/matrixP => i j; rewrite (ord1 j) mxE. Qed.

Section One.
Variable ot : ot_fun F ni.
Variable infil : infil_fun F ni.
Variable x_sat : F -> F.
Variables (dt : F) (h : house F ni nj nm) (s : step_data F ni nj).
Variables (c c' : conditions F ni nj nm) (o : outputs F ni nj).
Hypothesis Hs : step ot infil x_sat dt h s c = Some (c', o).

Lemma step_hum i : o_q_hum o i 0 = q_hum_psn (theta_r c i 0) * n_hum s i 0 /\
  o_x_hum o i 0 = x_hum_psn (theta_r c i 0) * n_hum s i 0.
Proof.
have [q [Hq Ht]] := stepP Hs.
case: (run_tickP Ht) => ? ? ? ? ? ? ? ? ? ? ? ? ? ? ? ? ? ? ?.
by move=> _ _ _ -> -> *; rewrite !mxE.
Qed.

Lemma step_windows i : (operation_mode c' i = STOP_OPEN -> o_v_ntrl o i 0 = v_ntrl h i 0) /\
  (operation_mode c' i <> STOP_OPEN -> o_v_ntrl o i 0 = 0).
Proof.
have [q [Hq Ht]] := stepP Hs.
case: (run_tickP Ht) => md ? ? ? ? ? ? ? ? ? ? ? ? ? ? ? ? ? ?.
by move=> _ -> _ _ _ _ _ _ _ _ -> *; rewrite !mxE; case: (md i).
Qed.

Section Caps.
Hypothesis caph : forall i, 0 <= cap_h h i 0.
Hypothesis capc : forall i, 0 <= cap_c h i 0.

Lemma step_load :
  exists c0 o0 hc hr md lo up,
    [/\ step (ot_off ot) infil x_sat dt h s c = Some (c0, o0) /\ o_l_cs o0 = 0 /\ o_l_rs o0 = 0,
        ot (x_r c) (operation_mode c) (theta_r c) (theta_mrt_hum c) (ac_demand s) = Some (hc, hr, md, lo, up) /\
        operation_mode c' = md
      & forall i,
        let tn := o_theta_ot o0 i 0 in
        let a := ac_demand s i 0 in
        let heated := md i = HEATING /\ tn < lo i 0 in
        let cooled := md i = COOLING /\ up i 0 < tn in
        [/\ heated -> o_theta_ot o i 0 = a * lo i 0 + (1 - a) * tn,
            cooled -> o_theta_ot o i 0 = a * up i 0 + (1 - a) * tn,
            ~ heated -> ~ cooled -> o_l_cs o i 0 = 0 /\ o_l_rs o i 0 = 0
          & [/\ heated -> is_rad_h h i = false -> o_l_rs o i 0 = 0,
                cooled -> is_rad_c h i = false -> o_l_rs o i 0 = 0,
                heated -> is_rad_h h i -> o_l_cs o i 0 = 0 \/ o_l_rs o i 0 = cap_h h i 0 \/ o_l_rs o i 0 = - cap_c h i 0
              & cooled -> is_rad_c h i -> o_l_cs o i 0 = 0 \/ o_l_rs o i 0 = cap_h h i 0 \/ o_l_rs o i 0 = - cap_c h i 0]]].
Proof.
have [q [Hq Ht]] := stepP Hs; have [c0 [o0 [hc [hr [md [lo [up [E1 E2 E3]]]]]]]] := natural_load Ht caph capc.
exists c0, o0, hc, hr, md, lo, up; split=> //; case: E1 => e1 e2; split=> //; exact: stepI Hq e1.
Qed.

Lemma step_capacity i : (forall k, k != i -> is_rad_h h k = false /\ is_rad_c h k = false) ->
  - cap_c h i 0 <= o_l_rs o i 0 <= cap_h h i 0.
Proof.
move=> one; have [q [Hq Ht]] := stepP Hs.
case: (run_tickP Ht) => md lo up wsc wsv v_out brc brm xot kc kr ? ? ? ? ? ? ? ?.
move=> ? mdE ? ? ? ? ? ? ? ? ? ? ? ? ? ? ? Ec *.
exact: (calc_lr_one Ec caph capc one).
Qed.

Section Phys.
Hypothesis Hb : physical_boundaries h.
Hypothesis Hr : physical_rooms dt h.
Hypothesis Ha : physical_air h s.
Hypothesis infil_ge0 : forall tr to i, 0 <= infil tr to i 0.

Lemma step_vout i : 0 <= o_v_leak o i 0 + (v_vent_ex h i 0 + v_mec_local s i 0) + o_v_ntrl o i 0.
Proof.
have [q [Hq Ht]] := stepP Hs.
case: (run_tickP Ht) => md ? ? ? ? ? ? ? ? ? ? ? ? ? ? ? ? ? ?.
move=> _ _ _ _ _ -> _ _ _ _ -> *; have [a1 a2] := Ha i.
by apply: addr_ge0; [exact: addr_ge0|rewrite !mxE; case: ifP].
Qed.

Lemma step_sign i : physical_hum h -> (forall i k, i != k -> v_int h i k = 0) ->
  (forall i, 0 <= o_h_hum_r o i 0) -> (forall i, o_h_hum_r o i 0 < o_h_hum_c o i 0) ->
  0 <= ac_demand s i 0 ->
  (forall k, k != i -> operation_mode c' k <> HEATING /\ operation_mode c' k <> COOLING) ->
  (is_rad_h h i || is_rad_c h i -> physical_radiant h) ->
  (operation_mode c' i = HEATING -> 0 <= o_l_cs o i 0 /\ 0 <= o_l_rs o i 0) /\
  (operation_mode c' i = COOLING -> o_l_cs o i 0 <= 0 /\ o_l_rs o i 0 <= 0).
Proof.
move=> Hh v0 hr0 hrc a0 one rad; have [q [Hq Ht]] := stepP Hs.
exact: (tick_sign Hb Hr Hq Ht caph capc Hh step_vout v0 hr0 hrc a0 one rad).
Qed.

Lemma step_latent i : (forall k, i != k -> v_int h i k = 0) ->
  o_l_cl o i 0 =
    (if 1 / 1000%:R < removed o i
     then - (l_wtr F * (rho_air F * ((1 - bypass F) * airflow h o i))
             * Num.max 0 (x_r c' i 0 - coil_humidity x_sat h c' o i))
     else 0) /\ o_l_cl o i 0 <= 0.
Proof.
move=> v0; have [q [Hq Ht]] := stepP Hs; split; first exact: (latent_final Ht Hr step_vout v0).
exact: (latent_le0 Ht Hr step_vout v0).
Qed.

Lemma step_at_rest T : no_room_air h -> steady_walls h -> at_rest T h c -> quiet T s -> equipment_off c' ->
  [/\ at_rest T h c', (forall j, o_theta_s o j 0 = T) &
      ((forall i : 'I_ni, \sum_(j | conn h j == i) f_mrt_hum h j 0 = 1) -> forall i, theta_mrt_hum c' i 0 = T)].
Proof.
move=> v0 [sr sp sk] [r1 r2 r3 r4 r5 r6] [q1 q2 q3 q4 q5] off; have [q [Hq Ht]] := stepP Hs.
have e6 : theta_dsh_t c = \matrix_(j, m) (phi_t1 h j m / (1 - r_ms h j m) * T).
  by apply/matrixP => j m; rewrite r6 mxE.
have e5 : theta_dsh_a c = 0 by apply/matrixP => j m; rewrite r5 mxE.
have e1 := colc r1; have e2 := colc r2; have e3 := colc r3; have e4 := colc r4.
have f2 := colc q2; have f3 := colc q3; have f4 := colc q4; have f5 := colc q5.
have A := eq_room Hq Ht caph capc Hb Hr Ha infil_ge0 v0 sk sr sp off q1 f2 f3 f4 f5 e1 e2 e3 e4 e5 e6.
have B := eq_surf Hq Ht caph capc Hb Hr Ha infil_ge0 v0 sk sr sp off q1 f2 f3 f4 f5 e1 e2 e3 e4 e5 e6.
have C := eq_furn Hq Ht caph capc Hb Hr Ha infil_ge0 v0 sk sr sp off q1 f2 f3 f4 f5 e1 e2 e3 e4 e5 e6.
have D := eq_ei Hq Ht caph capc Hb Hr Ha infil_ge0 v0 sk sr sp off q1 f2 f3 f4 f5 e1 e2 e3 e4 e5 e6.
have E := eq_q Hq Ht caph capc Hb Hr Ha infil_ge0 v0 sk sr sp off q1 f2 f3 f4 f5 e1 e2 e3 e4 e5 e6.
split.
- split=> *; rewrite ?A ?C ?D ?E ?mxE //.
    by rewrite (eq_da Ht e4 e5) mxE.
  by rewrite (eq_dt Ht sk sr f2 e3 e6) e6 mxE.
- by move=> j; rewrite B mxE.
move=> h1 i; rewrite (eq_mrt Hq Ht caph capc Hb Hr Ha infil_ge0 v0 sk sr sp h1 off q1 f2 f3 f4 f5 e1 e2 e3 e4 e5 e6).
by rewrite mxE.
Qed.

End Phys.
End Caps.
End One.

Section Two.
Variable ot : ot_fun F ni.
Variable infil : infil_fun F ni.
Variable x_sat : F -> F.
Variables (dt : F) (h : house F ni nj nm) (s s2 : step_data F ni nj).
Variables (c c' c2 : conditions F ni nj nm) (o o2 : outputs F ni nj).
Hypothesis Hs : step ot infil x_sat dt h s c = Some (c', o).
Hypothesis Hs2 : step ot infil x_sat dt h s2 c = Some (c2, o2).

Lemma step_warmer : (forall i, 0 <= cap_h h i 0) -> (forall i, 0 <= cap_c h i 0) ->
  physical_boundaries h -> physical_rooms dt h -> physical_air h s -> physical_hum h ->
  (forall tr to i, 0 <= infil tr to i 0) -> (forall i k, i != k -> v_int h i k = 0) ->
  (forall j, 0 <= k_eo h j 0 * (phi_t0 h j 0 + \sum_m phi_t1 h j m)) ->
  equipment_off c' -> (forall i, 0 < o_h_hum_c o i 0) -> (forall i, 0 <= o_h_hum_r o i 0) ->
  warmer s s2 -> all_warmer c' c2 o o2.
Proof.
move=> ch cc Hb Hr Ha Hh i0 v0 k0 off hc hr [w1 w2 w3 w4 w5 w6 w7].
have [q [Hq Ht]] := stepP Hs; have [q2 [Hq2 Ht2]] := stepP Hs2.
have e : q2 = q by move: Hq2; rewrite Hq => -[].
rewrite e in Ht2; split=> i.
- exact: (room_mono Hq Ht Ht2 ch cc Hb Hr Ha i0 v0 k0 off w1 w2 w3 w4 w5 w6 w7).
- exact: (surf_mono Hq Ht Ht2 ch cc Hb Hr Ha i0 v0 k0 off w1 w2 w3 w4 w5 w6 w7).
- exact: (mrt_mono Hq Ht Ht2 ch cc Hb Hr Ha Hh i0 v0 k0 off w1 w2 w3 w4 w5 w6 w7).
- apply: (ot_mono Hq Ht Ht2 ch cc Hb Hr Ha Hh i0 v0 k0 off w1 w2 w3 w4 w5 w6 w7) => //; first exact: ltW.
  by rewrite gt_eqF // ltr_paddr.
exact: (furn_mono Hq Ht Ht2 ch cc Hb Hr Ha i0 v0 k0 off w1 w2 w3 w4 w5 w6 w7).
Qed.
End Two.

Section Total.
Variables (e0 : F) (infil : infil_fun F ni) (x_sat : F -> F).
Variables (dt : F) (h : house F ni nj nm) (s : step_data F ni nj) (c : conditions F ni nj nm).
Hypothesis ch : forall i, 0 <= cap_h h i 0.
Hypothesis cc : forall i, 0 <= cap_c h i 0.
Hypothesis Hb : physical_boundaries h.
Hypothesis Hr : physical_rooms dt h.
Hypothesis Ha : physical_air h s.
Hypothesis Hh : physical_hum h.
Hypothesis i0 : forall tr to i, 0 <= infil tr to i 0.
Hypothesis legal : forall i, 0 < ac_demand s i 0 -> operation_mode c i <> HEATING_AND_COOLING.
Local Notation ot := (get_ot_target_and_h_hum e0 (ni := ni)).

Lemma step_legal ot' c' o : (forall x m t tm a hc hr md lo up, ot' x m t tm a = Some (hc, hr, md, lo, up) ->
    forall i, md i <> HEATING_AND_COOLING) ->
  step ot' infil x_sat dt h s c = Some (c', o) -> forall i, operation_mode c' i <> HEATING_AND_COOLING.
Proof.
move=> H Hs; have [q [Hq Ht]] := stepP Hs.
case: (run_tickP Ht) => md lo up ? ? v_out ? ? xot kc kr ? ? ? ? ? ? ? ?.
by move=> otE -> *; exact: H otE _.
Qed.

Lemma step_completes : (forall i, is_rad_h h i || is_rad_c h i -> ac_demand s i 0 <= 0) \/
    [/\ physical_radiant h, (forall i k, i != k -> v_int h i k = 0) & exists i, forall k, k != i -> ac_demand s k 0 <= 0] ->
  exists c' o, step ot infil x_sat dt h s c = Some (c', o) /\ forall i, operation_mode c' i <> HEATING_AND_COOLING.
Proof.
move=> rad; have [q Hq] := make_pp_total dt Hb.
have [md [lo [up E]]] := ot_total e0 (x_r c) (theta_r c) (theta_mrt_hum c) legal.
have hr0 i : 0 <= (\matrix_(i, j) h_hum_r F : 'cV_ni) i 0 by rewrite mxE ltW // h_hum_r_gt0.
have hrc i : (\matrix_(i, j) h_hum_r F : 'cV_ni) i 0 < (\matrix_(i, j) h_hum_c F : 'cV_ni) i 0.
  by rewrite !mxE h_hum_r_lt_c.
have [[c' o] Ht] : exists r, run_tick ot infil x_sat dt h q s c = Some r.
  case: rad => [r|[Hrad no_int [i one]]].
    have off i : is_rad_h h i || is_rad_c h i -> md i = STOP_CLOSE by move=> /r; exact: ot_no_demand E.
    apply: (tick_total_conv Hb Hr Hq x_sat Hh Ha i0 E hr0 hrc _ _ ch cc) => i mi.
      by case: (is_rad_h h i) (off i) => // /(_ isT); rewrite mi.
    by case: (is_rad_c h i) (off i) => //; rewrite orbT => /(_ isT); rewrite mi.
  apply: (tick_total_one Hb Hr Hq x_sat Hh Ha i0 no_int Hrad ch cc E hr0 hrc (i := i)) => k /one r.
  by have -> : md k = STOP_CLOSE by exact: ot_no_demand E r.
have Hs := stepI Hq Ht; exists c', o; split=> //; apply: step_legal Hs => ? ? ? ? ? ? ? ? ? ? H.
by have [_ _] := ot_fixed_h H.
Qed.
End Total.

End StepProps.
