(* Dehumidification in houses with air paths between rooms. *)
From mathcomp Require Import all_ssreflect ssralg ssrnum zmodp matrix.
From Coq Require Import Ring Field.
From Verif Require Import Model.OperationMode Model.Numpy Model.NextCondition Model.PreCalc
  Model.HeatExchanger Model.Tick Model.Step Spec.Physical Spec.Natural Spec.Coil.
From Verif Require Import Lemmas.FieldTac Lemmas.NumpyL Lemmas.NextConditionL Lemmas.TickL
  Lemmas.TickBalance Lemmas.MMatrix Lemmas.TickTotal Lemmas.TickMoist Lemmas.TickNatural Lemmas.StepProps.
Set Implicit Arguments. Unset Strict Implicit. Unset Printing Implicit Defensive.
Import Order.TTheory GRing.Theory Num.Theory.
Local Open Scope ring_scope.

Section DehumidL.
Variable F : realFieldType.
Variables ni nj nm : nat.
Add Field Ffield : (ffield_theory F).
Ltac fring := ffold F; ring.

Variable ot : ot_fun F ni.
Variable infil : infil_fun F ni.
Variable x_sat : F -> F.
Variables (dt : F) (h : house F ni nj nm) (s : step_data F ni nj).
Variables (c c' : conditions F ni nj nm) (o : outputs F ni nj).
Hypothesis Hs : step ot infil x_sat dt h s c = Some (c', o).

(* the humidity the decision is based on: what the rooms would have without dehumidification *)
Lemma step_latent_cases : exists x0 : 'cV[F]_ni,
  [/\ (forall i, let vo := o_v_leak o i 0 + (v_vent_ex h i 0 + v_mec_local s i 0) + o_v_ntrl o i 0 in
        let g := c_lh h i 0 * g_lh h i 0 / (c_lh h i 0 + dt * g_lh h i 0) in
        (rho_air F * (v_room h i 0 / dt + vo) + g) * x0 i 0 - rho_air F * (\sum_k v_int h i k * x0 k 0)
        = rho_air F * (v_room h i 0 / dt * x_r c i 0 + vo * x_o s) + g * x_frt c i 0 + x_gen s i 0 + o_x_hum o i 0),
      (forall i, let vo := o_v_leak o i 0 + (v_vent_ex h i 0 + v_mec_local s i 0) + o_v_ntrl o i 0 in
        let g := c_lh h i 0 * g_lh h i 0 / (c_lh h i 0 + dt * g_lh h i 0) in
        (rho_air F * (v_room h i 0 / dt + vo) + g) * x_r c' i 0 - rho_air F * (\sum_k v_int h i k * x_r c' k 0)
        = rho_air F * (v_room h i 0 / dt * x_r c i 0 + vo * x_o s) + g * x_frt c i 0 + x_gen s i 0 + o_x_hum o i 0
          + o_l_cl o i 0 / l_wtr F) &
      forall i, o_l_cl o i 0 = if (1 / 1000%:R < removed o i) && (coil_humidity x_sat h c' o i <= x0 i 0)
        then - (l_wtr F * (rho_air F * ((1 - bypass F) * airflow h o i)) * (x_r c' i 0 - coil_humidity x_sat h c' o i))
        else 0].
Proof.
have [q [Hq Ht]] := stepP Hs.
case: (run_tickP Ht) => md lo up ? ? v_out ? ? xot kc kr g_lat brmx0 brmx0i brmx brmxi brxc0 brmx_rac brxc_rac.
move=> _ _ _ _ _ _ _ _ _ _ _ vE _ _ _ _ _ _ _ _ _ _ _ _ gE m0E b0E /inv_mulV[m0i _] dE mE /inv_mulV[mi _] xE lE frtE.
have vEi i : v_out i 0 = o_v_leak o i 0 + (v_vent_ex h i 0 + v_mec_local s i 0) + o_v_ntrl o i 0.
  by rewrite vE /v_mec !mxE.
have rowE (y : 'cV[F]_ni) i : (brmx0 *m y) i 0
   = (rho_air F * (v_room h i 0 / dt + v_out i 0) + g_lat i 0) * y i 0 - rho_air F * (\sum_k v_int h i k * y k 0).
  rewrite m0E mulmxDl vdiag_mulE addE cmulE.
  have -> : smul (rho_air F) (vdiag (\matrix_(i, _) (v_room h i 0 / dt + v_out i 0)) - v_int h)
    = (rho_air F) *: (vdiag (\matrix_(i, _) (v_room h i 0 / dt + v_out i 0)) - v_int h).
    by apply/matrixP => a b; rewrite !mxE.
  rewrite -scalemxAl mulmxBl vdiag_mulE [X in X + _ = _]mxE subE cmulE matE [(v_int h *m _) _ _]mxE; fring.
have b0i i : brxc0 i 0 = rho_air F * (v_room h i 0 / dt * x_r c i 0 + v_out i 0 * x_o s) + g_lat i 0 * x_frt c i 0
    + x_gen s i 0 + o_x_hum o i 0 by rewrite b0E !addE matE.
have gi i : g_lat i 0 = c_lh h i 0 * g_lh h i 0 / (c_lh h i 0 + dt * g_lh h i 0) by rewrite gE matE.
exists (brmx0i *m brxc0); split=> i /=.
- by rewrite -vEi -gi -rowE mulmxA m0i mul1mx b0i.
- rewrite -vEi -gi -rowE -b0i.
  have : brmx *m x_r c' = brxc0 + brxc_rac by rewrite xE mulmxA mi mul1mx.
  rewrite mE mulmxDl => /matrixP/(_ i 0); rewrite !addE => E.
  rewrite lE smulE oppE subE mulrC mulKf; last by rewrite gt_eqF ?l_wtr_gt0.
  by rewrite -[LHS](addrK ((brmx_rac *m x_r c') i 0)) E; fring.
have [wE cE] := dehumid_rows dE.
change (o_l_cl o i 0 = if (1 / 1000%:R < - o_l_cs o i 0) && (coil_x x_sat h c' o i <= (brmx0i *m brxc0) i 0)
  then - (l_wtr F * (rho_air F * ((1 - bf F) * coil_flow h o i)) * (x_r c' i 0 - coil_x x_sat h c' o i)) else 0).
rewrite lE smulE oppE subE cE wE vdiag_mulE cmulE matE.
by case: ifP => _; fring.
Qed.

Lemma step_no_cooling i : removed o i <= 1 / 1000%:R -> o_l_cl o i 0 = 0.
Proof. by move=> r; have [x0 [_ _ ->]] := step_latent_cases; rewrite ltNge r. Qed.

Hypothesis Hr : physical_rooms dt h.
Hypothesis Ha : physical_air h s.
Hypothesis infil_ge0 : forall tr to i, 0 <= infil tr to i 0.
Hypothesis caph : forall i, 0 <= cap_h h i 0.
Hypothesis capc : forall i, 0 <= cap_c h i 0.

(* dehumidification never makes a room more humid than it would be with the equipment off *)
Lemma step_drier : exists c0 o0, step (ot_off ot) infil x_sat dt h s c = Some (c0, o0) /\
  o_l_cs o0 = 0 /\ o_l_rs o0 = 0 /\ forall i, x_r c' i 0 <= x_r c0 i 0.
Proof.
have [q [Hq Ht]] := stepP Hs; have v0 := step_vout Hs Ha infil_ge0.
have [c0 [o0 [? [? [? [? [? [? [? /= [[H1 [H2 H2']] _ _ _ _]]]]]]]]]] := natural_step Ht caph capc.
exists c0, o0; split; first exact: stepI Hq H1; split=> //; split=> //.
case: (run_tickP Ht) => md lo up ? ? v_out ? ? xot kc kr g_lat brmx0 brmx0i brmx brmxi brxc0 brmx_rac brxc_rac.
move=> otE _ _ _ xhE vlE _ _ _ _ vnE vE _ _ _ _ _ _ _ _ _ _ _ _ gE m0E b0E m0i dE mE mi xE lE frtE.
case: (run_tickP H1) => md2 lo2 up2 ? ? v_out2 ? ? xot2 kc2 kr2 g_lat2 brmx02 brmx0i2 brmx2 brmxi2 brxc02 brmx_rac2 brxc_rac2.
move=> otE2 _ _ _ xhE2 vlE2 _ _ _ _ vnE2 vE2 _ _ _ _ _ _ _ _ _ _ _ _ gE2 m0E2 b0E2 m0i2 dE2 mE2 mi2 xE2 lE2 frtE2.
have vnn : o_v_ntrl o0 = o_v_ntrl o.
  rewrite vnE vnE2; apply/matrixP => i j; rewrite !mxE.
  by move: otE2; rewrite /ot_off otE => -[_ _ <- _ _]; rewrite off_modeE.
have vv : v_out2 = v_out by rewrite vE vE2 vlE vlE2 vnn.
have gg : g_lat2 = g_lat by rewrite gE gE2.
have mm : brmx02 = brmx0 by rewrite m0E m0E2 vv gg.
have bb : brxc02 = brxc0 by rewrite b0E b0E2 vv gg xhE xhE2.
have [w2E c2E] := dehumid_rows dE2.
have off0 i : (1 / 1000%:R < - o_l_cs o0 i 0) = false.
  by rewrite H2 mxE oppr0; apply/negbTE; rewrite -leNgt divr_ge0 ?ler01 ?ler0n.
have r20 : brmx_rac2 = 0.
  by rewrite w2E; apply/matrixP => i j; rewrite vdiagE !matE off0 /= mxE; case: ifP.
have c20 : brxc_rac2 = 0.
  by apply/matrixP => i j; rewrite (ord1 j) c2E matE off0 /= mul0r mxE.
have x0E : brmx0 *m x_r c0 = brxc0.
  have [m1 _] := inv_mulV mi2; rewrite xE2 -mm -[X in X *m _](addr0 brmx02) -{1}r20 -mE2 mulmxA m1 mul1mx.
  by rewrite c20 addr0 bb.
have x0E' : brmx0i *m brxc0 = x_r c0.
  by have [_ m1] := inv_mulV m0i; rewrite -x0E mulmxA m1 mul1mx.
have [wE cE] := dehumid_rows dE.
have xE' : brmx *m x_r c' = brxc0 + brxc_rac by have [m1 _] := inv_mulV mi; rewrite xE mulmxA m1 mul1mx.
have v0' i : 0 <= v_out i 0 by rewrite vE /v_mec !mxE.
have g0 i : 0 <= g_lat i 0 by rewrite gE matE; exact: g_lat_ge0 Hr _.
pose w := (\matrix_(i, _) if (1 / 1000%:R < - o_l_cs o i 0) && (coil_x x_sat h c' o i <= (brmx0i *m brxc0) i 0)
    then rho_air F * ((1 - bf F) * coil_flow h o i) else 0) : 'cV[F]_ni.
have w0 i : 0 <= w i 0.
  rewrite matE; case: ifP => // /andP[/(coil_flow_ge0 Hr) f0 _].
  exact: mulr_ge0 (ltW (rho_air_gt0 F)) (mulr_ge0 (ltW (bf_lt1 F)) f0).
have gw0 i : 0 <= (g_lat + w) i 0 by rewrite addE addr_ge0.
have brE : brmx = smul (rho_air F) (vdiag (\matrix_(i, _) (v_room h i 0 / dt + v_out i 0)) - v_int h) + vdiag (g_lat + w).
  rewrite mE m0E wE -/w -addrA; congr (_ + _); apply/matrixP => i j; rewrite !mxE; case: (_ == _) => //.
  by rewrite addr0.
have Z := @brmx_z F ni nj nm dt h Hr v_out (g_lat + w); have S := brmx_sdd Hr v0' gw0; rewrite -brE in Z S.
move=> i; rewrite -subr_ge0.
have : 0 <= (x_r c0 - x_r c') i 0; last by rewrite subE.
move: i; apply: (sdd_z_monotone S Z) => i.
rewrite mulmxBr xE' {1}mE mulmxDl x0E subE !addE wE -/w vdiag_mulE cmulE cE -/w.
have -> : brxc0 i 0 + w i 0 * x_r c0 i 0 - (brxc0 i 0 + w i 0 * coil_x x_sat h c' o i)
  = w i 0 * (x_r c0 i 0 - coil_x x_sat h c' o i) by fring.
rewrite /w matE x0E'; case: ifP => [/andP[d1 d2]|_]; last by rewrite mul0r.
apply: mulr_ge0; last by rewrite subr_ge0.
exact: mulr_ge0 (ltW (rho_air_gt0 F)) (mulr_ge0 (ltW (bf_lt1 F)) (coil_flow_ge0 Hr d1)).
Qed.

End DehumidL.
