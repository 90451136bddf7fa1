(* Bounds on the humidity of rooms and furniture. *)
From Coq Require Import ZArith Ring Field Lia.
From mathcomp Require Import all_ssreflect ssralg ssrnum zmodp matrix.
From Verif Require Import Model.OperationMode Model.Numpy Model.NextCondition Model.PreCalc
  Model.HeatExchanger Model.Tick Model.Step Model.OtTarget Model.CoreStep Model.Ground Model.Dec Model.Py
  Model.CoreLoop Model.CoreCalc Spec.Physical Spec.Natural Spec.Coil Spec.StepEq Spec.Simulation.
From Verif Require Import Lemmas.FieldTac Lemmas.NumpyL Lemmas.NextConditionL Lemmas.TickL
  Lemmas.TickBalance Lemmas.MMatrix Lemmas.TickTotal Lemmas.TickMoist Lemmas.TickNatural Lemmas.StepL
  Lemmas.StepProps Lemmas.DehumidL Lemmas.CoreStepL Lemmas.CoreCalcL.
Set Implicit Arguments. Unset Strict Implicit. Unset Printing Implicit Defensive.
Import Order.TTheory GRing.Theory Num.Theory.
Local Open Scope ring_scope.

Section HumidityL.
Variable F : realFieldType.
Variables ni nj nm : nat.
Add Field Ffield : (ffield_theory F).
Ltac fring := ffold F; ring.
Ltac ffield := ffold F; field.

Lemma x_hum_psn_ge0 (t : F) : 0 <= x_hum_psn t.
Proof. by rewrite /x_hum_psn divr_ge0 ?(ltW (l_wtr_gt0 F)) // subr_ge0 /q_hum_psn le_minl lexx orbT. Qed.

(* what the moist-air balance of a step says, coil included *)
Section Step.
Variable ot : ot_fun F ni.
Variable infil : infil_fun F ni.
Variable x_sat : F -> F.
Variables (dt : F) (h : house F ni nj nm) (s : step_data F ni nj).
Variables (c c' : conditions F ni nj nm) (o : outputs F ni nj).
Hypothesis Hs : step ot infil x_sat dt h s c = Some (c', o).
Hypothesis Hr : physical_rooms dt h.
Hypothesis Ha : physical_air h s.
Hypothesis infil_ge0 : forall tr to i, 0 <= infil tr to i 0.

Definition vout (o : outputs F ni nj) i := o_v_leak o i 0 + (v_vent_ex h i 0 + v_mec_local s i 0) + o_v_ntrl o i 0.
Definition glat i := c_lh h i 0 * g_lh h i 0 / (c_lh h i 0 + dt * g_lh h i 0).

Lemma step_x_hum i : o_x_hum o i 0 = x_hum_psn (theta_r c i 0) * n_hum s i 0.
Proof.
have [q [Hq Ht]] := stepP Hs; case: (run_tickP Ht) => *.
by match goal with E : o_x_hum o = _ |- _ => rewrite E matE end.
Qed.

Lemma vout_ge0 i : 0 <= vout o i. Proof. exact: (step_vout Hs Ha infil_ge0 i). Qed.
Lemma glat_ge0 i : 0 <= glat i. Proof. exact: g_lat_ge0 Hr i. Qed.

Lemma humid_rows : exists w : 'cV[F]_ni, (forall i, 0 <= w i 0) /\
  (forall i, w i 0 != 0 -> 1 / 1000%:R < removed o i) /\
  forall i, (rho_air F * (v_room h i 0 / dt + vout o i) + (glat i + w i 0)) * x_r c' i 0
      - rho_air F * (\sum_k v_int h i k * x_r c' k 0)
    = rho_air F * (v_room h i 0 / dt * x_r c i 0 + vout o i * x_o s) + glat i * x_frt c i 0 + x_gen s i 0
      + o_x_hum o i 0 + w i 0 * coil_humidity x_sat h c' o i.
Proof.
have [x0 [_ H2 H3]] := step_latent_cases Hs.
pose d i := (1 / 1000%:R < removed o i) && (coil_humidity x_sat h c' o i <= x0 i 0).
exists (\matrix_(i, _) if d i then rho_air F * ((1 - bypass F) * airflow h o i) else 0).
have bf1 : 0 <= 1 - bypass F by exact: ltW (bf_lt1 F).
split=> [i|].
  rewrite matE; case: ifP => // /andP[/(coil_flow_ge0 Hr) f0 _].
  exact: mulr_ge0 (ltW (rho_air_gt0 F)) (mulr_ge0 bf1 f0).
split=> i; rewrite matE; first by case: ifP => [/andP[] //|]; rewrite eqxx.
have := H2 i; have := H3 i; rewrite -/(vout o i) -/(glat i) -/(d i) /=; case: (d i) => -> H; last first.
  by rewrite addr0 mul0r addr0; move: H; rewrite mul0r addr0.
move: H; have /eqP l0 : l_wtr F != 0 by rewrite gt_eqF ?l_wtr_gt0.
set S := \sum_k _; set A := rho_air F * ((1 - bypass F) * _).
move: (x_r c' i 0) (coil_humidity _ _ _ _ _) => xi co.
have -> : - (l_wtr F * A * (xi - co)) / l_wtr F = - (A * (xi - co)) by ffield.
set L := rho_air F * _ + _; set B := _ + o_x_hum o i 0 => H.
have -> : (rho_air F * (v_room h i 0 / dt + vout o i) + (glat i + A)) * xi - rho_air F * S
  = (L * xi - rho_air F * S) + A * xi by rewrite /L; fring.
rewrite H; fring.
Qed.

Lemma frt_new i : x_frt c' i 0 = (c_lh h i 0 * x_frt c i 0 + dt * g_lh h i 0 * x_r c' i 0) / (c_lh h i 0 + dt * g_lh h i 0).
Proof.
have d0 := ph_dt Hr; have c0 := ph_c_lh Hr i; have g0 := ph_g_lh Hr i.
have n0 : c_lh h i 0 + dt * g_lh h i 0 != 0 by rewrite gt_eqF // ltr_paddr // mulr_ge0 // ltW.
have dn : dt != 0 by rewrite gt_eqF.
have := step_furniture_moisture Hs dn n0; rewrite /furniture_moisture_balance.
move: n0 dn; move: (c_lh h i 0) (g_lh h i 0) (x_frt c i 0) (x_frt c' i 0) (x_r c' i 0) => a g y y' x n0 dn E.
apply/(mulIf n0); rewrite divfK //.
have -> : y' * (a + dt * g) = a * (y' - y) / dt * dt + a * y + dt * g * y' by rewrite divfK //; fring.
rewrite E; fring.
Qed.

Lemma frt_ge m i : m <= x_frt c i 0 -> m <= x_r c' i 0 -> m <= x_frt c' i 0.
Proof.
move=> m1 m2; have d0 := ph_dt Hr; have c0 := ph_c_lh Hr i; have g0 := ph_g_lh Hr i.
have n0 : 0 < c_lh h i 0 + dt * g_lh h i 0 by rewrite ltr_paddr // mulr_ge0 // ltW.
rewrite frt_new ler_pdivl_mulr // mulrDr; apply: ler_add; rewrite mulrC ler_wpmul2l //; first exact: ltW.
by rewrite mulr_ge0 // ltW.
Qed.

Lemma frt_le m i : x_frt c i 0 <= m -> x_r c' i 0 <= m -> x_frt c' i 0 <= m.
Proof.
move=> m1 m2; have d0 := ph_dt Hr; have c0 := ph_c_lh Hr i; have g0 := ph_g_lh Hr i.
have n0 : 0 < c_lh h i 0 + dt * g_lh h i 0 by rewrite ltr_paddr // mulr_ge0 // ltW.
rewrite frt_new ler_pdivr_mulr // mulrDr; apply: ler_add; rewrite [leRHS]mulrC ler_wpmul2l //; first exact: ltW.
by rewrite mulr_ge0 // ltW.
Qed.

(* no room becomes drier than the driest of: itself, the other rooms, the furniture, the outdoor air,
   the coils at work *)
Lemma step_not_drier m : 0 <= m -> m <= x_o s ->
  (forall i, m <= x_r c i 0) -> (forall i, m <= x_frt c i 0) ->
  (forall i, 0 <= x_gen s i 0) -> (forall i, 0 <= n_hum s i 0) ->
  (forall i, 1 / 1000%:R < removed o i -> m <= coil_humidity x_sat h c' o i) ->
  (forall i, m <= x_r c' i 0) /\ (forall i, m <= x_frt c' i 0).
Proof.
move=> m0 mo mr mf gen hum coil.
have [w [w0 [wc E]]] := humid_rows.
suff H i : m <= x_r c' i 0 by split=> // i; apply: frt_ge.
pose v : 'cV[F]_ni := \matrix_(k, _) vout o k; pose g : 'cV[F]_ni := \matrix_(k, _) glat k.
have v0 k : 0 <= v k 0 by rewrite matE vout_ge0.
have gw0 k : 0 <= (g + w) k 0 by rewrite addE addr_ge0 // matE glat_ge0.
have Z := @brmx_z F ni nj nm dt h Hr v (g + w); have S := brmx_sdd Hr v0 gw0.
have : 0 <= (x_r c' - const_mx m) i 0; last by rewrite subE mxE subr_ge0.
move: i; apply: (sdd_z_monotone S Z) => i.
have rowE (y : 'cV[F]_ni) : ((smul (rho_air F) (vdiag (\matrix_(i, _) (v_room h i 0 / dt + v i 0)) - v_int h)
    + vdiag (g + w)) *m y) i 0
   = (rho_air F * (v_room h i 0 / dt + vout o i) + (glat i + w i 0)) * y i 0 - rho_air F * (\sum_k v_int h i k * y k 0).
  rewrite mulmxDl vdiag_mulE addE cmulE addE.
  have -> : smul (rho_air F) (vdiag (\matrix_(i, _) (v_room h i 0 / dt + v i 0)) - v_int h)
    = (rho_air F) *: (vdiag (\matrix_(i, _) (v_room h i 0 / dt + v i 0)) - v_int h).
    by apply/matrixP => a b; rewrite !mxE.
  rewrite -scalemxAl mulmxBl vdiag_mulE [X in X + _ = _]mxE subE cmulE !matE [(v_int h *m _) _ _]mxE; fring.
rewrite mulmxBr subE !rowE E mxE subr_ge0.
have -> : \sum_k v_int h i k * (const_mx m : 'cV[F]_ni) k 0 = (\sum_k v_int h i k) * m.
  by rewrite mulr_suml; apply: eq_bigr => k _; rewrite mxE.
have sv : 0 <= \sum_k v_int h i k by apply: sumr_ge0 => k _; exact: ph_v_int Hr i k.
have r0 := ltW (rho_air_gt0 F); have vr0 : 0 <= v_room h i 0 / dt by rewrite divr_ge0 // ltW ?(ph_room Hr) ?(ph_dt Hr).
have hm : 0 <= o_x_hum o i 0 by rewrite step_x_hum mulr_ge0 // x_hum_psn_ge0.
have cm : w i 0 * m <= w i 0 * coil_humidity x_sat h c' o i.
  by have [->|/wc/coil H] := eqVneq (w i 0) 0; [rewrite !mul0r | rewrite ler_wpmul2l].
have -> : (rho_air F * (v_room h i 0 / dt + vout o i) + (glat i + w i 0)) * m - rho_air F * ((\sum_k v_int h i k) * m)
  = rho_air F * (v_room h i 0 / dt * m + vout o i * m) + glat i * m + w i 0 * m - rho_air F * ((\sum_k v_int h i k) * m) by fring.
apply: le_trans (_ : _ <= rho_air F * (v_room h i 0 / dt * m + vout o i * m) + glat i * m + w i 0 * m) _.
  by rewrite ler_subl_addr ler_addl; apply: mulr_ge0 => //; apply: mulr_ge0.
apply: ler_add => //; rewrite -[leLHS]addr0; apply: ler_add => //; rewrite -[leLHS]addr0; apply: ler_add => //.
apply: ler_add; last by rewrite ler_wpmul2l ?glat_ge0.
by apply: ler_wpmul2l => //; apply: ler_add; rewrite ler_wpmul2l ?vout_ge0.
Qed.

(* without sources, a room that receives no air from other rooms does not become more humid than itself,
   its furniture and the outdoor air *)
Lemma step_not_moister i M : (forall k, v_int h i k = 0) -> x_gen s i 0 = 0 -> n_hum s i 0 = 0 ->
  x_o s <= M -> x_r c i 0 <= M -> x_frt c i 0 <= M -> x_r c' i 0 <= M /\ x_frt c' i 0 <= M.
Proof.
move=> vi gen hum Mo Mr Mf; suff H : x_r c' i 0 <= M by split=> //; exact: frt_le.
have [_ lcl] := step_latent Hs Hr Ha infil_ge0 (fun k _ => vi k).
have [x0 [_ H2 _]] := step_latent_cases Hs; move/(_ i): H2; rewrite -/(vout o i) -/(glat i) /=.
rewrite step_x_hum hum mulr0 gen big1 => [|k _]; last by rewrite vi mul0r.
rewrite mulr0 subr0 !addr0 => E.
have r0 := rho_air_gt0 F; have vr0 : 0 < v_room h i 0 / dt by rewrite divr_gt0 ?(ph_room Hr) ?(ph_dt Hr).
have L0 : 0 < rho_air F * (v_room h i 0 / dt + vout o i) + glat i.
  by rewrite ltr_paddr ?glat_ge0 // mulr_gt0 // ltr_paddr // vout_ge0.
rewrite -(ler_pmul2l L0) E.
have -> : (rho_air F * (v_room h i 0 / dt + vout o i) + glat i) * M
  = rho_air F * (v_room h i 0 / dt * M + vout o i * M) + glat i * M by fring.
rewrite -[leRHS]addr0; apply: ler_add.
  apply: ler_add; last by rewrite ler_wpmul2l ?glat_ge0.
  by apply: ler_wpmul2l; [exact: ltW | apply: ler_add; rewrite ler_wpmul2l ?vout_ge0 // ltW].
by rewrite pmulr_lle0 // invr_gt0 l_wtr_gt0.
Qed.

(* with air paths: everything at the same humidity X > 0, no sources, no cooling: rooms that receive air
   from other rooms become more humid than X *)
Lemma step_air_paths_grow X : 0 < X -> x_o s = X -> (forall i, x_r c i 0 = X) -> (forall i, x_frt c i 0 = X) ->
  (forall i, x_gen s i 0 = 0) -> (forall i, n_hum s i 0 = 0) -> (forall i, removed o i <= 1 / 1000%:R) ->
  forall i, (0 < \sum_k v_int h i k -> X < x_r c' i 0) /\ (\sum_k v_int h i k = 0 -> x_r c' i 0 = X).
Proof.
move=> X0 Xo Xr Xf gen hum cool.
have [XX _] : (forall i, X <= x_r c' i 0) /\ (forall i, X <= x_frt c' i 0).
  apply: step_not_drier => [||i|i|i|i|i]; rewrite ?Xo ?Xr ?Xf ?gen ?hum //; first exact: ltW.
  by move=> /(le_lt_trans (cool i)); rewrite ltxx.
have [w [w0 [wc E]]] := humid_rows => i.
have wi : w i 0 = 0 by apply/eqP; apply: contraT => /wc /(le_lt_trans (cool i)); rewrite ltxx.
have := E i; rewrite step_x_hum wi Xr Xo Xf gen hum mulr0 !addr0 mul0r addr0.
have r0 := rho_air_gt0 F; have vr0 : 0 < v_room h i 0 / dt by rewrite divr_gt0 ?(ph_room Hr) ?(ph_dt Hr).
have L0 : 0 < rho_air F * (v_room h i 0 / dt + vout o i) + glat i.
  by rewrite ltr_paddr ?glat_ge0 // mulr_gt0 // ltr_paddr // vout_ge0.
set S := \sum_k v_int h i k * _ => {}E.
have {}E : (rho_air F * (v_room h i 0 / dt + vout o i) + glat i) * x_r c' i 0
   = (rho_air F * (v_room h i 0 / dt + vout o i) + glat i) * X + rho_air F * S.
  by apply/eqP; rewrite -subr_eq E; apply/eqP; fring.
split=> v0.
  rewrite -(ltr_pmul2l L0) E ltr_addl mulr_gt0 //.
  apply: lt_le_trans (_ : (\sum_k v_int h i k) * X <= S); first exact: mulr_gt0.
  by rewrite mulr_suml; apply: ler_sum => k _; rewrite ler_wpmul2l // (ph_v_int Hr).
have S0 : S = 0.
  rewrite /S big1 // => k _.
  have /eqP := v0; rewrite psumr_eq0 => [/allP/(_ k)|j _]; last exact: ph_v_int Hr i j.
  by rewrite mem_index_enum => /(_ isT)/eqP ->; rewrite mul0r.
by apply/(mulfI (lt0r_neq0 L0)); rewrite E S0 mulr0 addr0.
Qed.
End Step.

(* two steps that differ in the humidity before only: without cooling the difference shrinks *)
Lemma step_forgets ot infil x_sat dt (h : house F ni nj nm) s c c' o c2 c2' o2 D i :
  step ot infil x_sat dt h s c = Some (c', o) -> step ot infil x_sat dt h s c2 = Some (c2', o2) ->
  physical_rooms dt h -> physical_air h s -> (forall tr to k, 0 <= infil tr to k 0) ->
  theta_r c2 i 0 = theta_r c i 0 -> o_v_leak o2 i 0 = o_v_leak o i 0 -> o_v_ntrl o2 i 0 = o_v_ntrl o i 0 ->
  (forall k, v_int h i k = 0) -> removed o i <= 1 / 1000%:R -> removed o2 i <= 1 / 1000%:R ->
  `|x_r c2 i 0 - x_r c i 0| <= D -> `|x_frt c2 i 0 - x_frt c i 0| <= D ->
  let store := rho_air F * v_room h i 0 / dt + c_lh h i 0 * g_lh h i 0 / (c_lh h i 0 + dt * g_lh h i 0) in
  let k := store / (store + rho_air F * air_from_outside h s o i) in
  [/\ `|x_r c2' i 0 - x_r c' i 0| <= k * D,
      `|x_frt c2' i 0 - x_frt c' i 0| <= (c_lh h i 0 + dt * g_lh h i 0 * k) / (c_lh h i 0 + dt * g_lh h i 0) * D
    & 0 < air_from_outside h s o i -> 0 < k < 1].
Proof.
move=> H1 H2 Hr Ha i0 tE lE nE vi r1 r2 dr df store k.
have [w [w0 [wc E]]] := humid_rows H1 Hr; have [w2 [w20 [wc2 E2]]] := humid_rows H2 Hr.
have wi : w i 0 = 0 by apply/eqP; apply: contraT => /wc /(le_lt_trans r1); rewrite ltxx.
have wi2 : w2 i 0 = 0 by apply/eqP; apply: contraT => /wc2 /(le_lt_trans r2); rewrite ltxx.
have vE : vout h s o2 i = vout h s o i by rewrite /vout lE nE.
have v0 := vout_ge0 H1 Ha i0 i; have g0 := glat_ge0 Hr i; have r0 := rho_air_gt0 F.
have vr0 : 0 < v_room h i 0 / dt by rewrite divr_gt0 ?(ph_room Hr) ?(ph_dt Hr).
have st0 : 0 < store.
  by rewrite /store ltr_paddr //; rewrite -mulrA mulr_gt0.
have L0 : 0 < store + rho_air F * vout h s o i by rewrite ltr_paddr // mulr_ge0 // ltW.
have kE : k = store / (store + rho_air F * vout h s o i) by [].
have sum0 (y : 'cV[F]_ni) : \sum_k v_int h i k * y k 0 = 0 by rewrite big1 // => j _; rewrite vi mul0r.
have xh : o_x_hum o2 i 0 = o_x_hum o i 0 by rewrite (step_x_hum H1) (step_x_hum H2) tE.
have DE : (store + rho_air F * vout h s o i) * (x_r c2' i 0 - x_r c' i 0)
  = rho_air F * (v_room h i 0 / dt) * (x_r c2 i 0 - x_r c i 0) + glat dt h i * (x_frt c2 i 0 - x_frt c i 0).
  have := E i; have := E2 i; rewrite !sum0 wi wi2 vE xh !mulr0 !subr0 !mul0r !addr0 => e2 e1.
  have -> : (store + rho_air F * vout h s o i) * (x_r c2' i 0 - x_r c' i 0)
    = (rho_air F * (v_room h i 0 / dt + vout h s o i) + glat dt h i) * x_r c2' i 0
      - (rho_air F * (v_room h i 0 / dt + vout h s o i) + glat dt h i) * x_r c' i 0.
    by rewrite /store -/(glat dt h i); set g := glat dt h i; fring.
  by rewrite e1 e2; set g := glat dt h i; fring.
have B1 : `|x_r c2' i 0 - x_r c' i 0| <= k * D.
  rewrite kE mulrAC ler_pdivl_mulr // -[X in _ * X](gtr0_norm L0) -normrM [X in `|X|]mulrC DE.
  apply: le_trans (ler_norm_add _ _) _.
  rewrite [X in X + _]normrM [X in _ + X]normrM (ger0_norm g0) (gtr0_norm (mulr_gt0 r0 vr0)) /store mulrDl.
  apply: ler_add.
    by rewrite -[rho_air F * _ / dt]mulrA ler_wpmul2l // ltW // mulr_gt0.
  by rewrite ler_wpmul2l.
split=> //; last first.
  move=> a0; rewrite kE divr_gt0 //= ltr_pdivr_mulr // mul1r ltr_addl mulr_gt0 //.
have d0 := ph_dt Hr; have cl0 := ph_c_lh Hr i; have gl0 := ph_g_lh Hr i.
have n0 : 0 < c_lh h i 0 + dt * g_lh h i 0 by rewrite ltr_paddr // mulr_ge0 // ltW.
rewrite (frt_new H1 Hr) (frt_new H2 Hr) -mulrBl normrM normfV (gtr0_norm n0) [leRHS]mulrAC.
rewrite ler_pdivr_mulr // divfK ?gt_eqF //.
have -> : c_lh h i 0 * x_frt c2 i 0 + dt * g_lh h i 0 * x_r c2' i 0 - (c_lh h i 0 * x_frt c i 0 + dt * g_lh h i 0 * x_r c' i 0)
  = c_lh h i 0 * (x_frt c2 i 0 - x_frt c i 0) + dt * g_lh h i 0 * (x_r c2' i 0 - x_r c' i 0) by fring.
apply: le_trans (ler_norm_add _ _) _; rewrite !normrM (gtr0_norm cl0) (gtr0_norm d0) (ger0_norm gl0) mulrDl.
apply: ler_add; first by rewrite ler_wpmul2l // ltW.
by rewrite -[_ * k * D]mulrA ler_wpmul2l // mulr_ge0 // ltW.
Qed.

(* whole runs *)
Section Run.
Variable data : seq (step_data F ni nj).
Variables (e0 : F) (infil : infil_fun F ni) (x_sat : F -> F) (dt : F) (h : house F ni nj nm).
Variable is_ground : pred 'I_nj.
Variables (td x0 : F) (n_main n_run_up n_build : Z).
Variables (g : Z -> ground_conditions F #|is_ground| nm) (c : Z -> conditions F ni nj nm)
  (log : seq (option (conditions F ni nj nm * outputs F ni nj))).
Hypothesis sim : simulation data e0 infil x_sat dt h (is_ground := is_ground) td (conditions_init ni nj nm x0) n_main n_run_up n_build g c log.
Hypothesis Hr : physical_rooms dt h.
Hypothesis Ha : forall s, List.In s data -> physical_air h s.
Hypothesis infil_ge0 : forall tr to i, 0 <= infil tr to i 0.

Lemma run_invariant (P : conditions F ni nj nm -> Prop) : P (hand_over (conditions_init ni nj nm x0) (g (- n_build)%Z)) ->
  (forall n s o, (- n_build <= n < n_main)%Z -> List.In s data -> core_step e0 infil x_sat dt h s (c n) = Some (c (n + 1)%Z, o) ->
     P (c n) -> P (c (n + 1)%Z)) ->
  forall n, (- n_build <= n <= n_main)%Z -> P (c n).
Proof.
move=> P0 PS n Hn; have -> : n = (- n_build + Z.of_nat (Z.to_nat (n + n_build)))%Z by lia.
have : (Z.of_nat (Z.to_nat (n + n_build)) <= n_build + n_main)%Z by lia.
elim: (Z.to_nat (n + n_build)) => [|k IH] Hk.
  by rewrite Z.add_0_r (sim_c0 sim).
have Hk' : (- n_build <= - n_build + Z.of_nat k < n_main)%Z by lia.
have [s [o [Cs [E _]]]] := sim_c sim Hk'.
have -> : (- n_build + Z.of_nat k.+1 = - n_build + Z.of_nat k + 1)%Z by lia.
apply: PS Hk' (List.nth_error_In _ _ Cs) E _; apply: IH; lia.
Qed.

Lemma coil_below s cn cn' o i (t : F) m : core_step e0 infil x_sat dt h s cn = Some (cn', o) ->
  (forall u, u <= t -> m <= x_sat u) -> theta_r cn' i 0 <= t -> 1 / 1000%:R < removed o i -> m <= coil_humidity x_sat h cn' o i.
Proof.
move=> Hs xs tr r; apply: xs; apply: le_trans tr; rewrite ler_subl_addr ler_addl.
have r0 : 0 <= removed o i by apply: ltW; apply: lt_trans r; rewrite divr_gt0 ?ltr01 ?ltr0n.
rewrite divr_ge0 // mulr_ge0 ?(ltW (bf_lt1 F)) // mulr_ge0 ?(coil_flow_ge0 Hr r) //.
by rewrite ltW // mulr_gt0 ?c_air_gt0 ?rho_air_gt0.
Qed.

Lemma run_not_drier m : 0 <= m -> m <= x0 ->
  (forall s, List.In s data -> m <= x_o s /\ forall i, 0 <= x_gen s i 0 /\ 0 <= n_hum s i 0) ->
  (forall n i u, (- n_build < n <= n_main)%Z -> u <= theta_r (c n) i 0 -> m <= x_sat u) ->
  forall n i, (- n_build <= n <= n_main)%Z -> m <= x_r (c n) i 0 /\ m <= x_frt (c n) i 0.
Proof.
move=> m0 mx dat xs n i Hn.
pose P (cn : conditions F ni nj nm) := (forall i, m <= x_r cn i 0) /\ (forall i, m <= x_frt cn i 0).
have [] : P (c n); last by move=> A B; split.
move: n Hn; apply: (@run_invariant P) => [|n s o Hn Is E [Ir If]]; first by split=> k /=; rewrite mxE.
have [mo dd] := dat s Is.
apply: (step_not_drier E Hr (Ha Is) infil_ge0 m0 mo Ir If) => k; try by have [] := dd k.
by apply: (coil_below E _ (lexx _)) => u; apply: xs; lia.
Qed.

Lemma run_not_moister M : x0 <= M -> (forall i k, v_int h i k = 0) ->
  (forall s, List.In s data -> x_o s <= M /\ forall i, x_gen s i 0 = 0 /\ n_hum s i 0 = 0) ->
  forall n i, (- n_build <= n <= n_main)%Z -> x_r (c n) i 0 <= M /\ x_frt (c n) i 0 <= M.
Proof.
move=> mx vi dat n i Hn; move: i; move: n Hn.
pose P (cn : conditions F ni nj nm) := forall i, x_r cn i 0 <= M /\ x_frt cn i 0 <= M.
apply: (@run_invariant P) => [|n s o Hn Is E I] i /=; first by rewrite !mxE.
have [mo dd] := dat s Is; have [g0 n0] := dd i; have [Ir If] := I i.
exact: (step_not_moister E Hr (Ha Is) infil_ge0 (vi i) g0 n0 mo Ir If).
Qed.
End Run.
End HumidityL.
