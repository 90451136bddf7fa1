(* Step-level facts for the comfort functions the program installs. *)
From mathcomp Require Import all_ssreflect ssralg ssrnum zmodp matrix.
From Verif Require Import Model.OperationMode Model.Numpy Model.NextCondition Model.PreCalc
  Model.HeatExchanger Model.Tick Model.Step Model.OtTarget Model.CoreStep Spec.Physical Spec.Natural
  Spec.StepEq Spec.Equil Spec.Coil Spec.Warmer.
From Verif Require Import Lemmas.FieldTac Lemmas.NumpyL Lemmas.NextConditionL Lemmas.TickL
  Lemmas.TickBalance Lemmas.MMatrix Lemmas.TickTotal Lemmas.TickMoist Lemmas.TickEquil
  Lemmas.TickNatural Lemmas.TickSign Lemmas.TickMono Lemmas.TickEnergy Lemmas.StepL Lemmas.OtTargetL
  Lemmas.StepProps.
Set Implicit Arguments. Unset Strict Implicit. Unset Printing Implicit Defensive.
Import Order.TTheory GRing.Theory Num.Theory.
Local Open Scope ring_scope.

Section CoreStepL.
Variable F : realFieldType.
Variables ni nj nm : nat.
Variable e0 : F.
Variable infil : infil_fun F ni.
Variable x_sat : F -> F.
Variables (dt : F) (h : house F ni nj nm) (s : step_data F ni nj).
Variables (c c' : conditions F ni nj nm) (o : outputs F ni nj).
Hypothesis Hs : core_step e0 infil x_sat dt h s c = Some (c', o).

Lemma core_h i : o_h_hum_c o i 0 = h_hum_c F /\ o_h_hum_r o i 0 = h_hum_r F.
Proof.
have [q [Hq Ht]] := stepP Hs; move: Ht; rewrite /run_tick.
case E: (get_ot_target_and_h_hum _ _ _ _ _ _) => [[[[[hc hr] md] lo] up]|//].
have [e1 e2 _] := ot_fixed_h E.
case: (inv _) => // xot; case: (calc_next_temp_and_load _ _ _ _ _ _ _ _ _ _ _) => [[[a b] d]|//].
case: (inv _) => // b1; case: (get_dehumid_coeff _ _ _ _ _ _ _ _) => b2 b3.
by case: (inv _) => // b4 [_ <-] /=; rewrite e1 e2 !mxE.
Qed.

Lemma core_hc_gt0 i : 0 < o_h_hum_c o i 0.
Proof. by have [-> _] := core_h i; apply: lt_trans (h_hum_r_lt_c F); exact: h_hum_r_gt0. Qed.
Lemma core_hr_ge0 i : 0 <= o_h_hum_r o i 0.
Proof. by have [_ ->] := core_h i; exact/ltW/h_hum_r_gt0. Qed.
Lemma core_hr_lt i : o_h_hum_r o i 0 < o_h_hum_c o i 0.
Proof. by have [-> ->] := core_h i; exact: h_hum_r_lt_c. Qed.

Lemma core_operative i : operative_is_mean c' o i /\ mrt_is_sum h c' o i.
Proof.
split; last exact: (step_mrt Hs).
by apply: (step_operative Hs); rewrite gt_eqF // ltr_paddr ?core_hr_ge0 ?core_hc_gt0.
Qed.

Lemma frt_ne0 i : physical_rooms dt h -> c_sh h i 0 + dt * g_sh h i 0 != 0.
Proof.
case=> d0 _ c0 g0 *; rewrite gt_eqF // ltr_paddr ?c0 // mulr_ge0 ?g0 //; exact: ltW.
Qed.
Lemma frx_ne0 i : physical_rooms dt h -> c_lh h i 0 + dt * g_lh h i 0 != 0.
Proof.
case=> d0 _ _ _ c0 g0 *; rewrite gt_eqF // ltr_paddr ?c0 // mulr_ge0 ?g0 //; exact: ltW.
Qed.

Lemma core_heat i : physical_rooms dt h ->
  documented_heat_balance dt h s c c' o i <-> \sum_k v_int h i k * theta_r c' k 0 = 0.
Proof. by move=> Hr; apply: (doc_heat_iff Hs); exact: frt_ne0. Qed.

Lemma core_heat_no_int i : physical_rooms dt h -> (forall k, v_int h i k = 0) ->
  documented_heat_balance dt h s c c' o i.
Proof. by move=> Hr; apply: (doc_heat_no_int Hs); exact: frt_ne0. Qed.

Lemma core_heat_code i : physical_rooms dt h ->
  heat_stored dt h c c' i = heat_gain h s c' o i - heat_from_rooms h c' i.
Proof. by move=> Hr; apply: (code_heat_balance Hs); exact: frt_ne0. Qed.

Lemma core_furniture i : physical_rooms dt h ->
  furniture_heat_balance dt h s c c' i /\ furniture_moisture_balance dt h c c' i.
Proof.
move=> Hr; have d0 : dt != 0 by rewrite gt_eqF // (ph_dt Hr).
by split; [apply: (step_furniture_heat Hs)|apply: (step_furniture_moisture Hs)] => //; [exact: frt_ne0|exact: frx_ne0].
Qed.

Lemma core_surface j : physical_boundaries h ->
  (forall k coef, k_ei h j = Some (k, coef) ->
     [/\ h_c h k 0 = h_c h j 0, h_r h k 0 = h_r h j 0 & a_srf h k 0 = a_srf h j 0]) ->
  surface_response h s c' o j /\ forall m, response_terms h s c c' j m.
Proof.
move=> Hb e; split=> [|m]; last exact: (step_response_terms Hs).
apply: (step_surface Hs) => //; first by rewrite gt_eqF // addr_gt0 ?ph_hc ?ph_hr.
by rewrite gt_eqF // ph_area.
Qed.

Lemma core_vapour i : physical_rooms dt h -> vapour_balance dt h s c c' o i.
Proof. by move=> Hr; apply: (step_vapour Hs); exact: frx_ne0. Qed.

Lemma core_first_law (i : 'I_ni) : physical_boundaries h -> physical_rooms dt h ->
  (exists j, conn h j = i :> nat /\ is_solar_abs h j) ->
  (o_l_rs o i 0 != 0 -> \sum_(j | conn h j == i) flr h j 0 = 1) ->
  (forall k, v_int h i k = 0) -> first_law dt h s c c' o i.
Proof.
move=> Hb Hr; apply: (step_first_law Hs) => //; last exact: frt_ne0.
by rewrite gt_eqF // (ph_dt Hr).
Qed.

Lemma core_sign i : (forall i, 0 <= cap_h h i 0) -> (forall i, 0 <= cap_c h i 0) ->
  physical_boundaries h -> physical_rooms dt h -> physical_air h s -> physical_hum h ->
  (forall tr to i, 0 <= infil tr to i 0) -> (forall i k, i != k -> v_int h i k = 0) ->
  0 <= ac_demand s i 0 ->
  (forall k, k != i -> operation_mode c' k <> HEATING /\ operation_mode c' k <> COOLING) ->
  (is_rad_h h i || is_rad_c h i -> physical_radiant h) ->
  (operation_mode c' i = HEATING -> 0 <= o_l_cs o i 0 /\ 0 <= o_l_rs o i 0) /\
  (operation_mode c' i = COOLING -> o_l_cs o i 0 <= 0 /\ o_l_rs o i 0 <= 0).
Proof.
move=> ch cc Hb Hr Ha Hh i0 v0 a0 one rad.
apply: (step_sign Hs ch cc Hb Hr Ha i0 Hh v0) => //; [exact: core_hr_ge0|exact: core_hr_lt].
Qed.

Lemma core_warmer s2 c2 o2 : core_step e0 infil x_sat dt h s2 c = Some (c2, o2) ->
  (forall i, 0 <= cap_h h i 0) -> (forall i, 0 <= cap_c h i 0) ->
  physical_boundaries h -> physical_rooms dt h -> physical_air h s -> physical_hum h ->
  (forall tr to i, 0 <= infil tr to i 0) -> (forall i k, i != k -> v_int h i k = 0) ->
  (forall j, 0 <= k_eo h j 0 * (phi_t0 h j 0 + \sum_m phi_t1 h j m)) ->
  equipment_off c' -> warmer s s2 -> all_warmer c' c2 o o2.
Proof.
move=> Hs2 ch cc Hb Hr Ha Hh i0 v0 k0 off w.
apply: (step_warmer Hs Hs2 ch cc Hb Hr Ha Hh i0 v0 k0 off) => //; [exact: core_hc_gt0|exact: core_hr_ge0].
Qed.
End CoreStepL.
