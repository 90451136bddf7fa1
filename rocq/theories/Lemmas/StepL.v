(* The specification equations of Spec.StepEq for a completed step. *)
From mathcomp Require Import all_ssreflect ssralg ssrnum zmodp matrix.
From Coq Require Import Ring Field.
From Verif Require Import Model.OperationMode Model.Numpy Model.NextCondition Model.PreCalc
  Model.HeatExchanger Model.Tick Model.Step Spec.Physical Spec.Natural Spec.StepEq.
From Verif Require Import Lemmas.FieldTac Lemmas.NumpyL Lemmas.NextConditionL Lemmas.TickL
  Lemmas.TickBalance Lemmas.MMatrix Lemmas.TickTotal Lemmas.TickMoist Lemmas.TickEquil
  Lemmas.TickNatural Lemmas.TickSign Lemmas.TickMono Lemmas.TickEnergy.
Set Implicit Arguments. Unset Strict Implicit. Unset Printing Implicit Defensive.
Import Order.TTheory GRing.Theory Num.Theory.
Local Open Scope ring_scope.

Section StepL.
Variable F : realFieldType.
Variables ni nj nm : nat.
Add Field Ffield : (ffield_theory F).
Ltac fring := ffold F; ring.
Ltac ffield := ffold F; field.

Variable ot : ot_fun F ni.
Variable infil : infil_fun F ni.
Variable x_sat : F -> F.
Variables (dt : F) (h : house F ni nj nm) (s : step_data F ni nj).
Variables (c c' : conditions F ni nj nm) (o : outputs F ni nj).
Hypothesis Hs : step ot infil x_sat dt h s c = Some (c', o).

Lemma code_heat_balance i : c_sh h i 0 + dt * g_sh h i 0 != 0 ->
  heat_stored dt h c c' i = heat_gain h s c' o i - heat_from_rooms h c' i.
Proof.
move=> f0; have [q [Hq Ht]] := stepP Hs; have rb := room_balance Hq Ht f0.
rewrite /heat_stored /heat_gain /heat_from_surfaces /heat_from_outside /heat_from_furniture
  /heat_from_equipment /heat_from_inside /heat_from_rooms /air_from_outside /cap_air.
have -> : v_room h i 0 * (c_air F * rho_air F) * (theta_r c' i 0 - theta_r c i 0) / dt
  = c_rm h i 0 / dt * (theta_r c' i 0 - theta_r c i 0) by rewrite /c_rm matE; fring.
rewrite rb; move: (\sum_(j | _) _) (\sum_k _) => S1 S2; fring.
Qed.

Lemma doc_heat_iff i : c_sh h i 0 + dt * g_sh h i 0 != 0 ->
  documented_heat_balance dt h s c c' o i <-> \sum_k v_int h i k * theta_r c' k 0 = 0.
Proof.
move=> f0; rewrite /documented_heat_balance (code_heat_balance f0) /heat_from_rooms.
have cp : cap_air F != 0.
  by rewrite gt_eqF // mulr_gt0 ?(c_air_gt0 F) ?(rho_air_gt0 F).
move: (heat_gain _ _ _ _ _) (\sum_k _) (cap_air F) cp => G S ca cp; split=> [/eqP|->]; last by rewrite mulr0 subr0 addr0.
rewrite (inj_eq (addrI G)) -subr_eq0 -opprD oppr_eq0 -mulr2n -mulr_natl.
by rewrite !mulf_eq0 pnatr_eq0 (negbTE cp) /= => /eqP.
Qed.

Lemma doc_heat_no_int i : c_sh h i 0 + dt * g_sh h i 0 != 0 -> (forall k, v_int h i k = 0) ->
  documented_heat_balance dt h s c c' o i.
Proof. by move=> f0 v0; apply/(doc_heat_iff f0); rewrite big1 // => k _; rewrite v0 mul0r. Qed.

Lemma step_furniture_heat i : dt != 0 -> c_sh h i 0 + dt * g_sh h i 0 != 0 ->
  furniture_heat_balance dt h s c c' i.
Proof.
move=> /eqP d0 f0; have [q [Hq Ht]] := stepP Hs; have := frt_heat Ht f0.
rewrite /furniture_heat_balance /q_sol_frt smulE /r_sol_fnt => ->.
by move: (2%:R : F) => two; move: (two^-1) => ti; ffield; exact: d0.
Qed.

Lemma step_furniture_moisture i : dt != 0 -> c_lh h i 0 + dt * g_lh h i 0 != 0 ->
  furniture_moisture_balance dt h c c' i.
Proof.
move=> /eqP d0 f0; have [q [Hq Ht]] := stepP Hs; have := frt_moist Ht f0.
by rewrite /furniture_moisture_balance => ->; ffield; exact: d0.
Qed.

Lemma step_vapour i : c_lh h i 0 + dt * g_lh h i 0 != 0 -> vapour_balance dt h s c c' o i.
Proof.
move=> f0; have [q [Hq Ht]] := stepP Hs; have := latent_out Ht f0.
rewrite /vapour_balance /air_from_outside.
have -> : rho_air F * v_room h i 0 * (x_r c' i 0 - x_r c i 0) / dt
  = v_room h i 0 * rho_air F / dt * (x_r c' i 0 - x_r c i 0) by fring.
move=> ->; move: (\sum_k _) ((l_wtr F)^-1) => S l; fring.
Qed.

Lemma step_operative i : o_h_hum_c o i 0 + o_h_hum_r o i 0 != 0 -> operative_is_mean c' o i.
Proof. by move=> h0; have [q [Hq Ht]] := stepP Hs; exact: (ot_eq Ht h0). Qed.

Lemma step_mrt (i : 'I_ni) : mrt_is_sum h c' o i.
Proof.
have [q [Hq Ht]] := stepP Hs.
case: (run_tickP Ht) => md lo up ? ? v_out ? ? xot kc kr ? ? ? ? ? ? ? ?.
move=> _ _ _ _ _ _ _ _ _ _ _ _ _ _ _ _ _ _ _ _ _ mE *.
rewrite /mrt_is_sum mE mxE [RHS]big_mkcond; apply: eq_bigr => j _; rewrite !mxE.
by case: (_ == _); rewrite ?mul1r ?mul0r.
Qed.

Lemma step_response_terms j m : response_terms h s c c' j m.
Proof.
have [q [Hq Ht]] := stepP Hs.
case: (run_tickP Ht) => md lo up ? ? v_out ? ? xot kc kr ? ? ? ? ? ? ? ?.
move=> _ _ rE _ _ _ aE tE *; rewrite /response_terms aE tE rE !addE !cmulE !emulE; split; first fring.
rewrite addE k_ei_mulE /theta_dstrb emulE; case: (k_ei h j) => [[k coef]|]; fring.
Qed.

Lemma step_surface j : h_c h j 0 + h_r h j 0 != 0 -> a_srf h j 0 != 0 ->
  (forall k coef, k_ei h j = Some (k, coef) ->
     [/\ h_c h k 0 = h_c h j 0, h_r h k 0 = h_r h j 0 & a_srf h k 0 = a_srf h j 0]) ->
  surface_response h s c' o j.
Proof.
move=> h0 a0 m; have [q [Hq Ht]] := stepP Hs; rewrite /surface_response /rear_temperature.
exact: (surf_response Hq Ht h0 a0 m).
Qed.

Lemma step_first_law i : physical_boundaries h -> dt != 0 -> c_sh h i 0 + dt * g_sh h i 0 != 0 ->
  (exists j, conn h j = i :> nat /\ is_solar_abs h j) ->
  (o_l_rs o i 0 != 0 -> \sum_(j | conn h j == i) flr h j 0 = 1) ->
  (forall k, v_int h i k = 0) -> first_law dt h s c c' o i.
Proof.
move=> Hb d0 f0 [j [ji aj]] fl v0; have [q [Hq Ht]] := stepP Hs.
have abs0 : a_srf_abs h i 0 != 0.
  rewrite a_abs_sum gt_eqF // (bigD1 j) /=; last by rewrite ji eqxx.
  apply: ltr_paddr (ph_area Hb j); apply: sumr_ge0 => k _; exact/ltW/(ph_area Hb).
have := energy_law Hq Ht Hb d0 f0 abs0 fl v0.
rewrite /first_law /heat_stored /heat_from_outside /heat_from_inside /air_from_outside /cap_air.
have -> : v_room h i 0 * (c_air F * rho_air F) * (theta_r c' i 0 - theta_r c i 0) / dt
  = c_rm h i 0 * (theta_r c' i 0 - theta_r c i 0) / dt by rewrite /c_rm matE; fring.
by move=> ->; fring.
Qed.

End StepL.
