(* Instances of the hypotheses of the theorems, for the house of House2.v and for a one-room house. *)
From Coq Require Import ZArith.
From mathcomp Require Import all_ssreflect ssralg ssrnum zmodp matrix.
From Coq Require Import Ring Field.
From Verif Require Import Model.OperationMode Model.Numpy Model.NextCondition Model.Dec Model.PreCalc Model.Tick
  Model.Step Model.OtTarget Model.CoreStep Spec.Physical Spec.Natural Spec.StepEq Spec.Equil Spec.Coil Spec.Warmer.
From Verif Require Import Lemmas.FieldTac Lemmas.NumpyL Lemmas.DecL Lemmas.TickL Lemmas.TickBalance Lemmas.TickTotal
  Lemmas.TickEquil Lemmas.TickEnergy Lemmas.NextConditionL Lemmas.OtTargetL Lemmas.StepL
  Lemmas.StepProps Lemmas.CoreStepL Lemmas.LoadRefute Examples.House2 Lemmas.TickRefute.
Set Implicit Arguments. Unset Strict Implicit. Unset Printing Implicit Defensive.
Import Order.TTheory GRing.Theory Num.Theory.
Local Open Scope ring_scope.

Section House2Ex.
Variable F : realFieldType.

(* no air paths; an air path from room 1 to room 0 *)
Definition hx : house F 2 4 1 := house2 0 (1 / 50%:R) (1 / 10%:R) (fun _ => 4%:R).
Definition hv : house F 2 4 1 := house2 (@v10 F) (1 / 50%:R) (1 / 10%:R) (fun _ => 4%:R).

Lemma pa_ge0 : 0 <= 1 / 50%:R :> F. Proof. by rewrite divr_ge0 ?ler01 ?ler0n. Qed.
Lemma four_gt0 : forall j : 'I_4, 0 < 4%:R :> F. Proof. by move=> j; rewrite ltr0n. Qed.

Lemma zero_ge0 : forall i k, 0 <= (0 : 'M[F]_2) i k. Proof. by move=> i k; rewrite mxE. Qed.

Lemma hx_boundaries : physical_boundaries hx. Proof. exact: h11_boundaries. Qed.
Lemma hv_boundaries : physical_boundaries hv. Proof. exact: h11_boundaries. Qed.
Lemma hx_rooms : physical_rooms 900%:R hx.
Proof. exact: (house2_rooms _ _ _ zero_ge0 (@sum0_lt F)). Qed.
Lemma hv_rooms : physical_rooms 900%:R hv.
Proof. exact: (house2_rooms _ _ _ (@v10_ge0 F) (@v10_sum F)). Qed.
Lemma hx_int : forall i k, v_int hx i k = 0. Proof. by move=> i k; rewrite /= mxE. Qed.

Lemma hx_step_ex : exists c' o,
  [/\ core_step (1 / 8%:R) (@infil2 F) (@x_sat2 F) 900%:R hx (@step2 F) (cond2 HEATING 15%:R) = Some (c', o),
      physical_rooms 900%:R hx & forall i k, v_int hx i k = 0].
Proof.
have [c' [o H]] : exists c' o, step (@ot2 F) (@infil2 F) (@x_sat2 F) 900%:R hx (@step2 F) (cond2 HEATING 15%:R) = Some (c', o).
  exact: house2_ex.
by exists c', o; split=> //; [exact: hx_rooms | exact: hx_int].
Qed.

Lemma hx_law_ex : exists c' o,
  [/\ core_step (1 / 8%:R) (@infil2 F) (@x_sat2 F) 900%:R hx (@step2 F) (cond2 HEATING 15%:R) = Some (c', o),
      physical_boundaries hx, physical_rooms 900%:R hx & forall i k, v_int hx i k = 0].
Proof. by have [c' [o [H1 H2 H3]]] := hx_step_ex; exists c', o; split=> //; exact: hx_boundaries. Qed.

Lemma hx_symmetric_ex : exists c' o,
  [/\ core_step (1 / 8%:R) (@infil2 F) (@x_sat2 F) 900%:R hx (@step2 F) (cond2 HEATING 15%:R) = Some (c', o),
      physical_boundaries hx & forall j k coef, k_ei hx j = Some (k, coef) ->
     [/\ h_c hx k 0 = h_c hx j 0, h_r hx k 0 = h_r hx j 0 & a_srf hx k 0 = a_srf hx j 0]].
Proof.
have [c' [o [H1 H2 H3]]] := hx_step_ex; exists c', o; split=> //; first exact: hx_boundaries.
by move=> j k coef _; rewrite !mxE.
Qed.

Lemma hv_step_ex : exists c' o,
  [/\ core_step (1 / 8%:R) (@infil2 F) (@x_sat2 F) 900%:R hv (@step2 F) (cond2 COOLING 30%:R) = Some (c', o),
      physical_rooms 900%:R hv & v_int hv 0 1 != 0].
Proof.
have [t0 t1] := tenth F.
have [c' [o H]] : exists c' o, step (@ot2 F) (@infil2 F) (@x_sat2 F) 900%:R hv (@step2 F) (cond2 COOLING 30%:R) = Some (c', o).
  apply: house2_step => //; [exact: pa_ge0|exact: four_gt0|exact: v10_ge0|exact: v10_sum].
exists c', o; split=> //; first exact: hv_rooms.
by rewrite /= mxE /= gt_eqF // divr_gt0 ?ltr01 ?ltr0n.
Qed.

Lemma hv_phys_ex : [/\ physical_boundaries hv, physical_rooms 900%:R hv, physical_air hv (@step2 F) & physical_hum hv]
  /\ v_int hv 0 1 != 0.
Proof.
split; first (split; [exact: hv_boundaries|exact: hv_rooms|exact: house2_air|exact: house2_hum]).
by rewrite /= mxE /= gt_eqF // divr_gt0 ?ltr01 ?ltr0n.
Qed.

Lemma hx_cool_ex : exists c' o,
  [/\ core_step (1 / 8%:R) (@infil2 F) (@x_sat2 F) 900%:R hx (@step2 F) (cond2 COOLING 30%:R) = Some (c', o),
      physical_rooms 900%:R hx, physical_air hx (@step2 F) & forall i k, i != k -> v_int hx i k = 0].
Proof.
have [c' [o H]] : exists c' o, step (@ot2 F) (@infil2 F) (@x_sat2 F) 900%:R hx (@step2 F) (cond2 COOLING 30%:R) = Some (c', o).
  exact: house2_ex.
exists c', o; split=> //; [exact: hx_rooms|exact: house2_air|by move=> i k _; exact: hx_int].
Qed.

Lemma hx_rest_ex (T : F) : exists c' o,
  [/\ core_step (1 / 8%:R) (@infil2 F) (@x_sat2 F) 900%:R hx (quiet0 T) (rest0 T) = Some (c', o) /\ equipment_off c',
      physical_boundaries hx, physical_rooms 900%:R hx, physical_air hx (quiet0 T)
    & [/\ no_room_air hx, steady_walls hx, at_rest T hx (rest0 T) & quiet T (quiet0 T)]].
Proof.
have [c' [o [H off]]] := h11_step T zero_ge0 (@sum0_lt F); exists c', o; split=> //.
- exact: hx_boundaries.
- exact: hx_rooms.
- exact: house2_air.
- split; [exact: hx_int|exact: h11_steady|exact: rest0_at_rest|exact: quiet0_quiet].
Qed.

Definition sunny0 (T : F) : step_data F 2 4 := {|
  theta_o := T; x_o := 0; v_mec_local := 0; q_gen := const_mx 100%:R; x_gen := 0; n_hum := 0; ac_demand := 0;
  q_trs_sol := const_mx 50%:R; theta_o_sol := const_mx (T + 1) |}.

Lemma hx_warm_ex (T : F) : exists c' o c2 o2,
  [/\ core_step (1 / 8%:R) (@infil2 F) (@x_sat2 F) 900%:R hx (quiet0 T) (rest0 T) = Some (c', o) /\ equipment_off c',
      core_step (1 / 8%:R) (@infil2 F) (@x_sat2 F) 900%:R hx (sunny0 T) (rest0 T) = Some (c2, o2),
      warmer (quiet0 T) (sunny0 T), (forall i, q_gen (quiet0 T) i 0 < q_gen (sunny0 T) i 0)
    & forall j, 0 <= k_eo hx j 0 * (phi_t0 hx j 0 + \sum_m phi_t1 hx j m)].
Proof.
have [t0 t1] := tenth F.
have [c' [o [H off]]] := h11_step T zero_ge0 (@sum0_lt F).
have [c2 [o2 H2]] : exists c' o, step (@ot2 F) (@infil2 F) (@x_sat2 F) 900%:R hx (sunny0 T) (rest0 T) = Some (c', o).
  apply: house2_step => //; [exact: pa_ge0|exact: four_gt0|exact: zero_ge0|exact: sum0_lt].
exists c', o, c2, o2; split=> //.
- by split=> //= i; rewrite !mxE ?ler0n // ler_addl ler01.
- by move=> i; rewrite !mxE ltr0n.
move=> j; rewrite /= !mxE; apply: mulr_ge0.
  by case: j => [[|[|[|[|//]]]]] hj /=; rewrite ?ler01.
by apply: addr_ge0 => //; apply: sumr_ge0 => m _; rewrite mxE divr_ge0 ?ler0n // subr_ge0.
Qed.

(* only room 0 asks for heating *)
Definition step_one : step_data F 2 4 := {|
  theta_o := 5%:R; x_o := 3%:R / 1000%:R; v_mec_local := 0; q_gen := const_mx 100%:R;
  x_gen := const_mx (1 / 100000%:R); n_hum := const_mx 1; ac_demand := \col_i (i == 0)%:R;
  q_trs_sol := const_mx 200%:R; theta_o_sol := const_mx 6%:R |}.

Lemma ot_is_t (t : F) : (h_hum_r F * t + h_hum_c F * t) / (h_hum_r F + h_hum_c F) = t.
Proof.
rewrite -mulrDl mulrC mulKf // gt_eqF // addr_gt0 ?h_hum_r_gt0 //.
exact: lt_trans (h_hum_r_gt0 F) (h_hum_r_lt_c F).
Qed.

Lemma hx_one_ex : exists (T : F) c' o,
  [/\ core_step (1 / 8%:R) (@infil2 F) (@x_sat2 F) 900%:R hx step_one (cond2 HEATING T) = Some (c', o),
      [/\ physical_boundaries hx, physical_rooms 900%:R hx, physical_air hx step_one & physical_hum hx],
      forall i k, i != k -> v_int hx i k = 0, operation_mode c' 0 = HEATING
    & forall k, k != 0 -> operation_mode c' k <> HEATING /\ operation_mode c' k <> COOLING].
Proof.
have [t0 t1] := tenth F.
pose e := 1 / 8%:R : F; have e0 : 0 <= e by rewrite divr_ge0 ?ler01 ?ler0n.
pose p := get_p_v_r (6%:R / 1000%:R : F).
pose T := get_theta_ot_target e (clo_heavy F) p (h_hum_r F + h_hum_c F) (- dec F 5%Z 1).
have [c' [o H]] : exists c' o, step (@ot2 F) (@infil2 F) (@x_sat2 F) 900%:R hx step_one (cond2 HEATING T) = Some (c', o).
  apply: house2_step => //; [exact: pa_ge0|exact: four_gt0|exact: zero_ge0|exact: sum0_lt].
exists T, c', o.
have pmvE : get_h_hum_and_pmv e p T T (clo_heavy F) = - dec F 5%Z 1.
  rewrite /get_h_hum_and_pmv ot_is_t; apply: pmv_at_target => //; first exact: dec_ge0.
  by rewrite addr_gt0 ?h_hum_r_gt0 // (lt_trans (h_hum_r_gt0 F) (h_hum_r_lt_c F)).
have mdE i : operation_mode c' i = if i == 0 then HEATING else STOP_CLOSE.
  have [q [Hq Ht]] := stepP H.
  case: (run_tickP Ht) => md lo up ? ? v_out ? ? xot kc kr ? ? ? ? ? ? ? ?.
  move=> otE -> _; move: otE; rewrite /ot2 /get_ot_target_and_h_hum; case: ifP => // _ [_ _ <- _ _] _ *.
  rewrite /ot_target_pmv /= !mxE /= -/p -/e pmvE /get_operation_mode.
  case: (i == 0) => /=; last by rewrite ltxx.
  rewrite ltr01 (_ : - _ <= _ = true) //.
  by apply: (@le_trans _ _ 0); rewrite ?oppr_le0 dec_ge0.
split=> //.
- split; [exact: hx_boundaries|exact: hx_rooms|exact: house2_air|exact: house2_hum].
- by move=> i k _; exact: hx_int.
- by rewrite mdE eqxx.
by move=> k k0; rewrite mdE (negbTE k0).
Qed.

Lemma hx_conn_ex : physical_boundaries hx /\ forall i : 'I_2, exists j, conn hx j = i :> nat.
Proof.
split; first exact: hx_boundaries.
by case=> [[|[|//]]] hi; [exists (@Ordinal 4 0 isT)|exists (@Ordinal 4 1 isT)].
Qed.

Lemma hx_solar_ex : physical_boundaries hx /\
  exists j, conn hx j = (0 : 'I_2) :> nat /\ is_solar_abs hx j.
Proof. by split; [exact: hx_boundaries|exists 0]. Qed.

Lemma over_capacity_ex : exists (brl : 'M[F]_2) (lo cap theta lc lr : 'cV[F]_2),
  [/\ (forall i, 0 < cap i 0), (forall i k, 0 <= brl i k),
      calc_next_temp_and_load (fun _ => true) (fun _ => true) 0 1%:M brl lo 0 cap cap
        (fun _ => HEATING) (const_mx 1) = Some (theta, lc, lr)
    & cap 1 0 < lr 1 0].
Proof.
have [theta [lc [lr [H1 H2 H3]]]] := over_capacity F.
exists (kr7 F), (col2 4%:R 3%:R), (col2 2%:R 1), theta, lc, lr; split=> //.
  by apply: all2; rewrite mxE /= ?ltr0n ?ltr01.
by apply: all2; apply: all2; rewrite mxE /= ?ler0n ?ler01 // divr_ge0 ?ler01 ?ler0n.
Qed.

Lemma heated_cools_ex : exists (brm : 'M[F]_2) (lo theta lc lr : 'cV[F]_2),
  [/\ forall i k, i != k -> brm i k <= 0,
      calc_next_temp_and_load (fun _ => false) (fun _ => false) 0 brm 1%:M lo 0 0 0
        (fun _ => HEATING) (const_mx 1) = Some (theta, lc, lr)
    & lc 0 0 + lr 0 0 < 0].
Proof.
have [theta [lc [lr [H1 H2 H3 H4]]]] := heated_cools F.
exists (kt8 F), (col2 1 10%:R), theta, lc, lr; split=> //.
by apply: all2; apply: all2; rewrite // mxE /= oppr_le0 ler01.
Qed.

(* one room with a radiant floor *)
Definition hr : house F 1 1 1 := {|
  v_room := const_mx 30%:R; beta := 0; v_vent_ex := const_mx (1 / 100%:R); v_int := 0;
  v_ntrl := const_mx (1 / 10%:R); c_sh := const_mx 1000%:R; g_sh := const_mx 10%:R;
  c_lh := const_mx 16%:R; g_lh := const_mx 1;
  is_rad_h := fun _ => true; cap_h := const_mx 500%:R; is_rad_c := fun _ => false; cap_c := 0;
  q_min := const_mx 500%:R; q_max := const_mx 3000%:R; v_min := const_mx 6%:R; v_max := const_mx 11%:R;
  conn := fun _ => 0%N; a_srf := const_mx 12%:R;
  phi_a0 := const_mx (1 / 50%:R); phi_a1 := const_mx (1 / 500%:R);
  phi_t0 := const_mx (1 / 10%:R); phi_t1 := const_mx (9%:R / 20%:R); r_ms := const_mx (1 / 2%:R);
  h_c := const_mx 4%:R; h_r := const_mx 5%:R; flr := const_mx 1; is_solar_abs := fun j => true;
  f_mrt_hum := const_mx 1; k_eo := const_mx 1; k_ei := fun _ => None |}.
Definition step1 : step_data F 1 1 := {|
  theta_o := 5%:R; x_o := 3%:R / 1000%:R; v_mec_local := 0; q_gen := const_mx 100%:R;
  x_gen := const_mx (1 / 100000%:R); n_hum := const_mx 1; ac_demand := const_mx 1;
  q_trs_sol := const_mx 200%:R; theta_o_sol := const_mx 6%:R |}.
Definition cond1 (om : mode) (T : F) : conditions F 1 1 1 := {|
  operation_mode := fun _ => om; theta_r := const_mx T; theta_mrt_hum := const_mx T;
  x_r := const_mx (6%:R / 1000%:R); theta_dsh_a := 0; theta_dsh_t := const_mx (9%:R / 10%:R * T);
  q_srf := 0; theta_frt := const_mx T; x_frt := const_mx (6%:R / 1000%:R); theta_ei := const_mx T |}.
Definition infil1 : infil_fun F 1 := fun _ _ => const_mx (1 / 1000%:R).

Lemma hr_boundaries : physical_boundaries hr.
Proof. by split=> //= j; rewrite ?mxE ?divr_ge0 ?ltr0n ?ler0n ?ler01. Qed.
Lemma hr_rooms : physical_rooms 900%:R hr.
Proof.
split=> //=; try by move=> i; rewrite ?mxE ?ltr0n ?ler0n ?ler01 ?ltr01.
- by rewrite ltr0n.
- by move=> i k; rewrite mxE.
- by move=> i; rewrite big1 => [|k _]; rewrite mxE // divr_gt0 ?ltr0n.
- by move=> i; rewrite !mxE ler0n ltr_nat.
- by move=> i; rewrite !mxE ler0n ler_nat.
by move=> i; rewrite !mxE -!natrB // -!natrM ler_nat.
Qed.
Lemma hr_hum : physical_hum hr.
Proof.
split=> [j|i] /=; first by rewrite mxE ler01.
by rewrite (ord1 i) /= big_ord_recl big_ord0 mxE addr0.
Qed.
Lemma hr_radiant : physical_radiant hr.
Proof.
split=> /=; first by move=> i; rewrite mxE lexx ltr01.
  by move=> j; rewrite mxE ler01.
by move=> i; exists 0; rewrite (ord1 i) !mxE ltr01 divr_gt0 ?ltr01 ?ltr0n.
Qed.
Lemma hr_air : physical_air hr step1.
Proof. by move=> i; rewrite /= !mxE addr0 !divr_ge0 ?ler01 ?ler0n. Qed.

Lemma hr_step_ex : exists c' o,
  [/\ core_step (1 / 8%:R) infil1 (@x_sat2 F) 900%:R hr step1 (cond1 HEATING 15%:R) = Some (c', o),
      is_rad_h hr 0, (forall i, 0 <= cap_h hr i 0 /\ 0 <= cap_c hr i 0) & forall k, k != 0 -> is_rad_h hr k = false /\ is_rad_c hr k = false].
Proof.
have cp : forall i, 0 <= cap_h hr i 0 /\ 0 <= cap_c hr i 0 by move=> i; rewrite /= !mxE ler0n.
have [c' [o [H _]]] : exists c' o, core_step (1 / 8%:R) infil1 (@x_sat2 F) 900%:R hr step1 (cond1 HEATING 15%:R)
  = Some (c', o) /\ forall i, operation_mode c' i <> HEATING_AND_COOLING.
  apply: step_completes; try by move=> i; have [] := cp i.
  - exact: hr_boundaries.
  - exact: hr_rooms.
  - exact: hr_air.
  - exact: hr_hum.
  - by move=> tr to i; rewrite mxE divr_ge0 ?ler01 ?ler0n.
  by right; split; [exact: hr_radiant | by move=> i k; rewrite (ord1 i) (ord1 k) | by exists 0 => k; rewrite (ord1 k)].
by exists c', o; split=> // k; rewrite (ord1 k) eqxx.
Qed.

End House2Ex.
