From Coq Require Import ZArith List.
From mathcomp Require Import all_ssreflect ssralg ssrnum zmodp matrix.
From Verif Require Import Model.OperationMode Model.Numpy Model.NextCondition Model.PreCalc Model.Tick
  Model.Step Model.OtTarget Model.CoreStep Spec.Physical Spec.Natural Spec.StepEq Spec.Equil Spec.Coil Spec.Warmer.
From Verif Require Import Lemmas.TickTotal Lemmas.TickEquil Lemmas.TickEnergy Lemmas.NextConditionL Lemmas.StepL
  Lemmas.StepProps Lemmas.CoreStepL Lemmas.LoadRefute Examples.House2 Lemmas.TickRefute Examples.House2Ex.
From Verif Require Import Model.Ground Model.Py Model.CoreLoop Model.CoreCalc Lemmas.CoreCalcL Examples.RunEx Examples.Twin Lemmas.TwinL.
Set Implicit Arguments. Unset Strict Implicit. Unset Printing Implicit Defensive.
Import Order.TTheory GRing.Theory Num.Theory.
Local Open Scope ring_scope.

(* C51: the step never meets a singular matrix on physical input, and leaves every room in a legal mode;
   for houses where no radiant equipment is asked for in this step, and for steps that condition a single
   room with any equipment, in houses without air paths between rooms.  With radiant equipment in two
   rooms it may fail: C51_two_radiant_rooms_fail. *)
Theorem C51_step_completes : forall (F : realFieldType) (ni nj nm : nat) (e0 : F) (infil : infil_fun F ni) (x_sat : F -> F)
    (dt : F) (h : house F ni nj nm) (s : step_data F ni nj) (c : conditions F ni nj nm),
  (forall i, 0 <= cap_h h i 0) -> (forall i, 0 <= cap_c h i 0) ->
  physical_boundaries h -> physical_rooms dt h -> physical_air h s -> physical_hum h ->
  (forall tr to i, 0 <= infil tr to i 0) ->
  (forall i, operation_mode c i <> HEATING_AND_COOLING) ->
  (forall i, is_rad_h h i || is_rad_c h i -> ac_demand s i 0 <= 0) \/
  [/\ physical_radiant h, (forall i k, i != k -> v_int h i k = 0) & exists i, forall k, k != i -> ac_demand s k 0 <= 0] ->
  exists c' o, core_step e0 infil x_sat dt h s c = Some (c', o) /\
    forall i, operation_mode c' i <> HEATING_AND_COOLING.
Proof.
by move=> F ni nj nm e0 infil x_sat dt h s c ch cc Hb Hr Ha Hh i0 leg; exact: step_completes.
Qed.
Print Assumptions C51_step_completes.

(* Two rooms with floor heating, everything physical, both floors asked for: the step fails on a singular matrix.
   Opposite outputs of the two floors leave no trace in the operative temperatures. *)
Theorem C51_two_radiant_rooms_fail : forall (F : realFieldType) (e0 : F) (x_sat : F -> F), 0 <= e0 ->
  exists (h : house F 2 4 1) (s : step_data F 2 4) (c : conditions F 2 4 1),
  [/\ [/\ physical_boundaries h, physical_rooms 900%:R h, physical_air h s, physical_hum h & physical_radiant h],
      (forall i, 0 < cap_h h i 0) /\ (forall i, 0 < cap_c h i 0), (forall i k, v_int h i k = 0) /\ ac_demand s = const_mx 1,
      (forall i, operation_mode c i <> HEATING_AND_COOLING) & core_step e0 (@infil2 F) x_sat 900%:R h s c = None].
Proof. by move=> F e0 x_sat e0_ge0; exact: (c51_ex e0_ge0). Qed.
Print Assumptions C51_two_radiant_rooms_fail.

(* floor heating in two rooms, one of them in use *)
Example C51_one_radiant_room_example (F : realFieldType) (e0 : F) (x_sat : F -> F) : 0 <= e0 ->
  let h := twin (half F) true (const_mx 1000%:R) in let s := tw_step (col2 1 0) in
  [/\ physical_radiant h, is_rad_h h 0 && is_rad_h h 1, (forall i k, i != k -> v_int h i k = 0),
      forall k, k != 0 -> ac_demand s k 0 <= 0
    & exists c' o, core_step e0 (@infil2 F) x_sat 900%:R h s (tw_cond F) = Some (c', o)].
Proof. by move=> e0_ge0; exact: twin_one_ex. Qed.

Example C51_example (F : realFieldType) :
  [/\ physical_boundaries (hv F), physical_rooms 900%:R (hv F), physical_air (hv F) (@step2 F) & physical_hum (hv F)]
  /\ v_int (hv F) 0 1 != 0.
Proof. exact: hv_phys_ex. Qed.

(* The whole calculation completes when every column of the data is physical and there is a year of data
   for the run-up and for the main period. *)
Theorem C51_calculation_completes : forall (F : realFieldType) (ni nj nm : nat) (e0 : F) (infil : infil_fun F ni)
    (x_sat : F -> F) (x0 : F) (h : house F ni nj nm) (is_ground : pred 'I_nj) (data : seq (step_data F ni nj))
    (hourly d_main d_run_up d_build : Z),
  (0 < hourly)%Z -> (0 <= d_main)%Z -> (0 <= d_build)%Z -> (d_build <= d_run_up)%Z ->
  (forall i, 0 <= cap_h h i 0) -> (forall i, 0 <= cap_c h i 0) ->
  physical_boundaries h -> physical_rooms (delta_t F hourly) h -> (forall s, List.In s data -> physical_air h s) ->
  physical_hum h -> (forall tr to i, 0 <= infil tr to i 0) ->
  (forall s, List.In s data -> (forall i, is_rad_h h i || is_rad_c h i -> ac_demand s i 0 <= 0) \/
    [/\ physical_radiant h, (forall i k, i != k -> v_int h i k = 0) & exists i, forall k, k != i -> ac_demand s k 0 <= 0]) ->
  (d_main * hourly * 24 <= Z.of_nat (size data))%Z -> (d_run_up * hourly * 24 <= Z.of_nat (size data))%Z ->
  exists cf log, core_calc e0 infil x_sat x0 h is_ground data hourly d_main d_run_up d_build = Ok (cf, log).
Proof.
by move=> F ni nj nm e0 infil x_sat x0 h is_ground data hourly d_main d_run_up d_build h0 m0 b0 bu ch cc Hb Hr Ha Hh i0 rad lm lr;
   exact: core_calc_total.
Qed.
Print Assumptions C51_calculation_completes.

Example C51_calculation_example (F : realFieldType) (x0 : F) : exists cf log,
  core_calc (1 / 8%:R) (@infil2 F) (@x_sat2 F) x0 (hv F) ground2 (day2 F) 4 1 1 1 = Ok (cf, log).
Proof. exact: hv_calc_ex. Qed.
