From mathcomp Require Import all_ssreflect ssralg ssrnum zmodp matrix.
From Verif Require Import Model.OperationMode Model.Numpy Model.NextCondition Model.PreCalc Model.Tick
  Model.Step Model.OtTarget Model.CoreStep Spec.Physical Spec.Natural Spec.StepEq Spec.Equil Spec.Coil Spec.Warmer.
From Verif Require Import Lemmas.TickTotal Lemmas.TickEquil Lemmas.TickEnergy Lemmas.NextConditionL Lemmas.StepL
  Lemmas.StepProps Lemmas.CoreStepL Lemmas.LoadRefute Examples.House2 Lemmas.TickRefute Examples.House2Ex Lemmas.TwinL.
Set Implicit Arguments. Unset Strict Implicit. Unset Printing Implicit Defensive.
Import Order.TTheory GRing.Theory Num.Theory.
Local Open Scope ring_scope.

(* C08: heating adds heat and cooling removes heat, for a room that is the only one conditioned in this
   step, in a house without air paths between rooms.  With several conditioned rooms it fails: a warmer
   neighbour can heat a room above its set point, and the code then cools it although it is "heating". *)
Theorem C08_load_sign_partial : forall (F : realFieldType) (ni nj nm : nat) (e0 : F) (infil : infil_fun F ni) (x_sat : F -> F)
    (dt : F) (h : house F ni nj nm) (s : step_data F ni nj) (c c' : conditions F ni nj nm) (o : outputs F ni nj),
  core_step e0 infil x_sat dt h s c = Some (c', o) ->
  (forall i, 0 <= cap_h h i 0) -> (forall i, 0 <= cap_c h i 0) ->
  physical_boundaries h -> physical_rooms dt h -> physical_air h s -> physical_hum h ->
  (forall tr to i, 0 <= infil tr to i 0) -> (forall i k, i != k -> v_int h i k = 0) ->
  forall i, 0 <= ac_demand s i 0 ->
  (forall k, k != i -> operation_mode c' k <> HEATING /\ operation_mode c' k <> COOLING) ->
  (is_rad_h h i || is_rad_c h i -> physical_radiant h) ->
  (operation_mode c' i = HEATING -> 0 <= o_l_cs o i 0 /\ 0 <= o_l_rs o i 0) /\
  (operation_mode c' i = COOLING -> o_l_cs o i 0 <= 0 /\ o_l_rs o i 0 <= 0).
Proof. by move=> F ni nj nm e0 infil x_sat dt h s c c' o Hs ch cc Hb Hr Ha Hh i0 v0 i; exact: (core_sign Hs). Qed.
Print Assumptions C08_load_sign_partial.

Theorem C08_load_sign_refuted : forall F : realFieldType,
  exists (brm : 'M[F]_2) (lo theta lc lr : 'cV[F]_2),
  [/\ forall i k, i != k -> brm i k <= 0,
      calc_next_temp_and_load (fun _ => false) (fun _ => false) 0 brm 1%:M lo 0 0 0
        (fun _ => HEATING) (const_mx 1) = Some (theta, lc, lr)
    & lc 0 0 + lr 0 0 < 0].
Proof. exact: heated_cools_ex. Qed.
Print Assumptions C08_load_sign_refuted.

(* The same in a time step of a house: two equal rooms without radiant equipment or air paths between them,
   one of them asked for only part of the heating; its load in mode HEATING is negative. *)
Theorem C08_house_refuted : forall (F : realFieldType) (e0 : F) (x_sat : F -> F), 0 <= e0 ->
  exists (h : house F 2 4 1) (s : step_data F 2 4) (c c' : conditions F 2 4 1) o,
  [/\ [/\ physical_boundaries h, physical_rooms 900%:R h, physical_air h s & physical_hum h],
      (forall i, is_rad_h h i = false /\ is_rad_c h i = false), (forall i k, v_int h i k = 0) /\ (forall i, 0 < ac_demand s i 0 <= 1),
      core_step e0 (@infil2 F) x_sat 900%:R h s c = Some (c', o) & exists i, operation_mode c' i = HEATING /\ o_l_cs o i 0 + o_l_rs o i 0 < 0].
Proof. by move=> F e0 x_sat e0_ge0; exact: (c8_ex e0_ge0). Qed.
Print Assumptions C08_house_refuted.

(* only room 0 asks for heating *)
Example C08_example (F : realFieldType) : exists (T : F) c' o,
  [/\ core_step (1 / 8%:R) (@infil2 F) (@x_sat2 F) 900%:R (hx F) (@step_one F) (cond2 HEATING T) = Some (c', o),
      [/\ physical_boundaries (hx F), physical_rooms 900%:R (hx F), physical_air (hx F) (@step_one F) & physical_hum (hx F)],
      forall i k, i != k -> v_int (hx F) i k = 0, operation_mode c' 0 = HEATING
    & forall k, k != 0 -> operation_mode c' k <> HEATING /\ operation_mode c' k <> COOLING].
Proof. exact: hx_one_ex. Qed.
