From mathcomp Require Import all_ssreflect ssralg ssrnum zmodp matrix.
From Verif Require Import Model.OperationMode Model.Numpy Model.NextCondition Model.PreCalc Model.Tick
  Model.Step Model.OtTarget Model.CoreStep Spec.Physical Spec.Natural Spec.StepEq Spec.Equil Spec.Coil Spec.Warmer.
From Verif Require Import Lemmas.TickTotal Lemmas.TickEquil Lemmas.TickEnergy Lemmas.NextConditionL Lemmas.StepL
  Lemmas.StepProps Lemmas.CoreStepL Lemmas.LoadRefute Examples.House2 Lemmas.TickRefute Examples.House2Ex Lemmas.TwinL.
Set Implicit Arguments. Unset Strict Implicit. Unset Printing Implicit Defensive.
Import Order.TTheory GRing.Theory Num.Theory.
Local Open Scope ring_scope.

(* C07: radiant equipment never exceeds its capacity, in houses where at most one room has radiant
   equipment.  With several such rooms it can: capping one room changes the need of the others, and the
   code does not look again (next_condition.py 104-128). *)
Theorem C07_radiant_capacity_partial : forall (F : realFieldType) (ni nj nm : nat) (e0 : F) (infil : infil_fun F ni) (x_sat : F -> F)
    (dt : F) (h : house F ni nj nm) (s : step_data F ni nj) (c c' : conditions F ni nj nm) (o : outputs F ni nj),
  core_step e0 infil x_sat dt h s c = Some (c', o) ->
  (forall i, 0 <= cap_h h i 0) -> (forall i, 0 <= cap_c h i 0) ->
  forall i, (forall k, k != i -> is_rad_h h k = false /\ is_rad_c h k = false) ->
  - cap_c h i 0 <= o_l_rs o i 0 <= cap_h h i 0.
Proof. by move=> F ni nj nm e0 infil x_sat dt h s c c' o Hs ch cc i; exact: (step_capacity Hs ch cc). Qed.
Print Assumptions C07_radiant_capacity_partial.

Theorem C07_radiant_capacity_refuted : forall F : realFieldType,
  exists (brl : 'M[F]_2) (lo cap theta lc lr : 'cV[F]_2),
  [/\ (forall i, 0 < cap i 0), (forall i k, 0 <= brl i k),
      calc_next_temp_and_load (fun _ => true) (fun _ => true) 0 1%:M brl lo 0 cap cap
        (fun _ => HEATING) (const_mx 1) = Some (theta, lc, lr)
    & cap 1 0 < lr 1 0].
Proof. exact: over_capacity_ex. Qed.
Print Assumptions C07_radiant_capacity_refuted.

(* The same in a time step of a house: two equal rooms with floor heating, everything physical, and the
   floor heating of one of them gives more than its capacity. *)
Theorem C07_house_refuted : forall (F : realFieldType) (e0 : F) (x_sat : F -> F), 0 <= e0 ->
  exists (h : house F 2 4 1) (s : step_data F 2 4) (c c' : conditions F 2 4 1) o,
  [/\ [/\ physical_boundaries h, physical_rooms 900%:R h, physical_air h s, physical_hum h & physical_radiant h],
      (forall i, 0 < cap_h h i 0) /\ (forall i, 0 < cap_c h i 0), (forall i k, v_int h i k = 0) /\ ac_demand s = const_mx 1,
      core_step e0 (@infil2 F) x_sat 900%:R h s c = Some (c', o) & exists i, cap_h h i 0 < o_l_rs o i 0].
Proof. by move=> F e0 x_sat e0_ge0; exact: (c7_ex e0_ge0). Qed.
Print Assumptions C07_house_refuted.

Example C07_example (F : realFieldType) : exists c' o,
  [/\ core_step (1 / 8%:R) (@infil1 F) (@x_sat2 F) 900%:R (hr F) (@step1 F) (cond1 HEATING 15%:R) = Some (c', o),
      is_rad_h (hr F) 0, (forall i, 0 <= cap_h (hr F) i 0 /\ 0 <= cap_c (hr F) i 0) & forall k, k != 0 -> is_rad_h (hr F) k = false /\ is_rad_c (hr F) k = false].
Proof. exact: hr_step_ex. Qed.
