From mathcomp Require Import all_ssreflect ssralg ssrnum zmodp matrix.
From Verif Require Import Model.OperationMode Model.Numpy Model.NextCondition Model.PreCalc Model.Tick
  Model.Step Model.OtTarget Model.CoreStep Spec.Physical Spec.Natural Spec.StepEq Spec.Equil Spec.Coil Spec.Warmer.
From Verif Require Import Lemmas.TickTotal Lemmas.TickEquil Lemmas.TickEnergy Lemmas.NextConditionL Lemmas.StepL
  Lemmas.StepProps Lemmas.CoreStepL Lemmas.LoadRefute Examples.House2 Lemmas.TickRefute Examples.House2Ex.
Set Implicit Arguments. Unset Strict Implicit. Unset Printing Implicit Defensive.
Import Order.TTheory GRing.Theory Num.Theory.
Local Open Scope ring_scope.

(* C04: furniture temperature and humidity follow their own balance. *)
Theorem C04_furniture : forall (F : realFieldType) (ni nj nm : nat) (e0 : F) (infil : infil_fun F ni) (x_sat : F -> F)
    (dt : F) (h : house F ni nj nm) (s : step_data F ni nj) (c c' : conditions F ni nj nm) (o : outputs F ni nj),
  core_step e0 infil x_sat dt h s c = Some (c', o) -> physical_rooms dt h ->
  forall i, furniture_heat_balance dt h s c c' i /\ furniture_moisture_balance dt h c c' i.
Proof. by move=> F ni nj nm e0 infil x_sat dt h s c c' o Hs Hr i; exact: (core_furniture Hs). Qed.
Print Assumptions C04_furniture.

Example C04_example (F : realFieldType) : exists c' o,
  [/\ core_step (1 / 8%:R) (@infil2 F) (@x_sat2 F) 900%:R (hx F) (@step2 F) (cond2 HEATING 15%:R) = Some (c', o),
      physical_rooms 900%:R (hx F) & forall i k, v_int (hx F) i k = 0].
Proof. exact: hx_step_ex. Qed.
