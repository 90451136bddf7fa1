From mathcomp Require Import all_ssreflect ssralg ssrnum zmodp matrix.
From Verif Require Import Model.OperationMode Model.Numpy Model.NextCondition Model.PreCalc Model.Tick
  Model.Step Model.OtTarget Model.CoreStep Spec.Physical Spec.Natural Spec.StepEq Spec.Equil Spec.Coil Spec.Warmer.
From Verif Require Import Lemmas.TickTotal Lemmas.TickEquil Lemmas.TickEnergy Lemmas.NextConditionL Lemmas.StepL
  Lemmas.StepProps Lemmas.CoreStepL Lemmas.LoadRefute Examples.House2 Lemmas.TickRefute Examples.House2Ex.
Set Implicit Arguments. Unset Strict Implicit. Unset Printing Implicit Defensive.
Import Order.TTheory GRing.Theory Num.Theory.
Local Open Scope ring_scope.

(* C02: the room air heat balance.  Without air paths into a room the documented balance (4.2) holds.
   With air paths it holds only if the arriving air carries no heat: the code subtracts the term that
   the documentation adds (sequence.py 128-129). *)
Theorem C02_room_heat_balance_partial : forall (F : realFieldType) (ni nj nm : nat) (e0 : F) (infil : infil_fun F ni) (x_sat : F -> F)
    (dt : F) (h : house F ni nj nm) (s : step_data F ni nj) (c c' : conditions F ni nj nm) (o : outputs F ni nj),
  core_step e0 infil x_sat dt h s c = Some (c', o) -> physical_rooms dt h ->
  forall i, (forall k, v_int h i k = 0) -> documented_heat_balance dt h s c c' o i.
Proof. by move=> F ni nj nm e0 infil x_sat dt h s c c' o Hs Hr i; exact: (core_heat_no_int Hs). Qed.
Print Assumptions C02_room_heat_balance_partial.

(* what holds with air paths: the balance with the opposite sign of the air from other rooms *)
Theorem C02_room_heat_balance_as_coded : forall (F : realFieldType) (ni nj nm : nat) (e0 : F) (infil : infil_fun F ni) (x_sat : F -> F)
    (dt : F) (h : house F ni nj nm) (s : step_data F ni nj) (c c' : conditions F ni nj nm) (o : outputs F ni nj),
  core_step e0 infil x_sat dt h s c = Some (c', o) -> physical_rooms dt h ->
  forall i, heat_stored dt h c c' i = heat_gain h s c' o i - heat_from_rooms h c' i.
Proof. by move=> F ni nj nm e0 infil x_sat dt h s c c' o Hs Hr i; exact: (core_heat_code Hs). Qed.
Print Assumptions C02_room_heat_balance_as_coded.

(* hence the documented balance holds exactly when the arriving air carries no heat *)
Theorem C02_room_heat_balance_iff : forall (F : realFieldType) (ni nj nm : nat) (e0 : F) (infil : infil_fun F ni) (x_sat : F -> F)
    (dt : F) (h : house F ni nj nm) (s : step_data F ni nj) (c c' : conditions F ni nj nm) (o : outputs F ni nj),
  core_step e0 infil x_sat dt h s c = Some (c', o) -> physical_rooms dt h ->
  forall i, documented_heat_balance dt h s c c' o i <-> \sum_k v_int h i k * theta_r c' k 0 = 0.
Proof. by move=> F ni nj nm e0 infil x_sat dt h s c c' o Hs Hr i; exact: (core_heat Hs). Qed.
Print Assumptions C02_room_heat_balance_iff.

(* the unrestricted property fails: an ordinary two-room house with an air path from room 1 to room 0 *)
Theorem C02_room_heat_balance_refuted : forall F : realFieldType,
  exists (h : house F 2 4 1) (s : step_data F 2 4) (c c' : conditions F 2 4 1) (o : outputs F 2 4),
  [/\ physical_boundaries h, physical_rooms 900%:R h,
      core_step (1 / 8%:R) (@infil2 F) (@x_sat2 F) 900%:R h s c = Some (c', o) &
      ~ documented_heat_balance 900%:R h s c c' o 0].
Proof.
by move=> F; have [c' [o H]] := doc_balance_fails (oner_neq0 F); do 3 eexists; exists c', o; exact: H.
Qed.
Print Assumptions C02_room_heat_balance_refuted.

(* a step of an ordinary house meets the hypotheses *)
Example C02_example (F : realFieldType) : exists c' o,
  [/\ core_step (1 / 8%:R) (@infil2 F) (@x_sat2 F) 900%:R (hx F) (@step2 F) (cond2 HEATING 15%:R) = Some (c', o),
      physical_rooms 900%:R (hx F) & forall i k, v_int (hx F) i k = 0].
Proof. exact: hx_step_ex. Qed.
