From mathcomp Require Import all_ssreflect ssralg ssrnum zmodp matrix.
From Verif Require Import Model.OperationMode Model.Numpy Model.NextCondition Model.PreCalc Model.Tick
  Model.Step Model.OtTarget Model.CoreStep Spec.Physical Spec.Natural Spec.StepEq Spec.Equil Spec.Coil Spec.Warmer.
From Verif Require Import Lemmas.TickTotal Lemmas.TickEquil Lemmas.TickEnergy Lemmas.NextConditionL Lemmas.StepL
  Lemmas.StepProps Lemmas.CoreStepL Lemmas.LoadRefute Examples.House2 Lemmas.TickRefute Examples.House2Ex
  Lemmas.DehumidL Lemmas.DehumidRefute.
Set Implicit Arguments. Unset Strict Implicit. Unset Printing Implicit Defensive.
Import Order.TTheory GRing.Theory Num.Theory.
Local Open Scope ring_scope.

(* C10: the one-pass decision about dehumidification is consistent in every room that receives no air
   from other rooms: the latent load is what the final humidity implies, and is never positive.
   Missing: rooms that receive air from other rooms, where it is false (C10_air_paths_refuted). *)
Theorem C10_dehumidification_partial : forall (F : realFieldType) (ni nj nm : nat) (e0 : F) (infil : infil_fun F ni) (x_sat : F -> F)
    (dt : F) (h : house F ni nj nm) (s : step_data F ni nj) (c c' : conditions F ni nj nm) (o : outputs F ni nj),
  core_step e0 infil x_sat dt h s c = Some (c', o) ->
  physical_rooms dt h -> physical_air h s -> (forall tr to i, 0 <= infil tr to i 0) ->
  forall i, (forall k, i != k -> v_int h i k = 0) ->
  o_l_cl o i 0 =
    (if 1 / 1000%:R < removed o i
     then - (l_wtr F * (rho_air F * ((1 - bypass F) * airflow h o i))
             * Num.max 0 (x_r c' i 0 - coil_humidity x_sat h c' o i))
     else 0) /\ o_l_cl o i 0 <= 0.
Proof. by move=> F ni nj nm e0 infil x_sat dt h s c c' o Hs Hr Ha i0 i v0; exact: (step_latent Hs Hr Ha i0 v0). Qed.
Print Assumptions C10_dehumidification_partial.

(* C10, all houses: a room that is not cooled has no latent load. *)
Theorem C10_no_cooling_no_latent : forall (F : realFieldType) (ni nj nm : nat) (e0 : F) (infil : infil_fun F ni) (x_sat : F -> F)
    (dt : F) (h : house F ni nj nm) (s : step_data F ni nj) (c c' : conditions F ni nj nm) (o : outputs F ni nj),
  core_step e0 infil x_sat dt h s c = Some (c', o) ->
  forall i, removed o i <= 1 / 1000%:R -> o_l_cl o i 0 = 0.
Proof. by move=> F ni nj nm e0 infil x_sat dt h s c c' o Hs i; exact: (step_no_cooling Hs). Qed.
Print Assumptions C10_no_cooling_no_latent.

(* C10, all houses: with the equipment running no room ends more humid than in the same step with the
   equipment switched off. *)
Theorem C10_never_more_humid : forall (F : realFieldType) (ni nj nm : nat) (e0 : F) (infil : infil_fun F ni) (x_sat : F -> F)
    (dt : F) (h : house F ni nj nm) (s : step_data F ni nj) (c c' : conditions F ni nj nm) (o : outputs F ni nj),
  core_step e0 infil x_sat dt h s c = Some (c', o) ->
  physical_rooms dt h -> physical_air h s -> (forall tr to i, 0 <= infil tr to i 0) ->
  (forall i, 0 <= cap_h h i 0) -> (forall i, 0 <= cap_c h i 0) ->
  exists c0 o0, step (ot_off (get_ot_target_and_h_hum e0 (ni := ni))) infil x_sat dt h s c = Some (c0, o0) /\
    o_l_cs o0 = 0 /\ o_l_rs o0 = 0 /\ forall i, x_r c' i 0 <= x_r c0 i 0.
Proof. by move=> F ni nj nm e0 infil x_sat dt h s c c' o Hs Hr Ha i0 ch cc; exact: (step_drier Hs Hr Ha i0 ch cc). Qed.
Print Assumptions C10_never_more_humid.

(* C10 is false for rooms that receive air from other rooms: whatever the saturation curve, there are
   a house, gains and a state in which the coil of a cooled room adds moisture to the room. *)
Theorem C10_air_paths_refuted : forall (F : realFieldType) (e0 : F) (x_sat : F -> F),
  0 <= e0 -> (forall t, 0 < x_sat t) ->
  exists (infil : infil_fun F 2) (h : house F 2 4 1) (s : step_data F 2 4) (c c' : conditions F 2 4 1) (o : outputs F 2 4),
  [/\ core_step e0 infil x_sat 900%:R h s c = Some (c', o),
      [/\ physical_boundaries h, physical_rooms 900%:R h, physical_air h s, physical_hum h & forall tr to i, 0 <= infil tr to i 0],
      1 / 1000%:R < removed o 0, 0 < o_l_cl o 0 0 & x_r c' 0 0 < coil_humidity x_sat h c' o 0].
Proof. by move=> F e0 x_sat; exact: coil_humidifies. Qed.
Print Assumptions C10_air_paths_refuted.

Example C10_example (F : realFieldType) : exists c' o,
  [/\ core_step (1 / 8%:R) (@infil2 F) (@x_sat2 F) 900%:R (hx F) (@step2 F) (cond2 COOLING 30%:R) = Some (c', o),
      physical_rooms 900%:R (hx F), physical_air (hx F) (@step2 F) & forall i k, i != k -> v_int (hx F) i k = 0].
Proof. exact: hx_cool_ex. Qed.

(* with an air path from room 1 to room 0 *)
Example C10_example_air : forall F : realFieldType, exists c' o,
  [/\ core_step (1 / 8%:R) (@infil2 F) (@x_sat2 F) 900%:R (hv F) (@step2 F) (cond2 COOLING 30%:R) = Some (c', o),
      physical_rooms 900%:R (hv F) & v_int (hv F) 0 1 != 0].
Proof. exact: hv_step_ex. Qed.
