From mathcomp Require Import all_ssreflect ssralg ssrnum zmodp matrix.
From Verif Require Import Model.OperationMode Model.Numpy Model.NextCondition Model.PreCalc Model.Tick
  Model.Step Model.OtTarget Model.CoreStep Spec.Physical Spec.Natural Spec.StepEq Spec.Equil Spec.Coil Spec.Warmer.
From Verif Require Import Lemmas.TickTotal Lemmas.TickEquil Lemmas.TickEnergy Lemmas.NextConditionL Lemmas.StepL
  Lemmas.StepProps Lemmas.CoreStepL Lemmas.LoadRefute Examples.House2 Lemmas.TickRefute Examples.House2Ex.
Set Implicit Arguments. Unset Strict Implicit. Unset Printing Implicit Defensive.
Import Order.TTheory GRing.Theory Num.Theory.
Local Open Scope ring_scope.

(* C53: more gains, sun or outdoor equivalent temperature never lower the temperatures of a free-running
   house without air paths between rooms. *)
Theorem C53_monotone : forall (F : realFieldType) (ni nj nm : nat) (e0 : F) (infil : infil_fun F ni) (x_sat : F -> F)
    (dt : F) (h : house F ni nj nm) (s s2 : step_data F ni nj) (c c' c2 : conditions F ni nj nm)
    (o o2 : outputs F ni nj),
  core_step e0 infil x_sat dt h s c = Some (c', o) -> core_step e0 infil x_sat dt h s2 c = Some (c2, o2) ->
  (forall i, 0 <= cap_h h i 0) -> (forall i, 0 <= cap_c h i 0) ->
  physical_boundaries h -> physical_rooms dt h -> physical_air h s -> physical_hum h ->
  (forall tr to i, 0 <= infil tr to i 0) -> (forall i k, i != k -> v_int h i k = 0) ->
  (forall j, 0 <= k_eo h j 0 * (phi_t0 h j 0 + \sum_m phi_t1 h j m)) ->
  equipment_off c' -> warmer s s2 -> all_warmer c' c2 o o2.
Proof.
by move=> F ni nj nm e0 infil x_sat dt h s s2 c c' c2 o o2 Hs Hs2; exact: (core_warmer Hs Hs2).
Qed.
Print Assumptions C53_monotone.

Example C53_example (F : realFieldType) (T : F) : exists c' o c2 o2,
  [/\ core_step (1 / 8%:R) (@infil2 F) (@x_sat2 F) 900%:R (hx F) (quiet0 T) (rest0 T) = Some (c', o) /\ equipment_off c',
      core_step (1 / 8%:R) (@infil2 F) (@x_sat2 F) 900%:R (hx F) (sunny0 T) (rest0 T) = Some (c2, o2),
      warmer (quiet0 T) (sunny0 T), (forall i, q_gen (quiet0 T) i 0 < q_gen (sunny0 T) i 0)
    & forall j, 0 <= k_eo (hx F) j 0 * (phi_t0 (hx F) j 0 + \sum_m phi_t1 (hx F) j m)].
Proof. exact: hx_warm_ex. Qed.
