From mathcomp Require Import all_ssreflect ssralg ssrnum zmodp matrix.
From Verif Require Import Model.OperationMode Model.Numpy Model.NextCondition Model.PreCalc Model.Tick
  Model.Step Model.OtTarget Model.CoreStep Spec.Physical Spec.Natural Spec.StepEq Spec.Equil Spec.Coil Spec.Warmer.
From Verif Require Import Lemmas.TickTotal Lemmas.TickEquil Lemmas.TickEnergy Lemmas.NextConditionL Lemmas.StepL
  Lemmas.StepProps Lemmas.CoreStepL Lemmas.LoadRefute Examples.House2 Lemmas.TickRefute Examples.House2Ex.
Set Implicit Arguments. Unset Strict Implicit. Unset Printing Implicit Defensive.
Import Order.TTheory GRing.Theory Num.Theory.
Local Open Scope ring_scope.

(* C05: surface temperatures satisfy the wall response equations, if the two sides of every inner wall
   have the same coefficients and area; otherwise the code uses the front side's data for the rear side
   (pre_calc_parameters.py 491-509) and the equation fails. *)
Theorem C05_surface_response_partial : forall (F : realFieldType) (ni nj nm : nat) (e0 : F) (infil : infil_fun F ni) (x_sat : F -> F)
    (dt : F) (h : house F ni nj nm) (s : step_data F ni nj) (c c' : conditions F ni nj nm) (o : outputs F ni nj),
  core_step e0 infil x_sat dt h s c = Some (c', o) -> physical_boundaries h ->
  forall j,
  (forall k coef, k_ei h j = Some (k, coef) ->
     [/\ h_c h k 0 = h_c h j 0, h_r h k 0 = h_r h j 0 & a_srf h k 0 = a_srf h j 0]) ->
  surface_response h s c' o j /\ forall m, response_terms h s c c' j m.
Proof. by move=> F ni nj nm e0 infil x_sat dt h s c c' o Hs Hb j; exact: (core_surface Hs). Qed.
Print Assumptions C05_surface_response_partial.

Theorem C05_surface_response_refuted : forall F : realFieldType,
  exists (h : house F 2 4 1) (s : step_data F 2 4) (c c' : conditions F 2 4 1) (o : outputs F 2 4),
  [/\ physical_boundaries h, physical_rooms 900%:R h,
      core_step (1 / 8%:R) (@infil2 F) (@x_sat2 F) 900%:R h s c = Some (c', o) &
      ~ (forall j, surface_response h s c' o j)].
Proof.
by move=> F; have [c' [o H]] := doc_surface_fails (oner_neq0 F); do 3 eexists; exists c', o; exact: H.
Qed.
Print Assumptions C05_surface_response_refuted.

Example C05_example (F : realFieldType) : exists c' o,
  [/\ core_step (1 / 8%:R) (@infil2 F) (@x_sat2 F) 900%:R (hx F) (@step2 F) (cond2 HEATING 15%:R) = Some (c', o),
      physical_boundaries (hx F) & forall j k coef, k_ei (hx F) j = Some (k, coef) ->
     [/\ h_c (hx F) k 0 = h_c (hx F) j 0, h_r (hx F) k 0 = h_r (hx F) j 0 & a_srf (hx F) k 0 = a_srf (hx F) j 0]].
Proof. exact: hx_symmetric_ex. Qed.
