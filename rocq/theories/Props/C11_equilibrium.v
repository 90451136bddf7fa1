From mathcomp Require Import all_ssreflect ssralg ssrnum zmodp matrix.
From Verif Require Import Model.OperationMode Model.Numpy Model.NextCondition Model.PreCalc Model.Tick
  Model.Step Model.OtTarget Model.CoreStep Spec.Physical Spec.Natural Spec.StepEq Spec.Equil Spec.Coil Spec.Warmer.
From Verif Require Import Lemmas.TickTotal Lemmas.TickEquil Lemmas.TickEnergy Lemmas.NextConditionL Lemmas.StepL
  Lemmas.StepProps Lemmas.CoreStepL Lemmas.LoadRefute Examples.House2 Lemmas.TickRefute Examples.House2Ex.
Set Implicit Arguments. Unset Strict Implicit. Unset Printing Implicit Defensive.
Import Order.TTheory GRing.Theory Num.Theory.
Local Open Scope ring_scope.

(* C11: thermal equilibrium is preserved, in houses without air paths between rooms.  With an air path it
   is not: the air balance in the code has no matching outflow and the wrong sign (C02). *)
Theorem C11_equilibrium_partial : forall (F : realFieldType) (ni nj nm : nat) (e0 : F) (infil : infil_fun F ni)
    (x_sat : F -> F) (dt : F) (h : house F ni nj nm) (s : step_data F ni nj) (c c' : conditions F ni nj nm)
    (o : outputs F ni nj) (T : F),
  core_step e0 infil x_sat dt h s c = Some (c', o) ->
  (forall i, 0 <= cap_h h i 0) -> (forall i, 0 <= cap_c h i 0) ->
  physical_boundaries h -> physical_rooms dt h -> physical_air h s -> (forall tr to i, 0 <= infil tr to i 0) ->
  no_room_air h -> steady_walls h -> at_rest T h c -> quiet T s -> equipment_off c' ->
  [/\ at_rest T h c', (forall j, o_theta_s o j 0 = T) &
      ((forall i : 'I_ni, \sum_(j | conn h j == i) f_mrt_hum h j 0 = 1) -> forall i, theta_mrt_hum c' i 0 = T)].
Proof.
by move=> F ni nj nm e0 infil x_sat dt h s c c' o T Hs ch cc Hb Hr Ha i0; exact: (step_at_rest Hs ch cc Hb Hr Ha i0).
Qed.
Print Assumptions C11_equilibrium_partial.

Theorem C11_equilibrium_refuted : forall (F : realFieldType), exists (T : F) (h : house F 2 4 1) (s : step_data F 2 4)
    (c c' : conditions F 2 4 1) (o : outputs F 2 4),
  [/\ [/\ physical_boundaries h, physical_rooms 900%:R h & steady_walls h],
      at_rest T h c, quiet T s,
      core_step (1 / 8%:R) (@infil2 F) (@x_sat2 F) 900%:R h s c = Some (c', o) /\ equipment_off c' &
      ~ at_rest T h c'].
Proof.
by move=> F; have [c' [o H]] := rest_fails (oner_neq0 F); do 4 eexists; exists c', o; exact: H.
Qed.
Print Assumptions C11_equilibrium_refuted.

Example C11_example (F : realFieldType) (T : F) : exists c' o,
  [/\ core_step (1 / 8%:R) (@infil2 F) (@x_sat2 F) 900%:R (hx F) (quiet0 T) (rest0 T) = Some (c', o) /\ equipment_off c',
      physical_boundaries (hx F), physical_rooms 900%:R (hx F), physical_air (hx F) (quiet0 T)
    & [/\ no_room_air (hx F), steady_walls (hx F), at_rest T (hx F) (rest0 T) & quiet T (quiet0 T)]].
Proof. exact: hx_rest_ex. Qed.
