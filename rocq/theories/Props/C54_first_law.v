From mathcomp Require Import all_ssreflect ssralg ssrnum zmodp matrix.
From Verif Require Import Model.OperationMode Model.Numpy Model.NextCondition Model.PreCalc Model.Tick
  Model.Step Model.OtTarget Model.CoreStep Spec.Physical Spec.Natural Spec.StepEq Spec.Equil Spec.Coil Spec.Warmer.
From Verif Require Import Lemmas.TickTotal Lemmas.TickEquil Lemmas.TickEnergy Lemmas.NextConditionL Lemmas.StepL
  Lemmas.StepProps Lemmas.CoreStepL Lemmas.LoadRefute Examples.House2 Lemmas.TickRefute Examples.House2Ex.
Set Implicit Arguments. Unset Strict Implicit. Unset Printing Implicit Defensive.
Import Order.TTheory GRing.Theory Num.Theory.
Local Open Scope ring_scope.

(* C54: the first law for a room without air paths, and radiant exchange between surfaces conserves energy. *)
Theorem C54_first_law : forall (F : realFieldType) (ni nj nm : nat) (e0 : F) (infil : infil_fun F ni) (x_sat : F -> F)
    (dt : F) (h : house F ni nj nm) (s : step_data F ni nj) (c c' : conditions F ni nj nm) (o : outputs F ni nj),
  core_step e0 infil x_sat dt h s c = Some (c', o) ->
  forall i : 'I_ni, physical_boundaries h -> physical_rooms dt h ->
  (exists j, conn h j = i :> nat /\ is_solar_abs h j) ->
  (o_l_rs o i 0 != 0 -> \sum_(j | conn h j == i) flr h j 0 = 1) ->
  (forall k, v_int h i k = 0) -> first_law dt h s c c' o i.
Proof. by move=> F ni nj nm e0 infil x_sat dt h s c c' o Hs i; exact: (core_first_law Hs). Qed.
Print Assumptions C54_first_law.

(* net radiant heat between the surfaces of a room and its mean radiant temperature is zero *)
Theorem C54_radiant_exchange : forall (F : realFieldType) (ni nj nm : nat) (h : house F ni nj nm)
    (theta_s : 'cV[F]_nj), physical_boundaries h -> forall i : 'I_ni,
  \sum_(j | conn h j == i) a_srf h j 0 * h_r h j 0 * ((f_mrt_is_js h *m theta_s) i 0 - theta_s j 0) = 0.
Proof. by move=> F ni nj nm h theta_s Hb i; exact: radiant_exchange_any. Qed.
Print Assumptions C54_radiant_exchange.

Example C54_example (F : realFieldType) : exists c' o,
  [/\ core_step (1 / 8%:R) (@infil2 F) (@x_sat2 F) 900%:R (hx F) (@step2 F) (cond2 HEATING 15%:R) = Some (c', o),
      physical_boundaries (hx F), physical_rooms 900%:R (hx F) & forall i k, v_int (hx F) i k = 0].
Proof. exact: hx_law_ex. Qed.
