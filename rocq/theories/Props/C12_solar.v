From mathcomp Require Import all_ssreflect ssralg ssrnum zmodp matrix.
From Verif Require Import Model.OperationMode Model.Numpy Model.NextCondition Model.PreCalc Model.Tick
  Model.Step Model.OtTarget Model.CoreStep Spec.Physical Spec.Natural Spec.StepEq Spec.Equil Spec.Coil Spec.Warmer.
From Verif Require Import Lemmas.TickTotal Lemmas.TickEquil Lemmas.TickEnergy Lemmas.NextConditionL Lemmas.StepL
  Lemmas.StepProps Lemmas.CoreStepL Lemmas.LoadRefute Examples.House2 Lemmas.TickRefute Examples.House2Ex.
Set Implicit Arguments. Unset Strict Implicit. Unset Printing Implicit Defensive.
Import Order.TTheory GRing.Theory Num.Theory.
Local Open Scope ring_scope.

(* C12: transmitted solar heat is neither created nor lost indoors. q_sol_frt: W absorbed by furniture,
   q_sol_js: W/m2 absorbed by a surface. *)
Theorem C12_solar_split : forall (F : realFieldType) (ni nj nm : nat) (h : house F ni nj nm) (s : step_data F ni nj)
    (i : 'I_ni),
  physical_boundaries h -> (exists j, conn h j = i :> nat /\ is_solar_abs h j) ->
  q_sol_frt s i 0 + \sum_(j | conn h j == i) a_srf h j 0 * q_sol_js h s j 0 = q_trs_sol s i 0 /\
  forall j, is_solar_abs h j = false -> q_sol_js h s j 0 = 0.
Proof. by move=> F ni nj nm h s i Hb; exact: solar_conserved. Qed.
Print Assumptions C12_solar_split.

Example C12_example (F : realFieldType) : physical_boundaries (hx F) /\
  exists j, conn (hx F) j = (0 : 'I_2) :> nat /\ is_solar_abs (hx F) j.
Proof. exact: hx_solar_ex. Qed.
