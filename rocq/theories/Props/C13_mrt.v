From mathcomp Require Import all_ssreflect ssralg ssrnum zmodp matrix.
From Verif Require Import Model.OperationMode Model.Numpy Model.NextCondition Model.PreCalc Model.Tick
  Model.Step Model.OtTarget Model.CoreStep Spec.Physical Spec.Natural Spec.StepEq Spec.Equil Spec.Coil Spec.Warmer.
From Verif Require Import Lemmas.TickTotal Lemmas.TickEquil Lemmas.TickEnergy Lemmas.NextConditionL Lemmas.StepL
  Lemmas.StepProps Lemmas.CoreStepL Lemmas.LoadRefute Examples.House2 Lemmas.TickRefute Examples.House2Ex.
Set Implicit Arguments. Unset Strict Implicit. Unset Printing Implicit Defensive.
Import Order.TTheory GRing.Theory Num.Theory.
Local Open Scope ring_scope.

(* C13: the weights of the mean radiant temperature of a room with at least one boundary are a convex
   combination over the room's own surfaces. *)
Theorem C13_mrt_weights : forall (F : realFieldType) (ni nj nm : nat) (h : house F ni nj nm),
  physical_boundaries h ->
  (forall i j, 0 <= f_mrt_is_js h i j) /\ (forall (i : 'I_ni) j, conn h j <> i :> nat -> f_mrt_is_js h i j = 0) /\
  (forall i : 'I_ni, (exists j, conn h j = i :> nat) -> \sum_j f_mrt_is_js h i j = 1).
Proof. by move=> F ni nj nm h; exact: mrt_weights. Qed.
Print Assumptions C13_mrt_weights.

Example C13_example (F : realFieldType) : physical_boundaries (hx F) /\
  forall i : 'I_2, exists j, conn (hx F) j = i :> nat.
Proof. exact: hx_conn_ex. Qed.
