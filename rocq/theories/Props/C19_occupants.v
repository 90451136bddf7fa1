From Coq Require Import ZArith.
From mathcomp Require Import all_ssreflect ssralg ssrnum zmodp matrix.
From Verif Require Import Model.OperationMode Model.Dec Model.PreCalc Model.Tick Model.OtTarget Spec.Automaton.
From Verif Require Import Lemmas.DecL Lemmas.OtTargetL Lemmas.AutomatonL.
Set Implicit Arguments. Unset Strict Implicit. Unset Printing Implicit Defensive.
Import Order.TTheory GRing.Theory Num.Theory.
Local Open Scope ring_scope.

(* C19: occupants release a constant total of 119 W. q_hum_psn: sensible heat, W; x_hum_psn: moisture, kg/s. *)
Theorem C19_occupants : forall (F : realFieldType),
  [/\ forall t : F, q_hum_psn t + x_hum_psn t * (2501%:R * 1000%:R) = 119%:R,
      forall t : F, 0 <= x_hum_psn t,
      forall t : F, q_hum_psn t <= 119%:R,
      forall t t' : F, t <= t' -> q_hum_psn t' <= q_hum_psn t &
      forall t : F, (0 <= q_hum_psn t) = (t <= 159%:R / 4%:R)].
Proof. exact: occupants_all. Qed.
Print Assumptions C19_occupants.

Example C19_example (F : realFieldType) : q_hum_psn (24%:R : F) = 63%:R.
Proof. by rewrite /q_hum_psn subrr mulr0 subr0; apply/min_idPl; rewrite ler_nat. Qed.
