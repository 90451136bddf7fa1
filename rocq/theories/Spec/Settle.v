(* Specification: the state in which an unattended house comes to rest under constant conditions. *)
From mathcomp Require Import all_ssreflect ssralg ssrnum zmodp matrix.
From Verif Require Import Model.OperationMode Model.Numpy Model.PreCalc Model.Tick Model.Step Spec.StepEq Spec.Steady.
Set Implicit Arguments. Unset Strict Implicit. Unset Printing Implicit Defensive.
Import GRing.Theory Num.Theory.
Local Open Scope ring_scope.

Section Settle.
Variable F : realFieldType.
Variables ni nj nm : nat.

(* the heat of a person, W: 63 at 24 degrees, 4 less for each degree more, at most 119 *)
Definition person_heat (t : F) : F := Num.min (63%:R - 4%:R * (t - 24%:R)) 119%:R.

(* the textbook steady state with mechanical ventilation, infiltration, people and appliances, without heating and cooling *)
Definition at_rest (infil : infil_fun F ni) (h : house F ni nj nm) (s : step_data F ni nj) (c : conditions F ni nj nm) (theta_s : 'cV[F]_nj) : Prop :=
  steady_state h s (fun i => infil (theta_r c) (theta_o s) i 0 + (v_vent_ex h i 0 + v_mec_local s i 0))
    (fun i => q_gen s i 0 + person_heat (theta_r c i 0) * n_hum s i 0) (fun=> 0) (fun=> 0) c theta_s.
End Settle.
