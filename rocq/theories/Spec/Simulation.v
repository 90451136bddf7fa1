(* Specification: a simulation of a house over run-up and main period, step by step. *)
From Coq Require Import ZArith.
From mathcomp Require Import all_ssreflect ssralg ssrnum zmodp matrix.
From Verif Require Import Model.OperationMode Model.Numpy Model.PreCalc Model.Tick Model.Step Model.CoreStep
  Model.Ground.
Set Implicit Arguments. Unset Strict Implicit. Unset Printing Implicit Defensive.
Import Order.TTheory GRing.Theory Num.Theory.
Local Open Scope ring_scope.

Section Simulation.
Variable F : realFieldType.
Variables ni nj nm : nat.
Variable data : seq (step_data F ni nj).

(* the data of time step n: the data is periodic, steps before 0 use the end of the period *)
Definition column (n : Z) (s : step_data F ni nj) : Prop :=
  List.nth_error data (Z.to_nat (n mod Z.of_nat (size data))%Z) = Some s.

Variables (e0 : F) (infil : infil_fun F ni) (x_sat : F -> F) (dt : F) (h : house F ni nj nm).
Variable is_ground : pred 'I_nj.
Variables (td : F) (c0 : conditions F ni nj nm).  (* deep ground temperature, initial building state *)

(* g n, c n: ground and building before step n; the last argument is the result table *)
Record simulation (n_main n_run_up n_build : Z) (g : Z -> ground_conditions F #|is_ground| nm)
    (c : Z -> conditions F ni nj nm) (log : seq (option (conditions F ni nj nm * outputs F ni nj))) : Prop := {
  sim_g0 : g (- n_run_up)%Z = ground_init F #|is_ground| nm;
  sim_g : forall n, (- n_run_up <= n < - n_build)%Z -> exists s, column n s /\
    g (n + 1)%Z = ground_tick (make_ground is_ground h td) (theta_o s) (g n);
  sim_c0 : c (- n_build)%Z = hand_over c0 (g (- n_build)%Z);
  sim_c : forall n, (- n_build <= n < n_main)%Z -> exists s o, column n s /\
    core_step e0 infil x_sat dt h s (c n) = Some (c (n + 1)%Z, o) /\
    ((0 <= n)%Z -> List.nth_error log (Z.to_nat n) = Some (Some (c (n + 1)%Z, o)));
  sim_log : size log = Z.to_nat n_main
}.
End Simulation.
