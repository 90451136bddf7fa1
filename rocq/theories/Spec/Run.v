(* Specification for C01: a run of the whole calculation as a sequence of states indexed by step number. *)
From Coq Require Import ZArith List.
From Verif Require Import Model.Py.
Open Scope Z_scope.

Section Run.
Variables G C O : Type.
Variable ground_tick : Z -> G -> res G.
Variable tick : Z -> C -> res (C * O).
Variable g0 : G.             (* ground before the first step *)
Variable start : G -> C.     (* building state at the beginning of the building run-up, from the ground state *)

(* states g n before ground step n, c n before building step n, and the output o n of step n; ground
   steps are -n_run_up .. -n_build-1, building steps are -n_build .. n_main-1. *)
Record run (n_main n_run_up n_build : Z) (g : Z -> G) (c : Z -> C) (o : Z -> option O) : Prop := {
  run_g0 : g (- n_run_up) = g0;
  run_g : forall n, - n_run_up <= n < - n_build -> ground_tick n (g n) = Ok (g (n + 1));
  run_c0 : c (- n_build) = start (g (- n_build));
  run_c : forall n, - n_build <= n < n_main -> exists x, tick n (c n) = Ok (c (n + 1), x) /\ o n = Some x
}.

(* the log has one column per main step and column n holds the output of step n *)
Definition logged (n_main : Z) (o : Z -> option O) (log : list (option O)) : Prop :=
  length log = Z.to_nat n_main /\ forall n, 0 <= n < n_main -> nth_error log (Z.to_nat n) = Some (o n).
End Run.
Arguments run {G C O} ground_tick tick g0 start.
Arguments logged {O} n_main o log.
