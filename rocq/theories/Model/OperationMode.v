(* heat_load_calc/core/operation_mode.py 4-19: class OperationMode(IntEnum) *)
From Coq Require Import ZArith.

Inductive mode : Type :=
| COOLING               (* 7  *)
| HEATING               (* 10 *)
| STOP_OPEN             (* 13 *)
| STOP_CLOSE            (* 16 *)
| HEATING_AND_COOLING.  (* 19 *)

(* the IntEnum value *)
Definition mode_value (m : mode) : Z :=
  match m with
  | COOLING => 1 | HEATING => 2 | STOP_OPEN => 3 | STOP_CLOSE => 4 | HEATING_AND_COOLING => 5
  end%Z.

(* equality of two operation modes, as used by `operation_mode_is_n == OperationMode.HEATING` *)
Definition mode_eqb (a b : mode) : bool := Z.eqb (mode_value a) (mode_value b).
