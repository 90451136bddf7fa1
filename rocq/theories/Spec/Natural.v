(* Specification: the same step with the equipment switched off. It gives the "natural" temperatures
   against which the need for heating and cooling is judged. *)
From mathcomp Require Import all_ssreflect ssralg ssrnum zmodp matrix.
From Verif Require Import Model.OperationMode Model.Numpy Model.PreCalc Model.Tick.
Set Implicit Arguments. Unset Strict Implicit. Unset Printing Implicit Defensive.
Local Open Scope ring_scope.

Section Natural.
Variable F : realFieldType.
Variable ni : nat.

Definition off_mode (m : mode) : mode :=
  match m with HEATING => STOP_CLOSE | COOLING => STOP_CLOSE | m => m end.

(* the comfort function of a building without heating and cooling: same comfort data, same windows *)
Definition ot_off (ot : ot_fun F ni) : ot_fun F ni := fun x om t tm ac =>
  if ot x om t tm ac is Some (hc, hr, md, lo, up)
  then Some (hc, hr, fun i => off_mode (md i), lo, up) else None.

End Natural.
