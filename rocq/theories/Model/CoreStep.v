(* One step of the building as core.calc runs it (core/core.py 62, 82, 88), with the comfort functions
   that pre_calc_parameters.py 536 installs (method 'constant'). e0 stands for exp(-0.036 m).
   The infiltration function and the saturation humidity stay parameters here. *)
From mathcomp Require Import all_ssreflect ssralg ssrnum zmodp matrix.
From Verif Require Import Model.OperationMode Model.Numpy Model.PreCalc Model.Tick Model.Step Model.OtTarget.
Set Implicit Arguments. Unset Strict Implicit. Unset Printing Implicit Defensive.
Local Open Scope ring_scope.

Section CoreStep.
Variable F : realFieldType.
Variables ni nj nm : nat.

Definition core_step (e0 : F) (infil : infil_fun F ni) (x_sat : F -> F) (dt : F) (h : house F ni nj nm)
    (s : step_data F ni nj) (c : conditions F ni nj nm) : option (conditions F ni nj nm * outputs F ni nj) :=
  step (get_ot_target_and_h_hum e0 (ni := ni)) infil x_sat dt h s c.

End CoreStep.
