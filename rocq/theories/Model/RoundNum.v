(* heat_load_calc/convert/general_functions.py. Numbers are exact: the binary representation of decimal numbers and the sign of
   zero are not modelled. *)
From Coq Require Import Reals ZArith.
Local Open Scope R_scope.

(* math.copysign(1, num) *)
Definition copysign1 (num : R) : R := if Rlt_dec num 0 then -1 else 1.

(* math.floor *)
Definition math_floor (x : R) : Z := (up x - 1)%Z.

(* 4-31 round_num *)
Definition round_num (num : R) (digit : Z) : R :=
  let power := powerRZ 10 digit in
  let sign := copysign1 num in
  IZR (math_floor (sign * power * num + 5 / 10)) / (sign * power).
