(* heat_load_calc/initializer/residents_number.py 2-17 *)
From Coq Require Import Reals.
Local Open Scope R_scope.

Definition get_total_number_of_residents (a_floor_total : R) : R :=
  if Rlt_dec a_floor_total 30 then 1
  else if Rlt_dec a_floor_total 120 then a_floor_total / 30
  else 4.
