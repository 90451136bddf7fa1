(* Specification: the coil of a room air conditioner (docs/derivation/vapour_balance.adoc). *)
From mathcomp Require Import all_ssreflect ssralg ssrnum zmodp matrix.
From Verif Require Import Model.OperationMode Model.Numpy Model.PreCalc Model.Tick.
Set Implicit Arguments. Unset Strict Implicit. Unset Printing Implicit Defensive.
Import GRing.Theory Num.Theory.
Local Open Scope ring_scope.

Section Coil.
Variable F : realFieldType.
Variables ni nj nm : nat.
Variables (x_sat : F -> F) (h : house F ni nj nm) (c' : conditions F ni nj nm) (o : outputs F ni nj).

(* sensible heat removed from room i, W *)
Definition removed (i : 'I_ni) : F := - o_l_cs o i 0.
(* air through the coil, m3/s: linear between the minimum and the maximum (given in m3/min) *)
Definition airflow i : F :=
  (v_min h i 0 + (v_max h i 0 - v_min h i 0) / (q_max h i 0 - q_min h i 0) * (removed i - q_min h i 0)) / 60%:R.
(* a fifth of the air bypasses the coil *)
Definition bypass : F := 2%:R / 10%:R.
(* saturation humidity at the surface of the coil *)
Definition coil_humidity i : F :=
  x_sat (theta_r c' i 0 - removed i / (c_air F * rho_air F * airflow i * (1 - bypass))).

End Coil.
