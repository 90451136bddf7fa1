(* Specification: the same step with more heat from inside, from the sun and from the outer surfaces. *)
From mathcomp Require Import all_ssreflect ssralg ssrnum zmodp matrix.
From Verif Require Import Model.OperationMode Model.Numpy Model.PreCalc Model.Tick.
Set Implicit Arguments. Unset Strict Implicit. Unset Printing Implicit Defensive.
Local Open Scope ring_scope.

Section Warmer.
Variable F : realFieldType.
Variables ni nj nm : nat.

Record warmer (s s2 : step_data F ni nj) : Prop := {
  w_demand : ac_demand s2 = ac_demand s;
  w_air : theta_o s2 = theta_o s;
  w_people : n_hum s2 = n_hum s;
  w_vent : v_mec_local s2 = v_mec_local s;
  w_gen : forall i, q_gen s i 0 <= q_gen s2 i 0;
  w_sun : forall i, q_trs_sol s i 0 <= q_trs_sol s2 i 0;
  w_outer : forall j, theta_o_sol s j 0 <= theta_o_sol s2 j 0
}.

Record all_warmer (c1 c2 : conditions F ni nj nm) (o1 o2 : outputs F ni nj) : Prop := {
  aw_air : forall i, theta_r c1 i 0 <= theta_r c2 i 0;
  aw_surface : forall j, o_theta_s o1 j 0 <= o_theta_s o2 j 0;
  aw_mrt : forall i, theta_mrt_hum c1 i 0 <= theta_mrt_hum c2 i 0;
  aw_operative : forall i, o_theta_ot o1 i 0 <= o_theta_ot o2 i 0;
  aw_furniture : forall i, theta_frt c1 i 0 <= theta_frt c2 i 0
}.
End Warmer.
