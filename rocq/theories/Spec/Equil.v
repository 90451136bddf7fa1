(* Specification: a building at rest at one temperature, and surroundings that do nothing. *)
From mathcomp Require Import all_ssreflect ssralg ssrnum zmodp matrix.
From Verif Require Import Model.OperationMode Model.Numpy Model.PreCalc Model.Tick.
Set Implicit Arguments. Unset Strict Implicit. Unset Printing Implicit Defensive.
Import GRing.Theory Num.Theory.
Local Open Scope ring_scope.

Section Equil.
Variable F : realFieldType.
Variables ni nj nm : nat.
Variables (T : F) (h : house F ni nj nm).

(* every temperature is T, no heat flows, and the walls have seen nothing but T for ever *)
Record at_rest (c : conditions F ni nj nm) : Prop := {
  rest_air : forall i, theta_r c i 0 = T;
  rest_furniture : forall i, theta_frt c i 0 = T;
  rest_ei : forall j, theta_ei c j 0 = T;
  rest_q : forall j, q_srf c j 0 = 0;
  rest_a : forall j m, theta_dsh_a c j m = 0;
  rest_t : forall j m, theta_dsh_t c j m = phi_t1 h j m / (1 - r_ms h j m) * T
}.

(* outdoors is at T, no sun, no gains, nobody at home *)
Record quiet (s : step_data F ni nj) : Prop := {
  quiet_o : theta_o s = T;
  quiet_o_sol : forall j, theta_o_sol s j 0 = T;
  quiet_gen : forall i, q_gen s i 0 = 0;
  quiet_hum : forall i, n_hum s i 0 = 0;
  quiet_sol : forall i, q_trs_sol s i 0 = 0
}.

Definition equipment_off (c' : conditions F ni nj nm) : Prop :=
  forall i, operation_mode c' i <> HEATING /\ operation_mode c' i <> COOLING.

(* The walls' steady state is that of a wall: response factors that add up to one (C30), and a weighted
   mean of temperatures behind the wall (C31). *)
Record steady_walls : Prop := {
  sw_r : forall j m, r_ms h j m != 1;
  sw_phi : forall j, phi_t0 h j 0 + \sum_m phi_t1 h j m / (1 - r_ms h j m) = 1;
  sw_k : forall j, k_eo h j 0 + (if k_ei h j is Some (_, coef) then coef else 0) = 1
}.

Definition no_room_air : Prop := forall i k, v_int h i k = 0.

End Equil.
