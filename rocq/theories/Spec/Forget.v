(* Specification: how far apart two states of the same house are, and houses that forget their past. *)
From Coq Require Import ZArith.
From mathcomp Require Import all_ssreflect ssralg ssrnum zmodp matrix.
From Verif Require Import Model.OperationMode Model.Numpy Model.PreCalc Model.Tick Spec.StepEq.
Set Implicit Arguments. Unset Strict Implicit. Unset Printing Implicit Defensive.
Import GRing.Theory Num.Theory.
Local Open Scope ring_scope.

Section Forget.
Variable F : realFieldType.
Variables ni nj nm : nat.
Variables (dt : F) (h : house F ni nj nm).

(* what boundary j remembers in term m, and what it will remember one step later apart from the new weather *)
Definition memory (c : conditions F ni nj nm) (j : 'I_nj) (m : 'I_nm) : F := theta_dsh_a c j m + theta_dsh_t c j m.
Definition upcoming (c : conditions F ni nj nm) j m : F := phi_a1 h j m * q_srf c j 0 + r_ms h j m * memory c j m.

(* weighted squares of the differences of two states: walls per m2 and rooms with their furniture *)
Definition wall_gap (c c2 : conditions F ni nj nm) (j : 'I_nj) : F :=
  \sum_(m | phi_a1 h j m != 0) (upcoming c2 j m - upcoming c j m) ^+ 2 / (2%:R * phi_a1 h j m).
Definition room_gap (c c2 : conditions F ni nj nm) (i : 'I_ni) : F :=
  (v_room h i 0 * cap_air F / dt * (theta_r c2 i 0 - theta_r c i 0) ^+ 2
   + c_sh h i 0 / dt * (theta_frt c2 i 0 - theta_frt c i 0) ^+ 2) / 2%:R.
Definition gap (sigma : F) (c c2 : conditions F ni nj nm) : F :=
  (\sum_j a_srf h j 0 * wall_gap c c2 j) + (\sum_i room_gap c c2 i) / sigma.

(* the response terms that a boundary does not use are the same *)
Definition same_idle (c c2 : conditions F ni nj nm) : Prop :=
  forall j m, phi_a1 h j m = 0 -> upcoming c2 j m = upcoming c j m.

(* the same outdoor air and the same output of the equipment *)
Record same_operation (s : step_data F ni nj) (o o2 : outputs F ni nj) : Prop := {
  so_air : forall i, air_from_outside h s o2 i = air_from_outside h s o i;
  so_convective : forall i, o_l_cs o2 i 0 = o_l_cs o i 0;
  so_radiant : forall i, o_l_rs o2 i 0 = o_l_rs o i 0
}.

(* a house that forgets at the rate sigma per step: no boundary has another room behind it, no air paths between
   rooms; walls give back less than they take up; furniture exchanges heat with the air *)
Record forgetful (sigma : F) : Prop := {
  fo_sigma : 0 < sigma < 1;
  fo_single : forall j, k_ei h j = None;
  fo_paths : forall i k, v_int h i k = 0;
  fo_phi : forall j m, 0 <= phi_a1 h j m;
  fo_ratio : forall j m, 0 <= r_ms h j m <= sigma;
  fo_total : forall j, \sum_m phi_a1 h j m / (sigma + r_ms h j m) <= phi_a0 h j 0;
  fo_furniture : forall i, (1 - sigma ^+ 2) * c_sh h i 0 <= sigma ^+ 2 * (dt * g_sh h i 0);
  (* terms that are not used for the inside are not used for the outside *)
  fo_idle : forall j m, phi_a1 h j m = 0 -> phi_t1 h j m = 0
}.

(* the same without a rate: everything that is stored leaks *)
Record leaky : Prop := {
  lk_single : forall j, k_ei h j = None;
  lk_paths : forall i k, v_int h i k = 0;
  lk_phi : forall j m, 0 <= phi_a1 h j m;
  lk_ratio : forall j m, 0 <= r_ms h j m < 1;
  lk_total : forall j, \sum_m phi_a1 h j m / (1 + r_ms h j m) < phi_a0 h j 0
    \/ 0 <= phi_a0 h j 0 /\ forall m, phi_a1 h j m = 0;
  lk_furniture : forall i, 0 < g_sh h i 0;
  lk_idle : forall j m, phi_a1 h j m = 0 -> phi_t1 h j m = 0
}.

(* enough outdoor air for that rate; not more than a crowd in the room *)
Record aired (sigma : F) (s : step_data F ni nj) (o : outputs F ni nj) : Prop := {
  ai_air : forall i, (1 - sigma ^+ 2) * (v_room h i 0 * cap_air F / 2%:R + c_sh h i 0)
                     <= sigma ^+ 2 * (dt * (cap_air F * air_from_outside h s o i));
  ai_people : forall i, 0 <= n_hum s i 0 /\ 4%:R * n_hum s i 0 <= 2%:R * (v_room h i 0 * cap_air F / dt)
}.

(* nobody asks for heating or cooling; at least v0 of outdoor air; not more than a crowd in the room *)
Definition unattended (v0 : F) (s : step_data F ni nj) : Prop := forall i,
  [/\ ac_demand s i 0 <= 0, v0 <= v_vent_ex h i 0 + v_mec_local s i 0, 0 <= n_hum s i 0
    & 4%:R * n_hum s i 0 <= 2%:R * (v_room h i 0 * cap_air F / dt)].

End Forget.
