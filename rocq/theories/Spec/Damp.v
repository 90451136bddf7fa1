(* Specification: how far apart the humidities of two states are, and the humidity at which a house comes to rest. *)
From mathcomp Require Import all_ssreflect ssralg ssrnum zmodp matrix.
From Verif Require Import Model.OperationMode Model.Numpy Model.PreCalc Model.Tick Spec.StepEq Spec.Coil Spec.Settle.
Set Implicit Arguments. Unset Strict Implicit. Unset Printing Implicit Defensive.
Import GRing.Theory Num.Theory.
Local Open Scope ring_scope.

Section Damp.
Variable F : realFieldType.
Variables ni nj nm : nat.

(* the humidity of no room and of no furniture differs by more than D, kg/kg(DA) *)
Definition humidity_within (D : F) (c c2 : conditions F ni nj nm) : Prop :=
  forall i, `|x_r c2 i 0 - x_r c i 0| <= D /\ `|x_frt c2 i 0 - x_frt c i 0| <= D.

(* no equipment removes so much heat that its coil is at work (sequence.py: more than 1 mW) *)
Definition coils_idle (o : outputs F ni nj) : Prop := forall i, removed o i <= 1 / 1000%:R.

(* the coils of two steps do the same: idle in both, or at work with the same output in a room that gets no air from
   other rooms and has the same temperature in both. Their humidities may differ. *)
Definition coils_alike (h : house F ni nj nm) (c' c2' : conditions F ni nj nm) (o o2 : outputs F ni nj) : Prop := forall i,
  (removed o i <= 1 / 1000%:R /\ removed o2 i <= 1 / 1000%:R) \/
  [/\ forall k, i != k -> v_int h i k = 0, removed o2 i = removed o i & theta_r c2' i 0 = theta_r c' i 0].

(* two states that differ in their humidities only *)
Definition same_heat (c c2 : conditions F ni nj nm) : Prop :=
  [/\ [/\ (forall i, operation_mode c2 i = operation_mode c i), theta_r c2 = theta_r c, theta_mrt_hum c2 = theta_mrt_hum c & theta_frt c2 = theta_frt c],
      theta_dsh_a c2 = theta_dsh_a c, theta_dsh_t c2 = theta_dsh_t c, q_srf c2 = q_srf c & theta_ei c2 = theta_ei c].

(* the comfort model asks for the same: modes of operation, lower and upper targets *)
Definition same_targets (ot : ot_fun F ni) (s : step_data F ni nj) (c c2 : conditions F ni nj nm) : Prop :=
  forall hc hr md lo up hc2 hr2 md2 lo2 up2,
  ot (x_r c) (operation_mode c) (theta_r c) (theta_mrt_hum c) (ac_demand s) = Some (hc, hr, md, lo, up) ->
  ot (x_r c2) (operation_mode c2) (theta_r c2) (theta_mrt_hum c2) (ac_demand s) = Some (hc2, hr2, md2, lo2, up2) ->
  [/\ forall i, md2 i = md i, lo2 = lo & up2 = up].

(* two steps that differ in the condensate only *)
Definition same_flows (o o2 : outputs F ni nj) : Prop :=
  [/\ [/\ o_q_hum o2 = o_q_hum o, o_x_hum o2 = o_x_hum o, o_l_cs o2 = o_l_cs o & o_l_rs o2 = o_l_rs o],
      [/\ o_v_leak o2 = o_v_leak o, o_v_ntrl o2 = o_v_ntrl o, o_h_hum_c o2 = o_h_hum_c o & o_h_hum_r o2 = o_h_hum_r o]
    & [/\ o_theta_ot o2 = o_theta_ot o, o_theta_s o2 = o_theta_s o & o_theta_rear o2 = o_theta_rear o]].

(* what a person gives off as vapour, kg/s: the rest of 119 W *)
Definition person_vapour (t : F) : F := (119%:R - person_heat t) / l_wtr F.

(* the humidity of a house at rest: that of the outdoor air and what the sources add to it *)
Definition damp_at_rest (infil : infil_fun F ni) (h : house F ni nj nm) (s : step_data F ni nj) (c : conditions F ni nj nm) : Prop :=
  forall i, x_r c i 0 = x_o s + (x_gen s i 0 + person_vapour (theta_r c i 0) * n_hum s i 0)
                        / (rho_air F * (infil (theta_r c) (theta_o s) i 0 + (v_vent_ex h i 0 + v_mec_local s i 0)))
         /\ x_frt c i 0 = x_r c i 0.
End Damp.
