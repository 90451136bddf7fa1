(* Specification: the balance equations documented in docs/derivation/, one room or one boundary at a
   time, written with plain sums over the data of the house (h), the data of the step (s), the state
   before (c) and after (c'), and the values the step logs (o). *)
From mathcomp Require Import all_ssreflect ssralg ssrnum zmodp matrix.
From Verif Require Import Model.OperationMode Model.Numpy Model.PreCalc Model.Tick.
Set Implicit Arguments. Unset Strict Implicit. Unset Printing Implicit Defensive.
Import GRing.Theory Num.Theory.
Local Open Scope ring_scope.

Section StepEq.
Variable F : realFieldType.
Variables ni nj nm : nat.
Variables (dt : F) (h : house F ni nj nm) (s : step_data F ni nj).
Variables (c c' : conditions F ni nj nm) (o : outputs F ni nj).

(* outdoor air entering room i, m3/s: infiltration, mechanical ventilation, opened windows *)
Definition air_from_outside (i : 'I_ni) : F :=
  o_v_leak o i 0 + (v_vent_ex h i 0 + v_mec_local s i 0) + o_v_ntrl o i 0.

(* heat capacity of a cubic metre of air, J/m3K *)
Definition cap_air : F := c_air F * rho_air F.

(* the terms of eq. (4.2) of heat_balance.adoc without air from other rooms *)
Definition heat_stored i := v_room h i 0 * cap_air * (theta_r c' i 0 - theta_r c i 0) / dt.
Definition heat_from_surfaces (i : 'I_ni) :=
  \sum_(j | conn h j == i) h_c h j 0 * a_srf h j 0 * (o_theta_s o j 0 - theta_r c' i 0).
Definition heat_from_outside i := cap_air * air_from_outside i * (theta_o s - theta_r c' i 0).
Definition heat_from_furniture i := g_sh h i 0 * (theta_frt c' i 0 - theta_r c' i 0).
Definition heat_from_equipment i := o_l_cs o i 0 + beta h i 0 * o_l_rs o i 0.
Definition heat_from_inside i := q_gen s i 0 + o_q_hum o i 0.
(* heat of the air arriving from the other rooms, as documented: + c rho V_nxt theta_r *)
Definition heat_from_rooms i := cap_air * \sum_k v_int h i k * theta_r c' k 0.

Definition heat_gain i := heat_from_surfaces i + heat_from_outside i + heat_from_inside i
  + heat_from_furniture i + heat_from_equipment i.

(* eq. (4.2) *)
Definition documented_heat_balance i := heat_stored i = heat_gain i + heat_from_rooms i.

(* eq. (4.4): solar heat absorbed by furniture is half of what enters the room *)
Definition furniture_heat_balance i :=
  c_sh h i 0 * (theta_frt c' i 0 - theta_frt c i 0) / dt
  = g_sh h i 0 * (theta_r c' i 0 - theta_frt c' i 0) + q_trs_sol s i 0 / 2%:R.

(* vapour_balance.adoc eq. (6) *)
Definition furniture_moisture_balance i :=
  c_lh h i 0 * (x_frt c' i 0 - x_frt c i 0) / dt = g_lh h i 0 * (x_r c' i 0 - x_frt c' i 0).

(* vapour_balance.adoc eq. (4); the condensate G_RAC is the reported latent load over the latent heat,
   with opposite sign *)
Definition vapour_balance i :=
  rho_air F * v_room h i 0 * (x_r c' i 0 - x_r c i 0) / dt
  = rho_air F * air_from_outside i * (x_o s - x_r c' i 0)
    + x_gen s i 0 + o_x_hum o i 0 - (- o_l_cl o i 0 / l_wtr F)
    + g_lh h i 0 * (x_frt c' i 0 - x_r c' i 0)
    + rho_air F * \sum_k v_int h i k * x_r c' k 0.

(* heat_balance.adoc eqs. (3.1)-(3.3): surface temperature from the new surface heat flow, the new
   temperature behind the boundary, and the response of the past *)
Definition rear_temperature (j : 'I_nj) : F :=
  (if k_ei h j is Some (k, coef) then coef * theta_ei c' k 0 else 0) + k_eo h j 0 * theta_o_sol s j 0.
Definition surface_response j :=
  o_theta_s o j 0 = phi_a0 h j 0 * q_srf c' j 0 + phi_t0 h j 0 * rear_temperature j
                    + \sum_m (theta_dsh_t c' j m + theta_dsh_a c' j m).
(* the response terms of the past follow the recurrence of the response factor method *)
Definition response_terms j m :=
  theta_dsh_a c' j m = phi_a1 h j m * q_srf c j 0 + r_ms h j m * theta_dsh_a c j m /\
  theta_dsh_t c' j m =
    phi_t1 h j m * ((if k_ei h j is Some (k, coef) then coef * theta_ei c k 0 else 0)
                    + k_eo h j 0 * theta_o_sol s j 0)
    + r_ms h j m * theta_dsh_t c j m.

(* operative and mean radiant temperature *)
Definition operative_is_mean i :=
  o_theta_ot o i 0 = (o_h_hum_c o i 0 * theta_r c' i 0 + o_h_hum_r o i 0 * theta_mrt_hum c' i 0)
                     / (o_h_hum_c o i 0 + o_h_hum_r o i 0).
Definition mrt_is_sum (i : 'I_ni) :=
  theta_mrt_hum c' i 0 = \sum_(j | conn h j == i) f_mrt_hum h j 0 * o_theta_s o j 0.

(* the first law for room i: heat stored in air and furniture plus heat flowing into the boundaries is
   the heat brought in by outdoor air, internal gains, sun and equipment *)
Definition first_law i :=
  heat_stored i + c_sh h i 0 * (theta_frt c' i 0 - theta_frt c i 0) / dt
  + (\sum_(j | conn h j == i) a_srf h j 0 * q_srf c' j 0)
  = heat_from_outside i + heat_from_inside i + q_trs_sol s i 0 + o_l_cs o i 0 + o_l_rs o i 0.

End StepEq.
