(* Specification: the same house with its rooms and boundaries listed in another order.
   Room i of the second list is room rho i of the first, boundary j of the second is boundary tau j of the first. *)
From mathcomp Require Import all_ssreflect ssralg ssrnum zmodp matrix.
From Verif Require Import Model.OperationMode Model.Numpy Model.PreCalc Model.Tick Model.Py.
Set Implicit Arguments. Unset Strict Implicit. Unset Printing Implicit Defensive.
Local Open Scope ring_scope.

(* both values exist and are related, or both are missing *)
Definition opt_rel A B (R : A -> B -> Prop) (a : option A) (b : option B) : Prop :=
  match a, b with Some x, Some y => R x y | None, None => True | _, _ => False end.

(* both calculations complete with related results, or both end with the same exception *)
Definition same_outcome A B (R : A -> B -> Prop) (a : res A) (b : res B) : Prop :=
  match a, b with Ok x, Ok y => R x y | Err e, Err e2 => e = e2 | _, _ => False end.

Section Reorder.
Variable F : realFieldType.
Variables ni nj nm : nat.
Variables (rho : 'I_ni -> 'I_ni) (tau : 'I_nj -> 'I_nj).

Definition by_room (v v2 : 'cV[F]_ni) : Prop := forall i, v2 i 0 = v (rho i) 0.
Definition by_boundary (v v2 : 'cV[F]_nj) : Prop := forall j, v2 j 0 = v (tau j) 0.
Definition by_term (a a2 : 'M[F]_(nj, nm)) : Prop := forall j m, a2 j m = a (tau j) m.

Record reordered_house (h h2 : house F ni nj nm) : Prop := {
  rh_v_room : by_room (v_room h) (v_room h2); rh_beta : by_room (beta h) (beta h2); rh_vent : by_room (v_vent_ex h) (v_vent_ex h2);
  rh_int : forall i k, v_int h2 i k = v_int h (rho i) (rho k); rh_ntrl : by_room (v_ntrl h) (v_ntrl h2);
  rh_c_sh : by_room (c_sh h) (c_sh h2); rh_g_sh : by_room (g_sh h) (g_sh h2);
  rh_c_lh : by_room (c_lh h) (c_lh h2); rh_g_lh : by_room (g_lh h) (g_lh h2);
  rh_rad_h : forall i, is_rad_h h2 i = is_rad_h h (rho i); rh_cap_h : by_room (cap_h h) (cap_h h2);
  rh_rad_c : forall i, is_rad_c h2 i = is_rad_c h (rho i); rh_cap_c : by_room (cap_c h) (cap_c h2);
  rh_q_min : by_room (q_min h) (q_min h2); rh_q_max : by_room (q_max h) (q_max h2);
  rh_v_min : by_room (v_min h) (v_min h2); rh_v_max : by_room (v_max h) (v_max h2);
  rh_conn : forall j (i : 'I_ni), (conn h2 j == i) = (conn h (tau j) == rho i);
  rh_a_srf : by_boundary (a_srf h) (a_srf h2);
  rh_phi_a0 : by_boundary (phi_a0 h) (phi_a0 h2); rh_phi_a1 : by_term (phi_a1 h) (phi_a1 h2);
  rh_phi_t0 : by_boundary (phi_t0 h) (phi_t0 h2); rh_phi_t1 : by_term (phi_t1 h) (phi_t1 h2);
  rh_r_ms : by_term (r_ms h) (r_ms h2);
  rh_h_c : by_boundary (h_c h) (h_c h2); rh_h_r : by_boundary (h_r h) (h_r h2); rh_flr : by_boundary (flr h) (flr h2);
  rh_abs : forall j, is_solar_abs h2 j = is_solar_abs h (tau j);
  rh_mrt : by_boundary (f_mrt_hum h) (f_mrt_hum h2); rh_k_eo : by_boundary (k_eo h) (k_eo h2);
  (* the rear face is the same boundary *)
  rh_k_ei : forall j, k_ei h (tau j) = if k_ei h2 j is Some (k, coef) then Some (tau k, coef) else None
}.

Record reordered_data (s s2 : step_data F ni nj) : Prop := {
  rs_theta_o : theta_o s2 = theta_o s; rs_x_o : x_o s2 = x_o s;
  rs_vent : by_room (v_mec_local s) (v_mec_local s2); rs_q_gen : by_room (q_gen s) (q_gen s2); rs_x_gen : by_room (x_gen s) (x_gen s2);
  rs_n_hum : by_room (n_hum s) (n_hum s2); rs_ac : by_room (ac_demand s) (ac_demand s2);
  rs_sol : by_room (q_trs_sol s) (q_trs_sol s2); rs_theta : by_boundary (theta_o_sol s) (theta_o_sol s2)
}.

Record reordered_state (c c2 : conditions F ni nj nm) : Prop := {
  rc_mode : forall i, operation_mode c2 i = operation_mode c (rho i);
  rc_theta_r : by_room (theta_r c) (theta_r c2); rc_mrt : by_room (theta_mrt_hum c) (theta_mrt_hum c2); rc_x_r : by_room (x_r c) (x_r c2);
  rc_a : by_term (theta_dsh_a c) (theta_dsh_a c2); rc_t : by_term (theta_dsh_t c) (theta_dsh_t c2);
  rc_q : by_boundary (q_srf c) (q_srf c2); rc_frt : by_room (theta_frt c) (theta_frt c2); rc_x_frt : by_room (x_frt c) (x_frt c2);
  rc_ei : by_boundary (theta_ei c) (theta_ei c2)
}.

Record reordered_outputs (o o2 : outputs F ni nj) : Prop := {
  ro_q_hum : by_room (o_q_hum o) (o_q_hum o2); ro_x_hum : by_room (o_x_hum o) (o_x_hum o2);
  ro_l_cs : by_room (o_l_cs o) (o_l_cs o2); ro_l_rs : by_room (o_l_rs o) (o_l_rs o2); ro_l_cl : by_room (o_l_cl o) (o_l_cl o2);
  ro_leak : by_room (o_v_leak o) (o_v_leak o2); ro_ntrl : by_room (o_v_ntrl o) (o_v_ntrl o2);
  ro_hc : by_room (o_h_hum_c o) (o_h_hum_c o2); ro_hr : by_room (o_h_hum_r o) (o_h_hum_r o2);
  ro_ot : by_room (o_theta_ot o) (o_theta_ot o2);
  ro_s : by_boundary (o_theta_s o) (o_theta_s o2); ro_rear : by_boundary (o_theta_rear o) (o_theta_rear o2)
}.

(* a leakage that treats all rooms alike *)
Definition reordered_infil (f f2 : infil_fun F ni) : Prop :=
  forall t t2 theta_o, by_room t t2 -> by_room (f t theta_o) (f2 t2 theta_o).

(* the results of a step: the new state and the outputs *)
Definition reordered_step (r r2 : conditions F ni nj nm * outputs F ni nj) : Prop :=
  reordered_state r.1 r2.1 /\ reordered_outputs r.2 r2.2.

(* the results of a calculation: the final state and the table, column by column *)
Definition reordered_run (r r2 : conditions F ni nj nm * seq (option (conditions F ni nj nm * outputs F ni nj))) : Prop :=
  reordered_state r.1 r2.1 /\ List.Forall2 (opt_rel reordered_step) r.2 r2.2.
End Reorder.
