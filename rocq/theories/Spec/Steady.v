(* Specification: a house in steady state, as in a textbook. Nothing depends on the length of a time step. *)
From mathcomp Require Import all_ssreflect ssralg ssrnum zmodp matrix.
From Verif Require Import Model.OperationMode Model.Numpy Model.PreCalc Model.Tick Spec.StepEq.
Set Implicit Arguments. Unset Strict Implicit. Unset Printing Implicit Defensive.
Import GRing.Theory Num.Theory.
Local Open Scope ring_scope.

Section Steady.
Variable F : realFieldType.
Variables ni nj nm : nat.
Variables (h : house F ni nj nm) (s : step_data F ni nj).

(* no temperature and no heat flow changes *)
Record unchanged (c c' : conditions F ni nj nm) : Prop := {
  un_air : forall i, theta_r c' i 0 = theta_r c i 0;
  un_furniture : forall i, theta_frt c' i 0 = theta_frt c i 0;
  un_ei : forall j, theta_ei c' j 0 = theta_ei c j 0;
  un_q : forall j, q_srf c' j 0 = q_srf c j 0;
  un_a : forall j m, theta_dsh_a c' j m = theta_dsh_a c j m;
  un_t : forall j m, theta_dsh_t c' j m = theta_dsh_t c j m
}.

(* the thermal resistance behind the inner surface of boundary j, which is the sum of all absorption response factors (C30) *)
Definition resistance (j : 'I_nj) : F := phi_a0 h j 0 + \sum_m phi_a1 h j m / (1 - r_ms h j m).

(* transmission response factors that add up to one (C30) *)
Definition unit_response : Prop :=
  (forall j m, r_ms h j m != 1) /\ forall j, phi_t0 h j 0 + \sum_m phi_t1 h j m / (1 - r_ms h j m) = 1.

(* the two faces of an inner wall have the same coefficients and area *)
Definition sides_alike : Prop := forall j k coef, k_ei h j = Some (k, coef) ->
  [/\ h_c h k 0 = h_c h j 0, h_r h k 0 = h_r h j 0 & a_srf h k 0 = a_srf h j 0].

(* mean radiant temperature of the surfaces of a room *)
Definition mean_radiant (theta_s : 'cV[F]_nj) (i : 'I_ni) : F :=
  (\sum_(j | conn h j == i) a_srf h j 0 * h_r h j 0 * theta_s j 0) / \sum_(j | conn h j == i) a_srf h j 0 * h_r h j 0.

(* half of the sun that enters falls on the absorbing surfaces of the room, evenly *)
Definition sun_on_surface (j : 'I_nj) (i : 'I_ni) : F :=
  if is_solar_abs h j then q_trs_sol s i 0 / 2%:R / \sum_(k | (conn h k == i) && is_solar_abs h k) a_srf h k 0 else 0.

(* outdoor air m3/s, internal gains, convective and radiant equipment, in W *)
Variables v_out gains l_c l_r : 'I_ni -> F.

Record steady_state (c : conditions F ni nj nm) (theta_s : 'cV[F]_nj) : Prop := {
  (* walls: heat flow = temperature difference / resistance *)
  ss_wall : forall j, theta_s j 0 - rear_temperature h s c j = resistance j * q_srf c j 0;
  (* surfaces: convection, radiation, sun and radiant equipment *)
  ss_surface : forall j (i : 'I_ni), conn h j = i -> q_srf c j 0 =
    h_c h j 0 * (theta_r c i 0 - theta_s j 0) + h_r h j 0 * (mean_radiant theta_s i - theta_s j 0)
    + sun_on_surface j i + flr h j 0 * (1 - beta h i 0) * l_r i / a_srf h j 0;
  (* equivalent indoor temperature: the one that drives the heat flow through the combined surface coefficient *)
  ss_ei : forall j, q_srf c j 0 = (theta_ei c j 0 - theta_s j 0) * (h_c h j 0 + h_r h j 0);
  (* furniture gives off the sun it receives *)
  ss_furniture : forall i, g_sh h i 0 * (theta_frt c i 0 - theta_r c i 0) = q_trs_sol s i 0 / 2%:R;
  (* room air *)
  ss_room : forall i : 'I_ni,
    (\sum_(j | conn h j == i) h_c h j 0 * a_srf h j 0 * (theta_s j 0 - theta_r c i 0))
    + cap_air F * v_out i * (theta_o s - theta_r c i 0) + gains i + q_trs_sol s i 0 / 2%:R + l_c i + beta h i 0 * l_r i = 0;
  (* the walls have seen nothing else for ever *)
  ss_a : forall j m, theta_dsh_a c j m = phi_a1 h j m / (1 - r_ms h j m) * q_srf c j 0;
  ss_t : forall j m, theta_dsh_t c j m = phi_t1 h j m / (1 - r_ms h j m) * rear_temperature h s c j
}.

(* heat loss per area and kelvin between the equivalent temperatures on both sides *)
Definition u_value (j : 'I_nj) : F := 1 / (resistance j + 1 / (h_c h j 0 + h_r h j 0)).

(* load + gains + sun = transmission loss + ventilation loss *)
Definition textbook_balance (c : conditions F ni nj nm) (i : 'I_ni) : Prop :=
  l_c i + l_r i + gains i + q_trs_sol s i 0 =
  (\sum_(j | conn h j == i) a_srf h j 0 * u_value j * (theta_ei c j 0 - rear_temperature h s c j))
  + cap_air F * v_out i * (theta_r c i 0 - theta_o s).

End Steady.
