(* Specification: what the recorded columns of two consecutive time steps say about a room. k is the
   column of the earlier step, k' of the later one; the house data, the step length and the scheduled
   local ventilation (which is not recorded) are given. *)
From mathcomp Require Import all_ssreflect ssralg ssrnum zmodp matrix.
From Verif Require Import Model.OperationMode Model.Numpy Model.PreCalc Model.Tick Model.LogCore.
Set Implicit Arguments. Unset Strict Implicit. Unset Printing Implicit Defensive.
Import GRing.Theory Num.Theory.
Local Open Scope ring_scope.

Section LogBalance.
Variable F : realFieldType.
Variables ni nj nm : nat.
Variables (sec : F) (h : house F ni nj nm) (local_vent : 'cV[F]_ni).
Variables (k k' : log_columns F ni nj).

(* outdoor air entering room i, m3/s *)
Definition rec_outdoor_air (i : 'I_ni) : F :=
  lc_v_reak k' i 0 + v_vent_ex h i 0 + local_vent i 0 + lc_v_ntrl k' i 0.

(* air of room i: heat. Air from other rooms is left out: use for rooms that receive none (see C02) *)
Definition rec_heat_balance (i : 'I_ni) : Prop :=
  c_air F * rho_air F * v_room h i 0 * (lc_theta_r k' i 0 - lc_theta_r k i 0) / sec
  = - (\sum_(j | conn h j == i) lc_qc k' j 0) - lc_q_frt k' i 0
    + c_air F * rho_air F * rec_outdoor_air i * (lc_theta_o k' - lc_theta_r k' i 0)
    + lc_q_gen k' i 0 + lc_q_hum k' i 0 + lc_l_cs k' i 0 + beta h i 0 * lc_l_rs k' i 0.

(* air of room i: water vapour *)
Definition rec_vapour_balance (i : 'I_ni) : Prop :=
  rho_air F * v_room h i 0 * (lc_x_r k' i 0 - lc_x_r k i 0) / sec
  = - lc_q_l_frt k' i 0
    + rho_air F * rec_outdoor_air i * (lc_x_o k' - lc_x_r k' i 0)
    + lc_x_gen k' i 0 + lc_x_hum k' i 0 + lc_l_cl k' i 0 / l_wtr F
    + rho_air F * \sum_a v_int h i a * lc_x_r k' a 0.

(* furniture of room i *)
Definition rec_furniture_heat (i : 'I_ni) : Prop :=
  c_sh h i 0 * (lc_theta_frt k' i 0 - lc_theta_frt k i 0) / sec = lc_q_frt k' i 0 + lc_q_sol_frt k' i 0.
Definition rec_furniture_vapour (i : 'I_ni) : Prop :=
  c_lh h i 0 * (lc_x_frt k' i 0 - lc_x_frt k i 0) / sec = lc_q_l_frt k' i 0.
(* all transmitted sun is recorded once: in the furniture or on a surface *)
Definition rec_sun (i : 'I_ni) : Prop :=
  lc_q_sol_frt k' i 0 + \sum_(j | conn h j == i) lc_qisol_s k' j 0 = lc_q_trs_sol k' i 0.
(* the surfaces of a room exchange radiant heat among themselves only *)
Definition rec_radiant (i : 'I_ni) : Prop := \sum_(j | conn h j == i) lc_qr k' j 0 = 0.

(* boundary j of room i, W: heat entering the surface is what arrives by convection, by radiation, from
   the sun and from radiant equipment; f tells in which unit the total is recorded *)
Definition rec_surface_sum (f : F -> F) (i : 'I_ni) (j : 'I_nj) : Prop :=
  f (lc_qiall_s k' j 0)
  = lc_qc k' j 0 + lc_qr k' j 0 + lc_qisol_s k' j 0 + flr h j 0 * (1 - beta h i 0) * lc_l_rs k' i 0.
End LogBalance.
