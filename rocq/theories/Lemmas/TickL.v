(* Inversion of run_tick: every intermediate value of a completed step with its defining equation. *)
From mathcomp Require Import all_ssreflect ssralg ssrnum zmodp matrix.
From Coq Require Import Ring Field.
From Verif Require Import Model.OperationMode Model.Numpy Model.NextCondition Model.PreCalc
  Model.HeatExchanger Model.Tick.
From Verif Require Import Lemmas.FieldTac Lemmas.NumpyL Lemmas.NextConditionL.
Set Implicit Arguments. Unset Strict Implicit. Unset Printing Implicit Defensive.
Import Order.TTheory GRing.Theory Num.Theory.
Local Open Scope ring_scope.

Section TickL.
Variable F : realFieldType.
Variables ni nj nm : nat.
Add Field Ffield : (ffield_theory F).
Ltac fring := ffold F; ring.
Ltac ffield := ffold F; field.

Variable ot : ot_fun F ni.
Variable infil : infil_fun F ni.
Variable x_sat : F -> F.
Variables (dt : F) (h : house F ni nj nm) (q : pp F ni nj) (s : step_data F ni nj).
Variable c : conditions F ni nj nm.

Section Inv.
Variables (c' : conditions F ni nj nm) (o : outputs F ni nj).
Inductive tick_inv : Prop :=
| TickInv md lo up (wsc wsv : 'cV[F]_nj) (v_out : 'cV[F]_ni) (brc : 'cV[F]_ni) (brm xot : 'M[F]_ni)
    (kc kr : 'cV[F]_ni) (g_lat : 'cV[F]_ni) (brmx0 brmx0i brmx brmxi : 'M[F]_ni)
    (brxc0 : 'cV[F]_ni) (brmx_rac : 'M[F]_ni) (brxc_rac : 'cV[F]_ni) of
    ot (x_r c) (operation_mode c) (theta_r c) (theta_mrt_hum c) (ac_demand s)
       = Some (o_h_hum_c o, o_h_hum_r o, md, lo, up)
  & operation_mode c' = md
  & o_theta_rear o = k_ei_js_js h *m theta_ei c + theta_dstrb h s
  & o_q_hum o = \matrix_(i, _) (q_hum_psn (theta_r c i 0) * n_hum s i 0)
  & o_x_hum o = \matrix_(i, _) (x_hum_psn (theta_r c i 0) * n_hum s i 0)
  & o_v_leak o = infil (theta_r c) (theta_o s)
  & theta_dsh_a c' = cmul (q_srf c) (phi_a1 h) + emul (r_ms h) (theta_dsh_a c)
  & theta_dsh_t c' = cmul (o_theta_rear o) (phi_t1 h) + emul (r_ms h) (theta_dsh_t c)
  & wsc = ivs_ax q *m crx h s
  & wsv = ivs_ax q *m rowsum (theta_dsh_t c' + theta_dsh_a c')
  & o_v_ntrl o = vwhere (fun i => mode_eqb (md i) STOP_OPEN) (v_ntrl h) 0
  & v_out = o_v_leak o + v_mec h s + o_v_ntrl o
  & brc = (\matrix_(i, _) (c_rm h i 0 / dt * theta_r c i 0))
    + p_is_js h *m (emul (emul (h_c h) (a_srf h)) (wsc + wsv))
    + (\matrix_(i, _) (c_air F * rho_air F * v_out i 0 * theta_o s))
    + q_gen s + o_q_hum o
    + (\matrix_(i, _) (g_sh h i 0 * (c_sh h i 0 * theta_frt c i 0 + q_sol_frt s i 0 * dt)
                       / (c_sh h i 0 + dt * g_sh h i 0)))
  & brm = brm_non_vent q + smul (c_air F * rho_air F) (vdiag v_out + v_int h)
  & kc = ediv (o_h_hum_c o) (o_h_hum_c o + o_h_hum_r o)
  & kr = ediv (o_h_hum_r o) (o_h_hum_c o + o_h_hum_r o)
  & inv (vdiag kc + cmul kr (f_mrt_hum_is_js h *m wsr q)) = Some xot
  & calc_next_temp_and_load (is_rad_h h) (is_rad_c h)
      (brc + brm *m (xot *m (emul kr (f_mrt_hum_is_js h *m (wsc + wsv)))))
      (brm *m xot)
      (brl q + brm *m (xot *m (cmul kr (f_mrt_hum_is_js h *m wsb q))))
      lo up (cap_h h) (cap_c h) md (ac_demand s) = Some (o_theta_ot o, o_l_cs o, o_l_rs o)
  & theta_r c' = xot *m o_theta_ot o
                 - (xot *m (cmul kr (f_mrt_hum_is_js h *m wsb q))) *m o_l_rs o
                 - xot *m (emul kr (f_mrt_hum_is_js h *m (wsc + wsv)))
  & theta_frt c' = \matrix_(i, _)
    ((c_sh h i 0 * theta_frt c i 0 + dt * g_sh h i 0 * theta_r c' i 0 + q_sol_frt s i 0 * dt)
     / (c_sh h i 0 + dt * g_sh h i 0))
  & o_theta_s o = wsr q *m theta_r c' + wsc + wsb q *m o_l_rs o + wsv
  & theta_mrt_hum c' = f_mrt_hum_is_js h *m o_theta_s o
  & theta_ei c' = \matrix_(j, _)
    ((h_c h j 0 * (p_js_is h *m theta_r c') j 0
      + h_r h j 0 * ((p_js_is h *m f_mrt_is_js h) *m o_theta_s o) j 0
      + q_sol_js h s j 0
      + (flr_js_is h *m (emul (ssub 1 (beta h)) (o_l_rs o))) j 0 / a_srf h j 0)
     / (h_c h j 0 + h_r h j 0))
  & q_srf c' = emul (theta_ei c' - o_theta_s o) (h_c h + h_r h)
  & g_lat = \matrix_(i, _) (c_lh h i 0 * g_lh h i 0 / (c_lh h i 0 + dt * g_lh h i 0))
  & brmx0 = smul (rho_air F) (vdiag (\matrix_(i, _) (v_room h i 0 / dt + v_out i 0)) - v_int h)
            + vdiag g_lat
  & brxc0 = (\matrix_(i, _)
      (rho_air F * (v_room h i 0 / dt * x_r c i 0 + v_out i 0 * x_o s) + g_lat i 0 * x_frt c i 0))
      + x_gen s + o_x_hum o
  & inv brmx0 = Some brmx0i
  & get_dehumid_coeff x_sat (o_l_cs o) (theta_r c') (q_max h) (q_min h) (v_max h) (v_min h)
      (brmx0i *m brxc0) = (brmx_rac, brxc_rac)
  & brmx = brmx0 + brmx_rac
  & inv brmx = Some brmxi
  & x_r c' = brmxi *m (brxc0 + brxc_rac)
  & o_l_cl o = smul (l_wtr F) (- (brmx_rac *m x_r c' - brxc_rac))
  & x_frt c' = \matrix_(i, _)
    ((c_lh h i 0 * x_frt c i 0 + dt * g_lh h i 0 * x_r c' i 0) / (c_lh h i 0 + dt * g_lh h i 0)).

End Inv.

Lemma run_tickP c' o : run_tick ot infil x_sat dt h q s c = Some (c', o) -> tick_inv c' o.
Proof.
rewrite /run_tick; cbv zeta.
case E0: (ot _ _ _ _ _) => [[[[[hc hr] md] lo] up]|//].
case E1: (inv _) => [xot|//].
case E2: (calc_next_temp_and_load _ _ _ _ _ _ _ _ _ _ _) => [[[tot lcs] lhs]|//].
case E3: (inv _) => [brmx0i|//].
case E4: (get_dehumid_coeff _ _ _ _ _ _ _ _) => [brac crac].
case E5: (inv _) => [brmxi|//].
case=> <- <-.
by econstructor; first [exact: E0 | exact: E1 | exact: E2 | exact: E3 | exact: E4 | exact: E5 | reflexivity].
Qed.

End TickL.
