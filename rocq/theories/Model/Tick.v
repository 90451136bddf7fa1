(* heat_load_calc/core/sequence.py 16-283 run_tick *)
From mathcomp Require Import all_ssreflect ssralg ssrnum zmodp matrix.
From Verif Require Import Model.OperationMode Model.Numpy Model.NextCondition Model.PreCalc
  Model.HeatExchanger.
Set Implicit Arguments. Unset Strict Implicit. Unset Printing Implicit Defensive.
Import Order.TTheory GRing.Theory Num.Theory.
Local Open Scope ring_scope.

Section Tick.
Variable F : realFieldType.
Variables ni nj nm : nat.

(* occupants.py 24-34 get_q_hum_psn_is_n, one room *)
Definition q_hum_psn (theta_r : F) : F :=
  Num.min (63%:R - 4%:R * (theta_r - 24%:R)) 119%:R.
(* occupants.py 6-21 get_x_hum_psn_is_n *)
Definition x_hum_psn (theta_r : F) : F := (119%:R - q_hum_psn theta_r) / l_wtr F.

(* conditions.py 8-55 class Conditions *)
Record conditions := Conditions {
  operation_mode : 'I_ni -> mode;
  theta_r : 'cV[F]_ni;
  theta_mrt_hum : 'cV[F]_ni;
  x_r : 'cV[F]_ni;
  theta_dsh_a : 'M[F]_(nj, nm);
  theta_dsh_t : 'M[F]_(nj, nm);
  q_srf : 'cV[F]_nj;
  theta_frt : 'cV[F]_ni;
  x_frt : 'cV[F]_ni;
  theta_ei : 'cV[F]_nj
}.

(* The values a step writes to the log and does not carry over (sequence.py 254-268), plus v_out,
   which the log does not show but the balances mention. *)
Record outputs := Outputs {
  o_q_hum : 'cV[F]_ni;
  o_x_hum : 'cV[F]_ni;
  o_l_cs : 'cV[F]_ni;
  o_l_rs : 'cV[F]_ni;
  o_l_cl : 'cV[F]_ni;
  o_v_leak : 'cV[F]_ni;
  o_v_ntrl : 'cV[F]_ni;
  o_h_hum_c : 'cV[F]_ni;
  o_h_hum_r : 'cV[F]_ni;
  o_theta_ot : 'cV[F]_ni;
  o_theta_s : 'cV[F]_nj;
  o_theta_rear : 'cV[F]_nj
}.

(* the functions stored in PreCalcParameters: pre_calc_parameters.py 536-542.
   ot_fun may raise (None), see Pmv.v; infil_fun see Infiltration.v; x_sat see Psychrometrics.v *)
Definition ot_fun := 'cV[F]_ni -> ('I_ni -> mode) -> 'cV[F]_ni -> 'cV[F]_ni -> 'cV[F]_ni ->
  option ('cV[F]_ni * 'cV[F]_ni * ('I_ni -> mode) * 'cV[F]_ni * 'cV[F]_ni).
Definition infil_fun := 'cV[F]_ni -> F -> 'cV[F]_ni.

Variable get_ot_target_and_h_hum : ot_fun.
Variable get_infiltration : infil_fun.
Variable x_sat : F -> F.

Definition run_tick (delta_t : F) (h : house F ni nj nm) (pp : pp F ni nj) (s : step_data F ni nj)
    (c : conditions) : option (conditions * outputs) :=
  let theta_dstrb := theta_dstrb h s in                                          (* 40 *)
  let wsc := wsc h s (ivs_ax pp) in                                              (* 53 *)
  let v_mec := v_mec h s in                                                      (* 56 *)
  let q_sol_frt := q_sol_frt s in                                                (* 59 *)
  if get_ot_target_and_h_hum (x_r c) (operation_mode c) (theta_r c) (theta_mrt_hum c) (ac_demand s)
    is Some (h_hum_c, h_hum_r, modes, theta_lower, theta_upper) then             (* 70-77 *)
  let theta_rear := dot (k_ei_js_js h) (theta_ei c) + theta_dstrb in             (* 80 *)
  let q_hum : 'cV[F]_ni := \matrix_(i, _) (q_hum_psn (theta_r c i 0) * n_hum s i 0) in (* 83-86 *)
  let x_hum : 'cV[F]_ni := \matrix_(i, _) (x_hum_psn (theta_r c i 0) * n_hum s i 0) in (* 89-92 *)
  let v_leak := get_infiltration (theta_r c) (theta_o s) in                      (* 95 *)
  let theta_dsh_a' := cmul (q_srf c) (phi_a1 h) + emul (r_ms h) (theta_dsh_a c) in  (* 98 *)
  let theta_dsh_t' := cmul theta_rear (phi_t1 h) + emul (r_ms h) (theta_dsh_t c) in (* 101 *)
  let cvl := rowsum (theta_dsh_t' + theta_dsh_a') in                             (* 104 *)
  let wsv := dot (ivs_ax pp) cvl in                                              (* 107 *)
  let v_ntrl' := vwhere (fun i => mode_eqb (modes i) STOP_OPEN) (v_ntrl h) 0 in  (* 111 *)
  let v_out := v_leak + v_mec + v_ntrl' in                                       (* 115 *)
  let brc : 'cV[F]_ni :=                                                         (* 119-125 *)
    (\matrix_(i, _) (c_rm h i 0 / delta_t * theta_r c i 0))
    + dot (p_is_js h) (emul (emul (h_c h) (a_srf h)) (wsc + wsv))
    + (\matrix_(i, _) (c_air F * rho_air F * v_out i 0 * theta_o s))
    + q_gen s + q_hum
    + (\matrix_(i, _) (g_sh h i 0 * (c_sh h i 0 * theta_frt c i 0 + q_sol_frt i 0 * delta_t)
                       / (c_sh h i 0 + delta_t * g_sh h i 0))) in
  let brm := brm_non_vent pp + smul (c_air F * rho_air F) (vdiag v_out + v_int h) in (* 128-129 *)
  let kc := ediv h_hum_c (h_hum_c + h_hum_r) in                                  (* 135 *)
  let kr := ediv h_hum_r (h_hum_c + h_hum_r) in                                  (* 138 *)
  let f := f_mrt_hum_is_js h in
  if inv (vdiag kc + cmul kr (dot f (wsr pp))) is Some xot then                  (* 141 *)
  let xlr := dot xot (cmul kr (dot f (wsb pp))) in                               (* 144 *)
  let xc := dot xot (emul kr (dot f (wsc + wsv))) in                             (* 147 *)
  let brm_ot := dot brm xot in                                                   (* 150 *)
  let brl_ot := brl pp + dot brm xlr in                                          (* 153 *)
  let brc_ot := brc + dot brm xc in                                              (* 156 *)
  if calc_next_temp_and_load (is_rad_h h) (is_rad_c h) brc_ot brm_ot brl_ot theta_lower theta_upper
       (cap_h h) (cap_c h) modes (ac_demand s)
    is Some (theta_ot, l_cs, l_hs) then                                          (* 161-173 *)
  let theta_r' := dot xot theta_ot - dot xlr l_hs - xc in                        (* 176 *)
  let theta_frt' : 'cV[F]_ni := \matrix_(i, _)                                   (* 179-181 *)
    ((c_sh h i 0 * theta_frt c i 0 + delta_t * g_sh h i 0 * theta_r' i 0 + q_sol_frt i 0 * delta_t)
     / (c_sh h i 0 + delta_t * g_sh h i 0)) in
  let theta_s := dot (wsr pp) theta_r' + wsc + dot (wsb pp) l_hs + wsv in        (* 184-185 *)
  let theta_mrt_hum' := dot f theta_s in                                         (* 188 *)
  let theta_ei' : 'cV[F]_nj := \matrix_(j, _)                                    (* 191-196 *)
    ((h_c h j 0 * dot (p_js_is h) theta_r' j 0
      + h_r h j 0 * dot (dot (p_js_is h) (f_mrt_is_js h)) theta_s j 0
      + q_sol_js h s j 0
      + dot (flr_js_is h) (emul (ssub 1 (beta h)) l_hs) j 0 / a_srf h j 0)
     / (h_c h j 0 + h_r h j 0)) in
  let q_srf' := emul (theta_ei' - theta_s) (h_c h + h_r h) in                    (* 199 *)
  let g_lat : 'cV[F]_ni := \matrix_(i, _)
    (c_lh h i 0 * g_lh h i 0 / (c_lh h i 0 + delta_t * g_lh h i 0)) in
  let brmx0 := smul (rho_air F) (vdiag (\matrix_(i, _) (v_room h i 0 / delta_t + v_out i 0)) - v_int h)
               + vdiag g_lat in                                                  (* 204-205 *)
  let brxc0 : 'cV[F]_ni := (\matrix_(i, _)                                       (* 208-212 *)
    (rho_air F * (v_room h i 0 / delta_t * x_r c i 0 + v_out i 0 * x_o s) + g_lat i 0 * x_frt c i 0))
    + x_gen s + x_hum in
  if inv brmx0 is Some brmx0i then
  let x_r_non_dh := dot brmx0i brxc0 in                                          (* 214 *)
  let '(brmx_rac, brxc_rac) :=
    get_dehumid_coeff x_sat l_cs theta_r' (q_max h) (q_min h) (v_max h) (v_min h) x_r_non_dh in (* 220-225 *)
  let brmx := brmx0 + brmx_rac in                                                (* 228 *)
  let brxc := brxc0 + brxc_rac in                                                (* 229 *)
  if inv brmx is Some brmxi then
  let x_r' := dot brmxi brxc in                                                  (* 232 *)
  let l_cl := smul (l_wtr F) (- (dot brmx_rac x_r' - brxc_rac)) in               (* 235 *)
  let x_frt' : 'cV[F]_ni := \matrix_(i, _)                                       (* 238 *)
    ((c_lh h i 0 * x_frt c i 0 + delta_t * g_lh h i 0 * x_r' i 0)
     / (c_lh h i 0 + delta_t * g_lh h i 0)) in
  Some (Conditions modes theta_r' theta_mrt_hum' x_r' theta_dsh_a' theta_dsh_t' q_srf' theta_frt'
          x_frt' theta_ei',
        Outputs q_hum x_hum l_cs l_hs l_cl v_leak v_ntrl' h_hum_c h_hum_r theta_ot theta_s theta_rear)
  else None else None else None else None else None.

End Tick.
