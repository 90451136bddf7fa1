(* heat_load_calc/core/pre_calc_parameters.py 215-624 make_pre_calc_parameters:
   the data read for a house, and the matrices computed from it before the loop. *)
From mathcomp Require Import all_ssreflect ssralg ssrnum zmodp matrix.
From Verif Require Import Model.OperationMode Model.Numpy.
Set Implicit Arguments. Unset Strict Implicit. Unset Printing Implicit Defensive.
Import Order.TTheory GRing.Theory Num.Theory.
Local Open Scope ring_scope.

Section PreCalc.
Variable F : realFieldType.
Variables ni nj nm : nat. (* rooms, boundaries, response terms per boundary (12 in the code) *)

(* external/global_number.py 3-9, 12-18, 21-26 *)
Definition c_air : F := 1005%:R.
Definition rho_air : F := 12%:R / 10%:R.
Definition l_wtr : F := 2501%:R * 1000%:R.

(* What is read from mid_data_house.json (pre_calc_parameters.py 217-369). [i,1]/[j,1] arrays are
   column vectors. The response factors (322) and h_r (463) are inputs of this file's model; they are
   modelled in ResponseFactor.v and ShapeFactor.v. *)
Record house := House {
  v_room : 'cV[F]_ni;                (* 235 *)
  beta : 'cV[F]_ni;                  (* 238 *)
  v_vent_ex : 'cV[F]_ni;             (* 241 *)
  v_int : 'M[F]_ni;                  (* 244 v_int_vent_is_is *)
  v_ntrl : 'cV[F]_ni;                (* 247 *)
  c_sh : 'cV[F]_ni;                  (* 250 *)
  g_sh : 'cV[F]_ni;                  (* 253 *)
  c_lh : 'cV[F]_ni;                  (* 256 *)
  g_lh : 'cV[F]_ni;                  (* 259 *)
  is_rad_h : 'I_ni -> bool;          (* 263-271, 285 *)
  cap_h : 'cV[F]_ni;                 (* 286 lr_h_max_cap_is *)
  is_rad_c : 'I_ni -> bool;          (* 275-283, 287 *)
  cap_c : 'cV[F]_ni;                 (* 288 lr_cs_max_cap_is *)
  q_min : 'cV[F]_ni;                 (* 290 *)
  q_max : 'cV[F]_ni;                 (* 291 *)
  v_min : 'cV[F]_ni;                 (* 292 *)
  v_max : 'cV[F]_ni;                 (* 293 *)
  conn : 'I_nj -> nat;               (* 316 connected_space_id_js *)
  a_srf : 'cV[F]_nj;                 (* 319 *)
  phi_a0 : 'cV[F]_nj;                (* 322 *)
  phi_a1 : 'M[F]_(nj, nm);
  phi_t0 : 'cV[F]_nj;
  phi_t1 : 'M[F]_(nj, nm);
  r_ms : 'M[F]_(nj, nm);
  h_c : 'cV[F]_nj;                   (* 325 *)
  h_r : 'cV[F]_nj;                   (* 463 *)
  flr : 'cV[F]_nj;                   (* 331 *)
  is_solar_abs : 'I_nj -> bool;      (* 334-342 *)
  f_mrt_hum : 'cV[F]_nj;             (* 345 *)
  k_eo : 'cV[F]_nj;                  (* 348 *)
  k_ei : 'I_nj -> option ('I_nj * F) (* 350-361; ids in range, otherwise IndexError at 445 *)
}.

(* Column n of the scheduled data read from csv (372-410), the only column a step uses. *)
Record step_data := StepData {
  theta_o : F;                       (* 374 *)
  x_o : F;                           (* 375 *)
  v_mec_local : 'cV[F]_ni;           (* 380 *)
  q_gen : 'cV[F]_ni;                 (* 385 *)
  x_gen : 'cV[F]_ni;                 (* 390 *)
  n_hum : 'cV[F]_ni;                 (* 395 *)
  ac_demand : 'cV[F]_ni;             (* 400 *)
  q_trs_sol : 'cV[F]_ni;             (* 405 *)
  theta_o_sol : 'cV[F]_nj            (* 410 *)
}.

Variable h : house.

(* 427-429 *)
Definition p_is_js : 'M[F]_(ni, nj) := \matrix_(i, j) (conn h j == i :> nat)%:R.
(* 436 *)
Definition p_js_is : 'M[F]_(nj, ni) := p_is_js^T.
(* 439-447 *)
Definition k_ei_js_js : 'M[F]_nj :=
  \matrix_(j, k) (if k_ei h j is Some (id, coef) then (if k == id then coef else 0) else 0).
(* 450 *)
Definition flr_js_is : 'M[F]_(nj, ni) := cmul (flr h) p_js_is.
(* 453 *)
Definition f_mrt_hum_is_js : 'M[F]_(ni, nj) := rmul p_is_js (f_mrt_hum h).
(* 460 *)
Definition c_rm : 'cV[F]_ni := \matrix_(i, j) (v_room h i 0 * rho_air * c_air).
(* 466, shape_factor.py 36-40 get_f_mrt_is_js *)
Definition f_mrt_is_js : 'M[F]_(ni, nj) :=
  let ah := emul (a_srf h) (h_r h) in
  cdiv (rmul p_is_js ah) (dot p_is_js ah).
(* 469 *)
Definition h_i : 'cV[F]_nj := h_c h + h_r h.
(* 475 *)
Definition r_sol_fnt : F := 1 / 2%:R.
(* 481 *)
Definition a_srf_abs : 'cV[F]_ni := dot p_is_js (emul (a_srf h) (ind F (is_solar_abs h))).

(* 491-493 AX *)
Definition ax : 'M[F]_nj :=
  vdiag (sadd 1 (emul (phi_a0 h) h_i))
  - cmul (phi_a0 h) (cmul (h_r h) (dot p_js_is f_mrt_is_js))
  - cdiv (cmul (phi_t0 h) (cmul (h_r h) (dot k_ei_js_js (dot p_js_is f_mrt_is_js)))) h_i.
(* 499-500 FIA *)
Definition fia : 'M[F]_(nj, ni) :=
  cmul (emul (phi_a0 h) (h_c h)) p_js_is
  + cdiv (cmul (h_c h) (cmul (phi_t0 h) (dot k_ei_js_js p_js_is))) h_i.
(* 508-509 FLB *)
Definition flb : 'M[F]_(nj, ni) :=
  cdiv (cmul (phi_a0 h) (rmul flr_js_is (ssub 1 (beta h)))) (a_srf h)
  + cdiv (cdiv (cmul (phi_t0 h) (dot k_ei_js_js (rmul flr_js_is (ssub 1 (beta h))))) h_i) (a_srf h).

(* The parts of PreCalcParameters (553-609) that need the inverse of AX *)
Record pp := PP {
  ivs_ax : 'M[F]_nj;                 (* 496 *)
  wsr : 'M[F]_(nj, ni);              (* 512 *)
  wsb : 'M[F]_(nj, ni);              (* 518 *)
  brl : 'M[F]_ni;                    (* 521 *)
  brm_non_vent : 'M[F]_ni            (* 524-526 *)
}.

(* None = LinAlgError at 496 *)
Definition make_pp (delta_t : F) : option pp :=
  if inv ax is Some ivs then                                                      (* 496 *)
    let wsr := dot ivs fia in                                                     (* 512 *)
    let wsb := dot ivs flb in                                                     (* 518 *)
    let brl := dot p_is_js (cmul (a_srf h) (cmul (h_c h) wsb)) + vdiag (beta h) in (* 521 *)
    let brm := vdiag (\matrix_(i, j) (c_rm i 0 / delta_t))                        (* 524 *)
      + dot p_is_js (cmul (h_c h) (cmul (a_srf h) (p_js_is - wsr)))               (* 525 *)
      + vdiag (\matrix_(i, j) (c_sh h i 0 * g_sh h i 0
                               / (c_sh h i 0 + g_sh h i 0 * delta_t))) in         (* 526 *)
    Some (PP ivs wsr wsb brl brm)
  else None.

(* Column n of the time series computed before the loop. A column of np.dot(A, B) is A times the
   column of B, so the columns are computed one at a time. *)
Section Step.
Variable s : step_data.
(* 472 *)
Definition v_mec : 'cV[F]_ni := v_vent_ex h + v_mec_local s.
(* 478 *)
Definition q_sol_frt : 'cV[F]_ni := smul r_sol_fnt (q_trs_sol s).
(* 484-485 *)
Definition q_sol_js : 'cV[F]_nj :=
  smul (1 - r_sol_fnt) (emul (ind F (is_solar_abs h)) (dot p_js_is (ediv (q_trs_sol s) a_srf_abs))).
(* 488 *)
Definition theta_dstrb : 'cV[F]_nj := emul (theta_o_sol s) (k_eo h).
(* 503-505 CRX *)
Definition crx : 'cV[F]_nj :=
  emul (phi_a0 h) q_sol_js
  + emul (ediv (phi_t0 h) h_i) (dot k_ei_js_js q_sol_js)
  + emul (phi_t0 h) theta_dstrb.
(* 515 *)
Definition wsc (ivs : 'M[F]_nj) : 'cV[F]_nj := dot ivs crx.
End Step.

End PreCalc.
