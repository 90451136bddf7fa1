(* heat_load_calc/core/ot_target_pmv.py for one room with either method, over the real numbers.
   The formulas shared with method 'constant' are those of Model.OtTarget. newton stands for scipy.optimize.newton (line 228),
   which looks for a zero of the function it is given; it is a parameter, and theorems say what they assume of it.
   x ** 0.25 is the fourth root, sqrt (sqrt x). numpy's x / 0 is nan or infinite, here 0; the theorems concern temperatures
   at which the divisors are positive. *)
From Coq Require Import Reals String.
From mathcomp Require Import all_ssreflect ssralg ssrnum.
From Verif Require Import Model.Py Model.OperationMode Model.RealNumbers Model.OtTarget.
Delimit Scope R_scope with coqR.
Local Open Scope coqR.

(* math.exp(-0.036 * m), 419 *)
Definition exp_m : R := exp (- (36 / 1000) * (5815 / 100)).

(* 313-330 get_h_hum_c_is_n *)
Definition get_h_hum_c (theta_r theta_cl v_hum : R) : R :=
  Rmax (121 / 10 * sqrt v_hum) (238 / 100 * sqrt (sqrt (Rabs (theta_cl - theta_r)))).

(* 333-353 get_h_hum_r_is_n *)
Definition get_h_hum_r (theta_cl theta_mrt : R) : R :=
  let t_cl := theta_cl + 273 in
  let t_mrt := theta_mrt + 273 in
  396 / 100 * (1 / 100000000) * (t_cl ^ 3 + t_cl ^ 2 * t_mrt + t_cl * t_mrt ^ 2 + t_mrt ^ 3).

(* 280-310 get_v_hum_is_n *)
Definition get_v_hum (om : mode) (is_radiative_heating is_radiative_cooling : bool) : R :=
  match om with
  | HEATING => if is_radiative_heating then 0 else 2 / 10
  | COOLING => if is_radiative_cooling then 0 else 2 / 10
  | STOP_OPEN => 1 / 10
  | _ => 0
  end.

(* 248-277 _get_theta_cl_is_n *)
Definition get_theta_cl (clo theta_ot h_hum : R) : R :=
  let i_cl : R := @get_i_cl R_realFieldType clo in
  let f_cl : R := @get_f_cl R_realFieldType i_cl in
  let m := get_m R_realFieldType : R in
  (357 / 10 - 28 / 1000 * m - theta_ot) / (1 + i_cl * f_cl * h_hum) + theta_ot.

(* 209-223 f *)
Definition clothing_map (theta_mrt theta_r clo v_hum t : R) : R :=
  let h_c := get_h_hum_c theta_r t v_hum in
  let h_r := get_h_hum_r t theta_mrt in
  let h := h_r + h_c in
  get_theta_cl clo ((h_r * theta_mrt + h_c * theta_r) / h) h.

(* 191-246 _get_h_hum *)
Definition get_h_hum (newton : (R -> R) -> res R) (theta_mrt theta_r clo v_hum : R) (method : string) : res (R * R) :=
  if string_dec method "convergence" then
    bind (newton (fun t => clothing_map theta_mrt theta_r clo v_hum t - t)) (fun theta_cl =>
    Ok (get_h_hum_c theta_r theta_cl v_hum, get_h_hum_r theta_cl theta_mrt))
  else if string_dec method "constant" then
    Ok (h_hum_c R_realFieldType : R, h_hum_r R_realFieldType : R)
  else Err OtherError.

(* 147-188 _get_h_hum_and_pmv *)
Definition get_h_hum_and_pmv (newton : (R -> R) -> res R) (p_a theta_r theta_mrt clo v_hum : R) (method : string) : res R :=
  bind (get_h_hum newton theta_mrt theta_r clo v_hum method) (fun h =>
  let h_hum := snd h + fst h in
  let theta_ot := (snd h * theta_mrt + fst h * theta_r) / h_hum in
  Ok (@get_pmv R_realFieldType exp_m theta_r clo p_a h_hum theta_ot)).

(* 11-142 get_ot_target_and_h_hum_with_pmv: h_hum_c, h_hum_r, operation mode and target (552-587: 0.0 unless heating or
   cooling); the remarks are left out *)
Definition ot_target_with (newton : (R -> R) -> res R) (x_r : R) (mns : mode) (rad_heating rad_cooling : bool)
    (theta_r theta_mrt ac_demand : R) (method : string) : res (R * R * mode * R) :=
  let p := @get_p_v_r R_realFieldType x_r in
  let v := get_v_hum mns rad_heating rad_cooling in
  let pmv clo := get_h_hum_and_pmv newton p theta_r theta_mrt clo v method in
  bind (pmv (clo_heavy R_realFieldType)) (fun heavy =>
  bind (pmv (clo_middle R_realFieldType)) (fun middle =>
  bind (pmv (clo_light R_realFieldType)) (fun light =>
  bind (of_option ValueError (@get_operation_mode R_realFieldType ac_demand mns heavy middle light)) (fun om =>
  let clo := get_clo R_realFieldType om in
  bind (get_h_hum newton theta_mrt theta_r clo (get_v_hum om rad_heating rad_cooling) method) (fun h =>
  Ok (fst h, snd h, om,
      if mode_eqb om HEATING || mode_eqb om COOLING
      then @get_theta_ot_target R_realFieldType exp_m clo p (fst h + snd h) (get_pmv_target R_realFieldType om) else 0)))))).
