(* heat_load_calc/core/log.py 116-152 Logger.pre_logging and post_logging together with the columns
   written by heat_load_calc/core/sequence.py 240-268: the values of the logger at one time step.
   Relative humidity (134-140) is in Psychro.v; space_remarks (270) is text and left out. *)
From mathcomp Require Import all_ssreflect ssralg ssrnum zmodp matrix.
From Verif Require Import Model.OperationMode Model.Numpy Model.PreCalc Model.Tick.
Set Implicit Arguments. Unset Strict Implicit. Unset Printing Implicit Defensive.
Import GRing.Theory Num.Theory.
Local Open Scope ring_scope.

Section LogCore.
Variable F : realFieldType.
Variables ni nj nm : nat.

Record log_columns := LogColumns {
  lc_theta_o : F; lc_x_o : F; lc_ac_demand : 'cV[F]_ni; lc_q_trs_sol : 'cV[F]_ni;
  lc_q_gen : 'cV[F]_ni; lc_x_gen : 'cV[F]_ni; lc_q_sol_frt : 'cV[F]_ni;
  lc_qisol_s : 'cV[F]_nj; lc_h_c_s : 'cV[F]_nj; lc_h_r_s : 'cV[F]_nj;
  lc_operation_mode : 'I_ni -> mode; lc_theta_r : 'cV[F]_ni; lc_theta_mrt_hum : 'cV[F]_ni;
  lc_x_r : 'cV[F]_ni; lc_theta_frt : 'cV[F]_ni; lc_x_frt : 'cV[F]_ni; lc_theta_ei : 'cV[F]_nj;
  lc_q_hum : 'cV[F]_ni; lc_x_hum : 'cV[F]_ni; lc_l_cs : 'cV[F]_ni; lc_l_rs : 'cV[F]_ni;
  lc_l_cl : 'cV[F]_ni; lc_v_reak : 'cV[F]_ni; lc_v_ntrl : 'cV[F]_ni;
  lc_h_hum_c : 'cV[F]_ni; lc_h_hum_r : 'cV[F]_ni; lc_theta_ot : 'cV[F]_ni;
  lc_theta_s : 'cV[F]_nj; lc_theta_rear : 'cV[F]_nj; lc_qiall_s : 'cV[F]_nj;
  lc_q_frt : 'cV[F]_ni; lc_qc : 'cV[F]_nj; lc_qr : 'cV[F]_nj; lc_q_l_frt : 'cV[F]_ni
}.

(* s: column n of the data; (c', o): what step n computed *)
Definition log_column (h : house F ni nj nm) (s : step_data F ni nj)
    (x : conditions F ni nj nm * outputs F ni nj) : log_columns :=
  let '(c', o) := x in {|
  lc_theta_o := theta_o s;                                         (* log.py 118 *)
  lc_x_o := x_o s;                                                 (* 119 *)
  lc_ac_demand := ac_demand s;                                     (* 120 *)
  lc_q_trs_sol := q_trs_sol s;                                     (* 121 *)
  lc_q_gen := q_gen s;                                             (* 122 *)
  lc_x_gen := x_gen s;                                             (* 123 *)
  lc_q_sol_frt := q_sol_frt s;                                     (* 124 *)
  lc_qisol_s := emul (q_sol_js h s) (a_srf h);                     (* 127 *)
  lc_h_c_s := h_c h;                                               (* 128 *)
  lc_h_r_s := h_r h;                                               (* 129 *)
  lc_operation_mode := operation_mode c';                          (* sequence.py 243 *)
  lc_theta_r := theta_r c';                                        (* 245 *)
  lc_theta_mrt_hum := theta_mrt_hum c';                            (* 246 *)
  lc_x_r := x_r c';                                                (* 247 *)
  lc_theta_frt := theta_frt c';                                    (* 248 *)
  lc_x_frt := x_frt c';                                            (* 249 *)
  lc_theta_ei := theta_ei c';                                      (* 250 *)
  lc_q_hum := o_q_hum o;                                           (* 254 *)
  lc_x_hum := o_x_hum o;                                           (* 255 *)
  lc_l_cs := o_l_cs o;                                             (* 256 *)
  lc_l_rs := o_l_rs o;                                             (* 257 *)
  lc_l_cl := o_l_cl o;                                             (* 258 *)
  lc_v_reak := o_v_leak o;                                         (* 260 *)
  lc_v_ntrl := o_v_ntrl o;                                         (* 261 *)
  lc_h_hum_c := o_h_hum_c o;                                       (* 262 *)
  lc_h_hum_r := o_h_hum_r o;                                       (* 263 *)
  lc_theta_ot := o_theta_ot o;                                     (* 265 *)
  lc_theta_s := o_theta_s o;                                       (* 266 *)
  lc_theta_rear := o_theta_rear o;                                 (* 267 *)
  lc_qiall_s := q_srf c';                                          (* 268 *)
  lc_q_frt := emul (g_sh h) (theta_r c' - theta_frt c');           (* log.py 143 *)
  lc_qc := emul (emul (h_c h) (a_srf h)) (dot (p_js_is h) (theta_r c') - o_theta_s o);  (* 146 *)
  lc_qr := emul (emul (h_r h) (a_srf h))
             (dot (dot (p_js_is h) (f_mrt_is_js h)) (o_theta_s o) - o_theta_s o);       (* 149 *)
  lc_q_l_frt := emul (g_lh h) (x_r c' - x_frt c')                  (* 152 *)
  |}.

(* column n of the logger after a calculation: the input series are taken over from column 0 on
   (pre_logging), the computed ones are written by the steps (None: not written) *)
Definition logged (h : house F ni nj nm) (data : seq (step_data F ni nj))
    (log : seq (option (conditions F ni nj nm * outputs F ni nj))) (n : nat) : option log_columns :=
  match List.nth_error data n, List.nth_error log n with
  | Some s, Some (Some x) => Some (log_column h s x)
  | _, _ => None
  end.
End LogCore.
