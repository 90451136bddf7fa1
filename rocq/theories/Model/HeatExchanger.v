(* heat_load_calc/core/heat_exchanger.py *)
From mathcomp Require Import all_ssreflect ssralg ssrnum zmodp matrix.
From Verif Require Import Model.OperationMode Model.Numpy Model.PreCalc.
Set Implicit Arguments. Unset Strict Implicit. Unset Printing Implicit Defensive.
Import Order.TTheory GRing.Theory Num.Theory.
Local Open Scope ring_scope.

Section HeatExchanger.
Variable F : realFieldType.
Variable ni : nat.

(* heat_exchanger.py 59-62 get_vac_is_n, one room; q_max = q_min divides by zero in numpy *)
Definition get_vac (q_max q_min qs v_max v_min : F) : F :=
  (v_min + (v_max - v_min) / (q_max - q_min) * (qs - q_min)) / 60%:R.

(* 26 *)
Definition bf : F := 2%:R / 10%:R.

(* heat_exchanger.py 48-56 get_x_e_out_is_n, one room. x_sat stands for
   theta |-> get_x(get_p_vs_is2(theta)) of external/psychrometrics.py. *)
Definition get_x_e_out (x_sat : F -> F) (qs theta_r vac : F) : F :=
  x_sat (theta_r - qs / (c_air F * rho_air F * vac * (1 - bf))).

(* heat_exchanger.py 8-45 get_dehumid_coeff. The masked assignments v_ac[dh] = ..., x_e_out[dh] = ...
   are conditionals per room. 1.0e-3 is 1/1000. *)
Definition get_dehumid_coeff (x_sat : F -> F) (lcs theta_r : 'cV[F]_ni)
    (q_max q_min v_max v_min : 'cV[F]_ni) (x_r_non_dh : 'cV[F]_ni) : 'M[F]_ni * 'cV[F]_ni :=
  let qs := - lcs in                                                             (* 12 *)
  let dh := fun i => 1 / 1000%:R < qs i 0 in                                     (* 14 *)
  let v_ac : 'cV[F]_ni := \matrix_(i, _)
      (if dh i then get_vac (q_max i 0) (q_min i 0) (qs i 0) (v_max i 0) (v_min i 0) else 0) in (* 16-24 *)
  let x_e_out : 'cV[F]_ni := \matrix_(i, _)
      (if dh i then get_x_e_out x_sat (qs i 0) (theta_r i 0) (v_ac i 0) else 0) in (* 28-35 *)
  let v_ac := smul (1 - bf) v_ac in                                              (* 37 *)
  let brmx_rac := vdiag (smul (rho_air F) v_ac) in                               (* 39 *)
  let brxc_rac := emul (smul (rho_air F) v_ac) x_e_out in                        (* 40 *)
  let dry := fun i => x_r_non_dh i 0 < x_e_out i 0 in
  let brmx_rac := vdiag (vwhere dry 0 (\matrix_(i, _) brmx_rac i i)) in          (* 42 *)
  let brxc_rac := vwhere dry 0 brxc_rac in                                       (* 43 *)
  (brmx_rac, brxc_rac).

End HeatExchanger.
