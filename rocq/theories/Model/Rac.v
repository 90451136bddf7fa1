(* heat_load_calc/external/rac.py, for one room; None is nan *)
From Coq Require Import Reals.
Local Open Scope R_scope.

(* 8-23 get_q_rtd: (rated heating capacity, rated cooling capacity) *)
Definition get_q_rtd (a_floor : R) : R * R :=
  let q_rtd_c := Rmin (1905 / 10 * a_floor + 456 / 10) 5600 in
  let q_rtd_h := 12090 / 10000 * q_rtd_c - 851 / 10 in
  (q_rtd_h, q_rtd_c).

(* 26-42 get_q_max: (maximum heating capacity, maximum cooling capacity) *)
Definition get_q_max (q_rtd_h q_rtd_c : R) : R * R :=
  let q_max_c := Rmax (8462 / 10000 * q_rtd_c + 12059 / 10) q_rtd_c in
  let q_max_h := Rmax (17597 / 10000 * q_max_c - 4137 / 10) q_rtd_h in
  (q_max_h, q_max_c).

(* 45-54 get_q_min_h, 57-66 get_q_min_c *)
Definition get_q_min_h : R := 500.
Definition get_q_min_c : R := 500.

(* x ** y of numpy for a non-integer y > 0 *)
Definition np_pow (x y : R) : option R :=
  if Rlt_dec x 0 then None else if Req_EM_T x 0 then Some 0 else Some (Rpower x y).

(* 69-80 get_v_max *)
Definition get_v_max (q_rtd_c : R) : option R :=
  match np_pow (q_rtd_c / 1000) (3432 / 10000) with Some p => Some (11076 / 1000 * p) | None => None end.

(* 83-94 get_v_min *)
Definition get_v_min (v_max : R) : R := v_max * (55 / 100).
