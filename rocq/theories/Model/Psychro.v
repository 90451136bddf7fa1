(* heat_load_calc/external/psychrometrics.py. Arrays are lists of floats; None is nan. *)
From Coq Require Import Reals List.
From Verif Require Import Model.Py Model.EesHouse.
Import ListNotations.
Local Open Scope R_scope.

(* 133-140 get_f *)
Definition get_f : R := 101325.

(* 5-19 get_h. Always called with the saturation pressures of get_p_vs_is (log.py 134-140), which are never zero
   (C46_saturation_positive) *)
Definition get_h (p_v p_vs : R) : R := p_v / p_vs * 100.

(* 22-39 get_x for a single number *)
Definition get_x (p_v : R) : res R := fdiv (622 / 1000 * p_v) (get_f - p_v).

(* 42-59 get_p_v_r_is_n for one room *)
Definition get_p_v_r (x : R) : res R := fdiv (get_f * x) (x + 62198 / 100000).

(* math.log *)
Definition math_log (t : R) : res R := if Rle_dec t 0 then Err ValueError else Ok (ln t).

(* 82-91 and 114-123: the coefficients over water (a) and over ice (b) *)
Definition a_1 : R := - (60969385 / 10000).
Definition a_2 : R := 212409642 / 10000000.
Definition a_3 : R := - (2711193 / 100000000).
Definition a_4 : R := 1673952 / 100000000000.
Definition a_5 : R := 2433502 / 1000000.
Definition b_1 : R := - (60245282 / 10000).
Definition b_2 : R := 2932707 / 100000.
Definition b_3 : R := 10613863 / 1000000000.
Definition b_4 : R := - (13198825 / 1000000000000).
Definition b_5 : R := - (49382577 / 100000000).

(* 94, 96: one branch; the quotient is evaluated before the logarithm *)
Definition sat (c1 c2 c3 c4 c5 t : R) : res R :=
  bind (fdiv c1 t) (fun q => bind (math_log t) (fun l => Ok (exp (q + c2 + c3 * t + c4 * t ^ 2 + c5 * l)))).

(* 67-96 get_p_vs *)
Definition get_p_vs (theta : R) : res R :=
  let t := theta + 27315 / 100 in
  if Rle_dec 0 theta then sat a_1 a_2 a_3 a_4 a_5 t else sat b_1 b_2 b_3 b_4 b_5 t.

(* 62-64 get_p_vs_is: numpy.vectorize refuses empty arrays *)
Definition get_p_vs_is (thetas : list R) : res (list R) :=
  match thetas with nil => Err ValueError | _ => mapM get_p_vs thetas end.

(* the right hand sides of 127 and 128 for one element: numpy gives nan where t <= 0 *)
Definition np_sat (c1 c2 c3 c4 c5 t : R) : option R :=
  if Rle_dec t 0 then None else Some (exp (c1 / t + c2 + c3 * t + c4 * t ^ 2 + c5 * ln t)).

(* xs[mask(theta)] = f(theta[mask(theta)]) *)
Definition masked (mask : R -> bool) (f : R -> option R) (thetas : list R) (xs : list (option R)) : list (option R) :=
  map (fun p : R * option R => if mask (fst p) then f (fst p) else snd p) (combine thetas xs).

(* 99-130 get_p_vs_is2, for arrays of floats *)
Definition get_p_vs_is2 (thetas : list R) : list (option R) :=
  let t theta := theta + 27315 / 100 in
  let p0 := map (fun _ => Some 0) thetas in
  let p1 := masked (fun theta => if Rle_dec 0 theta then true else false) (fun theta => np_sat a_1 a_2 a_3 a_4 a_5 (t theta)) thetas p0 in
  masked (fun theta => if Rlt_dec theta 0 then true else false) (fun theta => np_sat b_1 b_2 b_3 b_4 b_5 (t theta)) thetas p1.
