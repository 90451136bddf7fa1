(* heat_load_calc/core/pre_calc_parameters.py 216-410, 421-469: the arrays of the core, built from the columns that are read
   (ReadHouse.v) and from the csv files. Here the part of the model written with lists of real numbers meets the part
   written with matrices over a field. A share that is not a finite number makes the whole calculation not finite; the model
   stops there with OtherError. *)
From Coq Require Import Reals ZArith List.
From mathcomp Require Import all_ssreflect ssralg ssrnum zmodp matrix.
From Verif Require Import Model.Py Model.RealNumbers Model.PreCalc.
From Verif Require Model.HouseDict Model.ReadHouse Model.ResponseFactor Model.ShapeFactor Model.Initializer Model.Schedule.
Set Implicit Arguments. Unset Strict Implicit. Unset Printing Implicit Defensive.
Import GRing.Theory.
Import HouseDict ReadHouse Initializer.
Local Open Scope ring_scope.

Notation real := R_realFieldType.

Definition number (x : option R) : res R := of_option OtherError x.

(* an array [i, 1] *)
Definition col (n : nat) (l : list R) : 'cV[real]_n := \col_(i < n) List.nth i l R0.
(* column m of an array [i, m] *)
Definition col_of (n : nat) (l : list (list R)) (m : nat) : 'cV[real]_n := \col_(i < n) List.nth m (List.nth i l nil) R0.

Section Assemble.
Variables ni nj : nat.

(* 316, 427-429: a room that is not there is no room *)
Definition room_of (z : Z) : nat := if (z <? 0)%Z then ni else Z.to_nat z.

(* 350-361, 439-446: where the weight of the rear surface goes; read_boundaries has failed already (445) if the index is
   out of range *)
Definition rear_of (b : option bdry) : option ('I_nj * R) :=
  match obind bd_k_inside b with
  | Some (k, c) => match py_index (Z.of_nat nj) k with Ok k' => omap (fun o => (o, c)) (insub k') | Err _ => None end
  | None => None
  end.

Definition no_response : ResponseFactor.response := {|
  ResponseFactor.rft0 := R0; ResponseFactor.rfa0 := R0; ResponseFactor.rft1 := nil; ResponseFactor.rfa1 := nil;
  ResponseFactor.row := nil; ResponseFactor.n_root := 0 |}.

(* 216-361; nm = 12 (response_factor.py 288-293) *)
Definition assemble (cr : core_rooms) (cb : core_boundaries) (bs : list bdry) (h_r : list R) : res (house real ni nj 12) :=
  bind (mapM (fun b => number (bd_flr b)) bs) (fun flr =>                                   (* 331 *)
  bind (mapM (fun b => number (bd_f_mrt_hum b)) bs) (fun f_mrt_hum =>                       (* 345 *)
  let resp f := \col_(j < nj) f (List.nth j (cb_response cb) no_response) in
  let resps f := \matrix_(j < nj, m < 12) List.nth m (f (List.nth j (cb_response cb) no_response)) R0 in
  Ok (House
    (col ni (cr_volume cr)) (col ni (cr_beta cr)) (col ni (cr_v_vent_ex cr))                (* 235, 238, 241 *)
    (\matrix_(i < ni, k < ni) List.nth k (List.nth i (cr_v_int_vent cr) nil) R0)            (* 244 *)
    (col ni (cr_v_ntrl cr)) (col ni (cr_c_sh cr)) (col ni (cr_g_sh cr)) (col ni (cr_c_lh cr)) (col ni (cr_g_lh cr)) (* 247-259 *)
    (fun i => List.nth i (cr_is_radiative_heating cr) false) (col ni (cr_lr_h_max cr))      (* 285-286 *)
    (fun i => List.nth i (cr_is_radiative_cooling cr) false) (col ni (cr_lr_c_max cr))      (* 287-288 *)
    (col ni (cr_q_min cr)) (col ni (cr_q_max cr)) (col ni (cr_v_min cr)) (col ni (cr_v_max cr)) (* 290-293 *)
    (fun j => room_of (List.nth j (cb_connected cb) (-1)%Z)) (col nj (cb_area cb))          (* 316, 319 *)
    (resp ResponseFactor.rfa0) (resps ResponseFactor.rfa1) (resp ResponseFactor.rft0) (resps ResponseFactor.rft1)
    (resps ResponseFactor.row)                                                              (* 322 *)
    (col nj (cb_h_c cb)) (col nj h_r) (col nj flr)                                          (* 325, 463, 331 *)
    (fun j => List.nth j (cb_is_solar_abs cb) false) (col nj f_mrt_hum) (col nj (cb_k_eo cb)) (* 334-348 *)
    (fun j => rear_of (nth_error bs j))))).                                                 (* 350-361 *)

(* 372-410: column n of the csv files; weather is the outdoor temperature and humidity of the step. A gain that is not a
   number stops the model. *)
Definition numbers (rows : list (list (option R))) (n : nat) : res (list R) :=
  mapM (fun r => bind (of_option IndexError (nth_error r n)) number) rows.
Definition step_of (m : mid_data) (n : nat) (weather : R * R) : res (step_data real ni nj) :=
  bind (numbers (m_q_trs_sol m) n) (fun q =>
  bind (numbers (m_theta_o_sol m) n) (fun t =>
  let sch := m_schedules m in
  Ok (StepData (F := real) weather.1 weather.2                                              (* 374, 375 *)
    (col_of ni (Schedule.v_local sch) n) (col_of ni (Schedule.q_gen sch) n) (col_of ni (Schedule.x_gen sch) n) (* 380-390 *)
    (col_of ni (Schedule.n_people sch) n) (col_of ni (Schedule.demand sch) n)               (* 395, 400 *)
    (col ni q) (col nj t)))).                                                               (* 405, 410 *)
Definition steps_of (m : mid_data) (weather : list (R * R)) : res (list (step_data real ni nj)) :=
  mapM (fun p => step_of m p.1 p.2) (combine (List.seq 0 (List.length weather)) weather).
End Assemble.

(* 216-469: the house of the core and which of its boundaries touch the ground (313) *)
Definition core_input (f_ver : list R -> R) (inv : list (list R) -> res (list (list R))) (m : mid_data)
    : res (house real (List.length (m_spaces m)) (List.length (m_boundaries m)) 12 * pred 'I_(List.length (m_boundaries m))) :=
  let ni := List.length (m_spaces m) in
  bind (read_spaces (m_spaces m)) (fun cr =>
  bind (read_boundaries inv ni (m_boundaries m)) (fun cb =>
  let h_r := ShapeFactor.h_r_js f_ver ni (List.map (room_of ni) (cb_connected cb)) (cb_area cb) in (* 463 *)
  bind (assemble ni (List.length (m_boundaries m)) cr cb (m_boundaries m) h_r) (fun h =>
  Ok (h, fun j : 'I_(List.length (m_boundaries m)) => List.nth j (cb_is_ground cb) false)))).
