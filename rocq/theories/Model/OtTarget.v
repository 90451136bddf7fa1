(* heat_load_calc/core/ot_target.py and heat_load_calc/core/ot_target_pmv.py with method='constant'
   (the only method core uses, ot_target.py 52).
   e0 stands for math.exp(-0.036 * get_m()), the only transcendental number in these functions. *)
From mathcomp Require Import all_ssreflect ssralg ssrnum zmodp matrix.
From Coq Require Import ZArith.
From Verif Require Import Model.OperationMode Model.Numpy Model.Dec Model.PreCalc Model.Tick.
Set Implicit Arguments. Unset Strict Implicit. Unset Printing Implicit Defensive.
Import Order.TTheory GRing.Theory Num.Theory.
Local Open Scope ring_scope.

Section OtTarget.
Variable F : realFieldType.
Variable e0 : F.
Local Notation d := (dec F).

(* ot_target_pmv.py 665-677 get_m *)
Definition get_m : F := d 5815 2.
(* ot_target_pmv.py 680-693 get_i_cl_is_n *)
Definition get_i_cl (clo : F) : F := clo * d 155 3.
(* ot_target_pmv.py 652-662 get_f_cl_is_n *)
Definition get_f_cl (i_cl : F) : F :=
  if i_cl <= d 78 3 then 1 + d 1290 3 * i_cl else d 105 2 + d 645 3 * i_cl.
(* ot_target_pmv.py 356-383 *)
Definition clo_heavy : F := d 11 1.
Definition clo_middle : F := d 7 1.
Definition clo_light : F := d 3 1.

(* 0.303 * math.exp(-0.036 * m) + 0.028 *)
Definition pmv_gain : F := d 303 3 * e0 + d 28 3.

(* ot_target_pmv.py 386-425 get_pmv_is_n *)
Definition get_pmv (theta_r clo p_a h_hum theta_ot : F) : F :=
  let i_cl := get_i_cl clo in
  let m := get_m in
  let f_cl := get_f_cl i_cl in
  pmv_gain * (
    m
    - d 305 2 * d 1 3 * (d 5733 0 - d 699 2 * m - p_a)
    - Num.max (d 42 2 * (m - d 5815 2)) 0
    - d 17 1 * d 1 5 * m * (d 5867 0 - p_a)
    - d 14 4 * m * (d 34 0 - theta_r)
    - f_cl * h_hum * (d 357 1 - d 28 3 * m - theta_ot) / (1 + i_cl * f_cl * h_hum)).

(* ot_target_pmv.py 612-649 get_theta_ot_target *)
Definition get_theta_ot_target (clo p_a h_hum pmv_target : F) : F :=
  let i_cl := get_i_cl clo in
  let m := get_m in
  let f_cl := get_f_cl i_cl in
  (pmv_target / pmv_gain - m
   + d 305 2 * d 1 3 * (d 5733 0 - d 699 2 * m - p_a)
   + Num.max (d 42 2 * (m - d 5815 2)) 0
   + d 17 1 * d 1 5 * m * (d 5867 0 - p_a)
   + d 14 4 * m * d 34 0
   + f_cl * h_hum * (d 357 1 - d 28 3 * m) / (1 + i_cl * f_cl * h_hum))
  / (d 14 4 * m + f_cl * h_hum / (1 + i_cl * f_cl * h_hum)).

(* ot_target_pmv.py 428-519 get_operation_mode_is_n, get_operation_mode_i_n; None = ValueError *)
Definition get_operation_mode (ac_demand : F) (mns : mode) (pmv_heavy pmv_middle pmv_light : F)
    : option mode :=
  if 0 < ac_demand then
    match mns with
    | HEATING => Some (if pmv_heavy <= d 7 1 then HEATING
                       else if d 7 1 <= pmv_light then COOLING else STOP_CLOSE)
    | COOLING => Some (if - d 7 1 <= pmv_light then COOLING
                       else if pmv_heavy <= - d 7 1 then HEATING else STOP_CLOSE)
    | STOP_OPEN => Some (if d 7 1 <= pmv_light then COOLING
                         else if pmv_heavy <= - d 7 1 then HEATING
                         else if pmv_middle <= 0 then STOP_CLOSE else STOP_OPEN)
    | STOP_CLOSE => Some (if d 7 1 <= pmv_light then COOLING
                          else if pmv_heavy <= - d 7 1 then HEATING
                          else if 0 <= pmv_middle then STOP_OPEN else STOP_CLOSE)
    | HEATING_AND_COOLING => None
    end
  else Some STOP_CLOSE.

(* ot_target_pmv.py 522-549 get_clo_is_n. HEATING_AND_COOLING keeps the initial 0.0 *)
Definition get_clo (om : mode) : F :=
  match om with
  | HEATING => clo_heavy | COOLING => clo_light
  | STOP_OPEN => clo_middle | STOP_CLOSE => clo_middle
  | HEATING_AND_COOLING => 0
  end.

(* ot_target_pmv.py 590-609 get_pmv_target_is_n *)
Definition get_pmv_target (om : mode) : F :=
  match om with HEATING => - d 5 1 | COOLING => d 5 1 | _ => 0 end.

(* ot_target_pmv.py 191-246 _get_h_hum, method 'constant' *)
Definition h_hum_c : F := d 40 1.
Definition h_hum_r : F := 4%:R * d 396 2 * d 1 8 * (d 200 1 + d 27315 2) ^+ 3.

(* external/psychrometrics.py 43-61 get_p_v_r_is_n, 141-147 get_f *)
Definition get_p_v_r (x_r : F) : F := d 101325 0 * x_r / (x_r + d 62198 5).

(* ot_target_pmv.py 147-188 _get_h_hum_and_pmv *)
Definition get_h_hum_and_pmv (p_a theta_r theta_mrt clo : F) : F :=
  let h_hum := h_hum_r + h_hum_c in
  let theta_ot := (h_hum_r * theta_mrt + h_hum_c * theta_r) / h_hum in
  get_pmv theta_r clo p_a h_hum theta_ot.

(* ot_target_pmv.py 11-142 get_ot_target_and_h_hum_with_pmv, one room:
   operation mode and target operative temperature (552-587: 0.0 unless heating or cooling).
   The wind speeds (280-310) only enter the remarks when method is 'constant'. *)
Definition ot_target_pmv (x_r : F) (mns : mode) (theta_r theta_mrt ac_demand : F) : option (mode * F) :=
  let p := get_p_v_r x_r in
  let pmv_heavy := get_h_hum_and_pmv p theta_r theta_mrt clo_heavy in
  let pmv_middle := get_h_hum_and_pmv p theta_r theta_mrt clo_middle in
  let pmv_light := get_h_hum_and_pmv p theta_r theta_mrt clo_light in
  if get_operation_mode ac_demand mns pmv_heavy pmv_middle pmv_light is Some om then
    let target := get_theta_ot_target (get_clo om) p (h_hum_c + h_hum_r) (get_pmv_target om) in
    Some (om, if mode_eqb om HEATING || mode_eqb om COOLING then target else 0)
  else None.

(* ot_target.py 9-69: all rooms. One room raising makes the whole call raise. *)
Section Rooms.
Variable ni : nat.
Definition get_ot_target_and_h_hum : ot_fun F ni := fun x_r mns theta_r theta_mrt ac =>
  let one i := ot_target_pmv (x_r i 0) (mns i) (theta_r i 0) (theta_mrt i 0) (ac i 0) in
  if [forall i, one i] then
    let om i := if one i is Some (m, _) then m else STOP_CLOSE in
    let target i := if one i is Some (_, t) then t else 0 in
    Some (\matrix_(i, j) h_hum_c, \matrix_(i, j) h_hum_r, om,
          \matrix_(i, j) (if mode_eqb (om i) HEATING then target i else 0),          (* 56-58 *)
          \matrix_(i, j) (if mode_eqb (om i) COOLING then target i else 0))          (* 60-62 *)
  else None.
End Rooms.

End OtTarget.
