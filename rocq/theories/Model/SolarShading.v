(* heat_load_calc/initializer/solar_shading.py *)
From Coq Require Import Reals List String Bool.
From Verif Require Import Model.Py Model.Trig Model.BoundaryDict Model.Inclined.
Import ListNotations.
Local Open Scope R_scope.

Inductive shading :=
| Simple (w_alpha depth d_h d_e : R)
| Detail
| NotShaded.

Definition is_external (t : string) : bool :=
  (t =? "external_general_part")%string || (t =? "external_transparent_part")%string || (t =? "external_opaque_part")%string.

(* 18-77 SolarShading.create *)
Definition create_shading (b : bdict) : res shading :=
  bind (key (solar_shading_part b)) (fun ssp =>                                            (* 30 *)
  let existence := existence ssp in                                                       (* 32 *)
  bind (key (boundary_type b)) (fun t =>
  bind (if is_external t then key (is_sun_striked_outside b)                              (* 34-35 *)
        else if (t =? "internal")%string || (t =? "ground")%string then Ok false           (* 36-37 *)
        else Err KeyError) (fun is_sun =>                                                  (* 38-39 *)
  if existence && is_sun then                                                             (* 41 *)
    bind (key (input_method ssp)) (fun m =>
    bind (key (direction b)) (fun d =>
    bind (get_w_alpha_j_w_beta_j d) (fun ab =>                                            (* 47 *)
    if (m =? "simple")%string then
      bind (key (depth ssp)) (fun z => bind (key (d_h ssp)) (fun h => bind (key (d_e ssp)) (fun e =>
      Ok (Simple (fst ab) z h e))))                                                       (* 51-56 *)
    else if (m =? "detail")%string then Ok Detail                                         (* 58-72 *)
    else Err ValueError)))                                                                (* 74-75 *)
  else Ok NotShaded))).                                                                   (* 77-79 *)

Definition clip (x lo hi : R) : R := Rmin (Rmax x lo) hi.

(* get_f_ss_d_j_ns for one step: 114-147 (simple), 193-206 (detail), 218-233 (none) *)
Definition get_f_ss_d_j_n (s : shading) (h_sun : R) (a_sun : option R) : res (option R) :=
  match s with
  | Simple w_alpha depth d_h d_e =>
    let h_s := if Rlt_dec 0 h_sun then h_sun else 0 in
    let a_s := if Rlt_dec 0 h_sun then a_sun else Some 0 in
    let tan_fai := obind a_s (fun a => div (tan h_s) (cos (a - w_alpha))) in
    let dh := obind tan_fai (fun t => Some (depth * t - d_e)) in
    let f := obind dh (fun x => obind (div x d_h) (fun q => Some (clip q 0 1))) in
    Ok (if Rle_dec h_s 0 then Some 0 else f)
  | Detail => Err OtherError
  | NotShaded => Ok (Some 1)
  end.

(* get_f_ss_s_j: 149-174, 208-216, 235-243 *)
Definition get_f_ss_s_j (s : shading) : res R :=
  match s with
  | Simple _ depth d_h d_e =>
    let z := depth in let yw := d_h in let y1 := d_e in
    let ac := y1 + yw in let ab := z in let ad := y1 in let dc := yw in
    let bd := sqrt (ad ^ 2 + ab ^ 2) in
    let bc := sqrt ((ad + dc) ^ 2 + ab ^ 2) in
    if Req_EM_T (2 * dc) 0 then Err ZeroDivisionError
    else Ok (((ac + bd) - (ad + bc)) / (2 * dc))
  | Detail => Err OtherError
  | NotShaded => Ok 0
  end.
