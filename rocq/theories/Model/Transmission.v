(* heat_load_calc/initializer/oblique_incidence_charac.py and transmission_solar_radiation.py *)
From Coq Require Import Reals List String Bool.
From Verif Require Import Model.Py Model.Trig Model.BoundaryDict Model.Inclined Model.SolarShading.
Import ListNotations.
Local Open Scope R_scope.

(* oblique_incidence_charac.py 55-61: single glazing, transmittance relative to normal incidence *)
Definition tau_single (c : R) : R :=
  0 * c ^ 0 + 2552 / 1000 * c ^ 1 + 1364 / 1000 * c ^ 2 - 11388 / 1000 * c ^ 3 + 13617 / 1000 * c ^ 4 - 5146 / 1000 * c ^ 5.

(* 65-70 *)
Definition rho_single (c : R) : R :=
  1 * c ^ 0 - 5189 / 1000 * c ^ 1 + 12392 / 1000 * c ^ 2 - 16593 / 1000 * c ^ 3 + 11851 / 1000 * c ^ 4 - 3461 / 1000 * c ^ 5.

(* 74-77. For c = 0 (no direct radiation) this is 0 / 0 in exact arithmetic, an unspecified real number here; in the
   program the cosine of arccos(0.0) is 6e-17 and the quotient is finite. In both cases it is multiplied by the direct
   irradiance, which is 0. *)
Definition tau_double (c : R) : R := tau_single c ^ 2 / (1 - rho_single c ^ 2).

(* 9-28 *)
Definition get_tau_d_j_n (theta_aoi : option R) (glazing_type : string) : res (option R) :=
  if (glazing_type =? "single")%string then Ok (obind theta_aoi (fun t => Some (tau_single (cos t))))
  else if (glazing_type =? "multiple")%string then Ok (obind theta_aoi (fun t => Some (tau_double (cos t))))
  else Err ValueError.

(* 31-51 *)
Definition get_c_d_j (glazing_type : string) : res R :=
  if (glazing_type =? "single")%string then Ok (900 / 1000)
  else if (glazing_type =? "multiple")%string then Ok (832 / 1000)
  else Err ValueError.

(* transmission_solar_radiation.py *)
Inductive transmission :=
| SunStrike (direction : string) (area : R) (s : shading) (glazing_type : string) (eta_value : R)
| NotTransmitting.

(* 19-40 *)
Definition create_transmission (b : bdict) (s : shading) : res transmission :=
  bind (key (boundary_type b)) (fun t =>
  if (t =? "external_transparent_part")%string then
    bind (key (is_sun_striked_outside b)) (fun sun =>
    if sun then
      bind (key (direction b)) (fun d => bind (key (area b)) (fun a =>
      bind (key (incident_angle_characteristics b)) (fun g => bind (key (eta_value b)) (fun e =>
      Ok (SunStrike d a s g e)))))
    else Ok NotTransmitting)
  else Ok NotTransmitting).

(* 73-129 for one step *)
Definition get_qgt_n (d : string) (area : R) (s : shading) (g : string) (eta : R) (w : wstep) : res (option R) :=
  bind (get_w_alpha_j_w_beta_j d) (fun ab =>                                                 (* 77 *)
  let w_alpha := fst ab in let w_beta := snd ab in
  let theta_aoi := get_theta_aoi_j_n (h_sun w) (a_sun w) w_alpha w_beta in                   (* 80-81 *)
  let '(i_d, i_sk, i_ref) := get_i_is_j_n (i_dn w) (i_sky w) (h_sun w) (a_sun w) w_alpha w_beta in (* 86-93 *)
  bind (get_f_ss_d_j_n s (h_sun w) (a_sun w)) (fun f_ss_d =>                                 (* 98 *)
  bind (get_f_ss_s_j s) (fun f_ss_s =>                                                       (* 101 *)
  let f_ss_r := 0 in                                                                         (* 104 *)
  bind (get_tau_d_j_n theta_aoi g) (fun tau_d =>                                             (* 109-110 *)
  bind (get_c_d_j g) (fun c_d =>                                                             (* 113 *)
  let q_gt_d := obind f_ss_d (fun f => obind tau_d (fun tau => obind i_d (fun i =>
                  Some (eta * (1 - f) * tau * i)))) in                                       (* 118 *)
  let q_gt_sky := eta * (1 - f_ss_s) * c_d * i_sk in                                         (* 121 *)
  let q_gt_ref := eta * (1 - f_ss_r) * c_d * i_ref in                                        (* 124 *)
  Ok (obind q_gt_d (fun q => Some ((q + q_gt_sky + q_gt_ref) * area)))))))).                 (* 127 *)

(* 73-129 and 137-139 *)
Definition get_qgt (t : transmission) (ws : list wstep) : res (list (option R)) :=
  match t with
  | SunStrike d area s g eta => mapM (get_qgt_n d area s g eta) ws
  | NotTransmitting => Ok (repeat (Some 0) (24 * 365 * 4))
  end.
