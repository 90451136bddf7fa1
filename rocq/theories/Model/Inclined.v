(* heat_load_calc/initializer/inclined_surface_solar_radiation.py and external_boundaries_direction.py; the array
   functions work element by element and are modelled for one element *)
From Coq Require Import Reals List String.
From Verif Require Import Model.Py Model.Trig.
Import ListNotations.
Local Open Scope R_scope.

(* external_boundaries_direction.py 8-35: azimuth and tilt *)
Definition get_w_alpha_j_w_beta_j (direction : string) : res (R * R) :=
  bind (if (direction =? "s")%string then Ok (0, 90)
        else if (direction =? "sw")%string then Ok (45, 90)
        else if (direction =? "w")%string then Ok (90, 90)
        else if (direction =? "nw")%string then Ok (135, 90)
        else if (direction =? "n")%string then Ok (180, 90)
        else if (direction =? "ne")%string then Ok (-135, 90)
        else if (direction =? "e")%string then Ok (-90, 90)
        else if (direction =? "se")%string then Ok (-45, 90)
        else if (direction =? "top")%string then Ok (0, 0)
        else if (direction =? "bottom")%string then Ok (0, 180)
        else Err KeyError) (fun ab => Ok (radians (fst ab), radians (snd ab))).

(* 221 *)
Definition get_f_sky_j (w_beta : R) : R := (1 + cos w_beta) / 2.

(* 235 *)
Definition get_f_gnd_j (f_sky : R) : R := 1 - f_sky.

(* 247 *)
Definition get_rho_gnd : R := 1 / 10.

(* 83-122 *)
Definition get_theta_aoi_j_n (h_sun : R) (a_sun : option R) (w_alpha w_beta : R) : option R :=
  obind (if Req_EM_T (cos h_sun) 0 then Some (sin h_sun * cos w_beta)
         else obind a_sun (fun a_sun =>
           Some (sin h_sun * cos w_beta + cos h_sun * sin a_sun * sin w_beta * sin w_alpha
                 + cos h_sun * cos a_sun * sin w_beta * cos w_alpha))) (fun cos_theta =>
  arccos (Rmax cos_theta 0)).

(* 137 *)
Definition get_i_is_d_j_n (i_dn : R) (theta_aoi : option R) : option R := obind theta_aoi (fun t => Some (i_dn * cos t)).

(* 154 *)
Definition get_i_is_sky_j_n (i_sky f_sky : R) : R := f_sky * i_sky.

(* 199-204 *)
Definition get_i_hrz_n (i_dn i_sky h_sun : R) : R :=
  let sin_h_sun := if Rlt_dec 0 h_sun then sin h_sun else 0 in
  sin_h_sun * i_dn + i_sky.

(* 176-180 *)
Definition get_i_is_ref_j_n (i_dn i_sky h_sun f_gnd rho_gnd : R) : R := f_gnd * rho_gnd * get_i_hrz_n i_dn i_sky h_sun.

(* 14-60: direct, sky and reflected irradiance *)
Definition get_i_is_j_n (i_dn i_sky h_sun : R) (a_sun : option R) (w_alpha w_beta : R) : option R * R * R :=
  let theta_aoi := get_theta_aoi_j_n h_sun a_sun w_alpha w_beta in
  let f_sky := get_f_sky_j w_beta in
  let f_gnd := get_f_gnd_j f_sky in
  let rho_gnd := get_rho_gnd in
  (get_i_is_d_j_n i_dn theta_aoi, get_i_is_sky_j_n i_sky f_sky, get_i_is_ref_j_n i_dn i_sky h_sun f_gnd rho_gnd).

(* 63-80 *)
Definition get_r_n_is_j_n (r_n w_beta : R) : R := get_f_sky_j w_beta * r_n.
