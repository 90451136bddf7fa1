(* heat_load_calc/weather/solar_position.py. The array functions work element by element: they are modelled for one
   element and applied to the lists in calc_solar_position. *)
From Coq Require Import Reals List String ZArith.
From Verif Require Import Model.Py Model.Trig Model.Weather.
Import ListNotations.
Local Open Scope R_scope.

(* 80: 135 degrees *)
Definition get_lambda_loc_mer : R := radians 135.

(* 108-111: day of the year of every step *)
Definition get_d_ns (interval : string) : res (list R) :=
  bind (get_n_hour interval) (fun n_hour =>
  Ok (List.concat (map (fun d => repeat (INR d + 1) (24 * n_hour)) (seq 0 365)))).

(* 123-125: years since 1968 *)
Definition get_n : Z := (1989 - 1968)%Z.

(* 139: int() truncates *)
Definition get_d_0 (n : Z) : R := 371 / 100 + 2596 / 10000 * IZR n - IZR (Z.quot (n + 3) 4).

(* 154-158 *)
Definition get_m_n (d_n d_0 : R) : R := 2 * PI * (d_n - d_0) / (3652596 / 10000).

(* 174 *)
Definition get_epsilon_n (m_n : R) (n : Z) : R := radians (123901 / 10000 + 172 / 10000 * (IZR n + m_n / (2 * PI))).

(* 188 *)
Definition get_v_n (m_n : R) : R := m_n + radians (1914 / 1000 * sin m_n + 2 / 100 * sin (2 * m_n)).

(* 201-202; the denominator is never zero *)
Definition get_e_t_n (m_n epsilon_n v_n : R) : R :=
  (m_n - v_n) - atan (43 / 1000 * sin (2 * (v_n + epsilon_n)) / (1 - 43 / 1000 * cos (2 * (v_n + epsilon_n)))).

(* 223-226 *)
Definition get_delta_n (epsilon_n v_n : R) : option R :=
  let delta_0 := radians (- (234393 / 10000)) in
  arcsin (cos (v_n + epsilon_n) * sin delta_0).

(* 243-254: standard time of every step, h *)
Definition get_t_m_ns (interval : string) : res (list R) :=
  bind (get_n_hour interval) (fun n_hour =>
  bind (if (interval =? "1h")%string then Ok 1
        else if (interval =? "30m")%string then Ok (1 / 2)
        else if (interval =? "15m")%string then Ok (1 / 4)
        else Err KeyError) (fun int_interval =>
  Ok (List.concat (map (fun _ => map (fun k => INR k * int_interval) (seq 0 (24 * n_hour))) (seq 0 365))))).

(* 271 *)
Definition get_omega_n (t_m_n lambda_loc lambda_loc_mer e_t_n : R) : R :=
  radians ((t_m_n - 12) * 15) + (lambda_loc - lambda_loc_mer) + e_t_n.

(* 290 *)
Definition get_h_sun_n (phi_loc omega_n delta_n : R) : option R :=
  arcsin (sin phi_loc * sin delta_n + cos phi_loc * cos delta_n * cos omega_n).

(* 307-336: nan for the sun in the zenith *)
Definition get_a_sun_n (omega_n phi_loc delta_n h_sun_n : R) : option R :=
  if Req_EM_T h_sun_n (PI / 2) then None
  else
    obind (div (cos delta_n * sin omega_n) (cos h_sun_n)) (fun sin_a =>
    obind (div (sin h_sun_n * sin phi_loc - sin delta_n) (cos h_sun_n * cos phi_loc)) (fun cos_a =>
    Some (arctan2 sin_a cos_a))).

(* 34-75 for one step: altitude and azimuth *)
Definition sun_position (phi_loc lambda_loc d_n t_m_n : R) : option R * option R :=
  let n := get_n in
  let m_n := get_m_n d_n (get_d_0 n) in
  let epsilon_n := get_epsilon_n m_n n in
  let v_n := get_v_n m_n in
  let e_t_n := get_e_t_n m_n epsilon_n v_n in
  let delta_n := get_delta_n epsilon_n v_n in
  let omega_n := get_omega_n t_m_n lambda_loc get_lambda_loc_mer e_t_n in
  let h_sun_n := obind delta_n (fun delta => get_h_sun_n phi_loc omega_n delta) in
  let a_sun_n := obind delta_n (fun delta => obind h_sun_n (fun h => get_a_sun_n omega_n phi_loc delta h)) in
  (h_sun_n, a_sun_n).

(* 10-77 *)
Definition calc_solar_position (phi_loc lambda_loc : R) (interval : string) : res (list (option R) * list (option R)) :=
  bind (get_d_ns interval) (fun d_ns =>
  bind (get_t_m_ns interval) (fun t_m_ns =>
  let p := map (fun dt => sun_position phi_loc lambda_loc (fst dt) (snd dt)) (combine d_ns t_m_ns) in
  Ok (map fst p, map snd p))).

(* weather/region_location.py 7-33: latitude and longitude of the eight climate regions *)
Definition get_phi_loc_and_lambda_loc (region : Z) : res (R * R) :=
  bind (match region with
        | 1%Z => Ok (4382 / 100, 14391 / 100)
        | 2%Z => Ok (4321 / 100, 14179 / 100)
        | 3%Z => Ok (3970 / 100, 14117 / 100)
        | 4%Z => Ok (3666 / 100, 13820 / 100)
        | 5%Z => Ok (3655 / 100, 13987 / 100)
        | 6%Z => Ok (3466 / 100, 13392 / 100)
        | 7%Z => Ok (3194 / 100, 13142 / 100)
        | 8%Z => Ok (2621 / 100, 127685 / 1000)
        | _ => Err KeyError
        end) (fun ll => Ok (radians (fst ll), radians (snd ll))).
