(* heat_load_calc/weather/weather_data.py 11-65 load, 113-134 _get_filename; weather/weather.py 9-71 make_weather.
   A weather file is the list of its lines below the two headings, with the numbers of the columns that are read; the
   text of the file (np.loadtxt) and the CSV output (weather.py 68-69) are not modelled. The index of the table (the time
   stamps, weather.py 56) is the position in the lists. A missing value (nan) of a sun column is None. *)
From Coq Require Import Reals List String ZArith.
From Verif Require Import Model.Py Model.Weather Model.SolarPosition Model.Log.
Import ListNotations.
Local Open Scope R_scope.

(* weather_data.py 42: usecols=(2, 3, 4, 5, 6) *)
Record line := { column_2 : R; column_3 : R; column_4 : R; column_5 : R; column_6 : R }.

(* weather_data.py 124-133 *)
Definition get_filename (region : Z) : res string :=
  match region with
  | 1%Z => Ok "01_kitami.csv"%string
  | 2%Z => Ok "02_iwamizawa.csv"%string
  | 3%Z => Ok "03_morioka.csv"%string
  | 4%Z => Ok "04_nagano.csv"%string
  | 5%Z => Ok "05_utsunomiya.csv"%string
  | 6%Z => Ok "06_okayama.csv"%string
  | 7%Z => Ok "07_miyazaki.csv"%string
  | 8%Z => Ok "08_naha.csv"%string
  | _ => Err KeyError
  end.

Record series := { theta_o_ns : list R; i_dn_ns : list R; i_sky_ns : list R; r_n_ns : list R; x_o_ns : list R }.

(* weather_data.py 37-65 *)
Definition load (files : string -> list line) (region : Z) (interval : string) : res series :=
  bind (get_filename region) (fun name =>                                              (* 37 *)
  let data := files name in                                                            (* 42 *)
  bind (interpolate (map column_2 data) interval) (fun theta_o =>                      (* 50 *)
  bind (interpolate (map column_3 data) interval) (fun i_dn =>                         (* 53 *)
  bind (interpolate (map column_4 data) interval) (fun i_sky =>                        (* 56 *)
  bind (interpolate (map column_5 data) interval) (fun r_n =>                          (* 59 *)
  bind (interpolate (map column_6 data) interval) (fun x_o =>                          (* 63 *)
  Ok {| theta_o_ns := theta_o; i_dn_ns := i_dn; i_sky_ns := i_sky; r_n_ns := r_n; x_o_ns := map (fun x => x / 1000) x_o |})))))).

Record table := {
  temperature : list R; absolute_humidity : list R; normal_direct_solar_radiation : list R;
  horizontal_sky_solar_radiation : list R; outward_radiation : list R; sun_altitude : list (option R); sun_azimuth : list (option R) }.

(* dd[...] = values: the lengths have to agree *)
Definition set_column {A} (rows : nat) (l : list A) : res (list A) :=
  if (List.length l =? rows)%nat then Ok l else Err ValueError.

(* weather.py 35-71 *)
Definition make_weather (files : string -> list line) (region : Z) (interval : string) : res table :=
  bind (load files region interval) (fun s =>                                          (* 35 *)
  bind (get_phi_loc_and_lambda_loc region) (fun pl =>                                  (* 38 *)
  bind (calc_solar_position (fst pl) (snd pl) interval) (fun sun =>                    (* 43 *)
  bind (get_n_hour interval) (fun n_hour =>                                            (* 46-53 *)
  let rows := (365 * 24 * n_hour)%nat in                                               (* 56: 8760 *)
  bind (set_column rows (map (pd_round 3) (theta_o_ns s))) (fun c1 =>                  (* 58 *)
  bind (set_column rows (map (pd_round 6) (x_o_ns s))) (fun c2 =>                      (* 59 *)
  bind (set_column rows (i_dn_ns s)) (fun c3 =>
  bind (set_column rows (i_sky_ns s)) (fun c4 =>
  bind (set_column rows (r_n_ns s)) (fun c5 =>
  bind (set_column rows (fst sun)) (fun c6 =>
  bind (set_column rows (snd sun)) (fun c7 =>
  Ok {| temperature := c1; absolute_humidity := c2; normal_direct_solar_radiation := c3; horizontal_sky_solar_radiation := c4;
        outward_radiation := c5; sun_altitude := c6; sun_azimuth := c7 |}))))))))))).
