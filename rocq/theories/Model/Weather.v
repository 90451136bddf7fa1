(* heat_load_calc/weather/weather_data.py 68-110 _interpolate, weather/calc_interval.py 6-25 get_n_hour *)
From Coq Require Import Reals List String ZArith.
From Verif Require Import Model.Py.
Import ListNotations.
Local Open Scope R_scope.

(* np.roll(l, 1) *)
Definition roll1 (l : list R) : list R :=
  match l with [] => [] | _ => last l 0 :: removelast l end.

(* 86-110 *)
Definition interpolate (data : list R) (interval : string) : res (list R) :=
  if (interval =? "1h")%string then Ok (roll1 data)                                   (* 86-89 *)
  else
    bind (if (interval =? "30m")%string then Ok [1; 1 / 2]                            (* 94-97 *)
          else if (interval =? "15m")%string then Ok [1; 3 / 4; 1 / 2; 1 / 4]
          else Err KeyError) (fun alpha =>
    let data1 := roll1 data in                                                        (* 101 *)
    let data2 := data in                                                              (* 102 *)
    let data_2d := map (fun p => map (fun a => a * fst p + (1 - a) * snd p) alpha) (combine data1 data2) in (* 105 *)
    Ok (List.concat data_2d)).                                                             (* 108 *)

(* calc_interval.py 6-25 *)
Definition get_n_hour (interval : string) : res nat :=
  if (interval =? "1h")%string then Ok 1%nat
  else if (interval =? "30m")%string then Ok 2%nat
  else if (interval =? "15m")%string then Ok 4%nat
  else Err KeyError.
