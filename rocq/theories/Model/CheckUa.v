(* heat_load_calc/convert/check_ua_a_eta_a.py *)
From Coq Require Import Reals ZArith List.
From Verif Require Import Model.Py Model.FactorNu Model.EesHouse.
Import ListNotations.
Local Open Scope R_scope.

(* get_envelope_total_area 44-57 *)
Definition envelope_total_area (gps : list general_part) (ws : list window) (ds : list door) (ecs : list center) : R :=
  py_sum (map gp_area gps ++ map w_area ws ++ map d_area ds ++ map (fun c => ec_area (ec_ns c)) ecs).

(* get_q 60-73: heat bridges are not counted *)
Definition total_q (region : Z) (gps : list general_part) (ws : list window) (ds : list door) (eps : list perimeter) : res R :=
  bind (sumM (gp_q region) gps) (fun g => bind (sumM (w_q region) ws) (fun w =>
  bind (sumM (d_q region) ds) (fun d => bind (sumM (ep_q region) eps) (fun e => Ok (g + w + d + e))))).

(* get_m 76-89 *)
Definition total_m (region : Z) (s : season) (gps : list general_part) (ws : list window) (ds : list door) : res R :=
  bind (sumM (gp_m region s) gps) (fun g => bind (sumM (w_m region s) ws) (fun w => bind (sumM (d_m region s) ds) (fun d => Ok (g + w + d)))).

(* check_u_a_and_eta_a 11-41, after reading the parts (13-17) *)
Definition check_u_a_and_eta_a (region : Z) (gps : list general_part) (ws : list window) (ds : list door) (eps : list perimeter)
    (ecs : list center) : res (R * option R * R) :=
  let a := envelope_total_area gps ws ds ecs in                                              (* 20 *)
  bind (total_q region gps ws ds eps) (fun q =>                                              (* 23 *)
  bind (fdiv q a) (fun u_a =>                                                                (* 26 *)
  bind (if (region =? 8)%Z then Ok None                                                      (* 28-35 *)
        else bind (total_m region Heating gps ws ds) (fun m => bind (fdiv m a) (fun x => Ok (Some (x * 100))))) (fun eta_a_h =>
  bind (total_m region Cooling gps ws ds) (fun m =>                                          (* 37 *)
  bind (fdiv m a) (fun x => Ok (u_a, eta_a_h, x * 100)))))).                                 (* 39-41 *)
