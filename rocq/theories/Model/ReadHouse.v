(* heat_load_calc/core/pre_calc_parameters.py 216-453: what the core reads from mid_data_house.json. Writing the file
   and reading it back is taken to change nothing. *)
From Coq Require Import Reals List String ZArith Bool.
From Verif Require Import Model.Py Model.Trig Model.BoundaryDict Model.ResponseFactor Model.HouseDict.
Import ListNotations.
Local Open Scope R_scope.

(* one column per quantity, [i] *)
Record core_rooms := {
  cr_id : list Z; cr_name : list string; cr_volume : list R; cr_beta : list R; cr_v_vent_ex : list R; cr_v_int_vent : list (list R);
  cr_v_ntrl : list R; cr_c_sh : list R; cr_g_sh : list R; cr_c_lh : list R; cr_g_lh : list R;
  cr_is_radiative_heating : list bool; cr_lr_h_max : list R; cr_is_radiative_cooling : list bool; cr_lr_c_max : list R;
  cr_q_min : list R; cr_q_max : list R; cr_v_min : list R; cr_v_max : list R
}.

(* 263-272 *)
Definition radiative_heating (s : space) : res (bool * R) :=
  if ro_installed (o_radiative (sp_heating s))
  then bind (key (ro_max_capacity (o_radiative (sp_heating s)))) (fun m => Ok (true, m))
  else Ok (false, 0).

(* 274-283: the capacity is looked for directly under 'cooling' (280) *)
Definition radiative_cooling (s : space) : res (bool * R) :=
  if ro_installed (o_radiative (sp_cooling s))
  then bind (key (o_max_capacity (sp_cooling s))) (fun m => Ok (true, m))
  else Ok (false, 0).

(* 222-293 *)
Definition read_spaces (ss : list space) : res core_rooms :=
  bind (mapM radiative_heating ss) (fun h =>                                                (* 261-272 *)
  bind (mapM radiative_cooling ss) (fun c =>                                                (* 274-283 *)
  let conv f := mapM (fun s => key (f (o_convective (sp_cooling s)))) ss in
  bind (conv co_q_min) (fun q_min => bind (conv co_q_max) (fun q_max =>                     (* 290-291 *)
  bind (conv co_v_min) (fun v_min => bind (conv co_v_max) (fun v_max =>                     (* 292-293 *)
  Ok {| cr_id := map sp_id ss; cr_name := map sp_name ss; cr_volume := map sp_volume ss; cr_beta := map sp_beta ss;
        cr_v_vent_ex := map sp_mechanical ss; cr_v_int_vent := map sp_next_spaces ss; cr_v_ntrl := map sp_natural ss;
        cr_c_sh := map sp_heat_capacity ss; cr_g_sh := map sp_heat_cond ss;
        cr_c_lh := map sp_moisture_capacity ss; cr_g_lh := map sp_moisture_cond ss;
        cr_is_radiative_heating := map fst h; cr_lr_h_max := map snd h;
        cr_is_radiative_cooling := map fst c; cr_lr_c_max := map snd c;
        cr_q_min := q_min; cr_q_max := q_max; cr_v_min := v_min; cr_v_max := v_max |})))))).

Record core_boundaries := {
  cb_id : list Z; cb_name : list string; cb_is_ground : list bool; cb_connected : list Z; cb_area : list R;
  cb_response : list response; cb_h_c : list R; cb_is_solar_abs : list bool; cb_k_eo : list R; cb_k_ei : list (list R);
  cb_p_is_js : list (list R); cb_flr_js_is : list (list (option R)); cb_f_mrt_hum_is_js : list (list (option R))
}.

(* {'true': True, 'false': False}[x] and {'True': True, 'False': False}[x] *)
Definition read_flag (yes no x : string) : res bool :=
  if (x =? yes)%string then Ok true else if (x =? no)%string then Ok false else Err KeyError.

(* 350-361, 439-446: one row of the matrix *)
Definition k_ei_row (n_boundaries : nat) (b : bdry) : res (list R) :=
  let row := repeat 0 n_boundaries in
  match bd_k_inside b with
  | None => Ok row
  | Some (k, coef) => py_set row k coef
  end.

(* an entry of p_is_js (427-429) *)
Definition p_entry (i : Z) (b : bdry) : R := if (bd_connected_space_id b =? i)%Z then 1 else 0.
(* p * x where x may be not finite; then the product is not finite either, even for p = 0 *)
Definition p_times (p : R) (x : option R) : option R := obind x (fun x => Some (p * x)).

(* 297-361 and 421-453 *)
Definition read_boundaries (inv : list (list R) -> res (list (list R))) (n_spaces : nat) (bs : list bdry) : res core_boundaries :=
  bind (mapM (fun b => read_flag "true" "false" (bd_is_ground b)) bs) (fun is_ground =>     (* 313 *)
  bind (mapM (fun b => bind (create_factory (bd_spec b)) (get_response_factors inv)) bs) (fun rfs => (* 322 and 625-646 *)
  bind (mapM (fun b => read_flag "True" "False" (bd_is_solar_absorbed b)) bs) (fun is_abs => (* 334-342 *)
  bind (mapM (k_ei_row (List.length bs)) bs) (fun k_ei =>
  let spaces := range 0 (Z.of_nat n_spaces) in
  Ok {| cb_id := map bd_id bs; cb_name := map bd_name bs; cb_is_ground := is_ground; cb_connected := map bd_connected_space_id bs;
        cb_area := map bd_area bs; cb_response := map fst rfs; cb_h_c := map bd_h_c bs; cb_is_solar_abs := is_abs;
        cb_k_eo := map bd_k_outside bs; cb_k_ei := k_ei;
        cb_p_is_js := map (fun i => map (p_entry i) bs) spaces;                              (* 427-429 *)
        cb_flr_js_is := map (fun b => map (fun i => p_times (p_entry i b) (bd_flr b)) spaces) bs;           (* 450 *)
        cb_f_mrt_hum_is_js := map (fun i => map (fun b => p_times (p_entry i b) (bd_f_mrt_hum b)) bs) spaces |})))). (* 453 *)
