(* heat_load_calc/convert/convert_lv3_to_lv4.py (inner floors and walls) and the room data of convert_lv4_to_h_hlc.py *)
From Coq Require Import Reals ZArith List String Bool.
From Verif Require Import Model.Py Model.FactorNu Model.EesHouse.
Import ListNotations.
Local Open Scope R_scope.

(* get_inner_floor_layers 19-33 *)
Definition inner_floor_layers : list layer :=
  [ {| l_name := "plywood"; l_method := CONDUCTIVITY; l_thickness := 24 / 1000; l_specific_heat := 720; l_conductivity := 16 / 100; l_resistance := 0 |} ].

Definition space_eqb (a b : space_type) : bool :=
  match a, b with MAIN, MAIN | OTHER, OTHER | NON, NON | UNDERFLOOR, UNDERFLOOR | UNDEFINED, UNDEFINED => true | _, _ => false end.

Definition is_down (d : direction) : bool := match d with DBottom | DDownward => true | _ => false end.

(* sum([s.area for s in ss if s.space_type == space and ...]) *)
Definition area_where (ok : envelope -> bool) (ss : list envelope) : R := py_sum (map e_area (filter ok ss)).

(* get_downward_envelope_total_area 36-70; ss = gps + ws + ds *)
Definition downward_area (sp : space_type) (ss : list envelope) : R :=
  area_where (fun e => space_eqb (e_space_type e) sp && is_down (e_direction e)) ss.

(* get_earthfloor_total_area 73-90 *)
Definition earthfloor_area (sp : string) (ecs : list center) : R :=
  py_sum (map (fun c => ec_area (ec_ns c)) (filter (fun c => (ec_space_type (ec_ns c) =? sp)%string) ecs)).

(* get_inner_floor_total_area 93-119 *)
Definition inner_floor_total (a_a a_mr a_or down_mr down_or down_nr ef_mr ef_or ef_nr : R) : R * R * R :=
  (Rmax 0 (a_mr - down_mr - ef_mr), Rmax 0 (a_or - down_or - ef_or), Rmax 0 (a_a - a_mr - a_or - down_nr - ef_nr)).

(* get_inner_floor_over_underfloor_total_area 122-146 *)
Definition over_underfloor (if_mr if_or if_nr ef_uf : R) : R * R * R :=
  if Rlt_dec 0 (if_mr + if_or + if_nr)
  then (ef_uf * if_mr / (if_mr + if_or + if_nr), ef_uf * if_or / (if_mr + if_or + if_nr), ef_uf * if_nr / (if_mr + if_or + if_nr))
  else (0, 0, 0).

Record floors := { mr_or : R; mr_nr : R; or_mr : R; or_nr : R; nr_mr : R; nr_or : R }.

(* get_inner_floor_between_rooms 149-211 *)
Definition floors_between (a_mr a_or a_a if_mr if_or if_nr uf_mr uf_or uf_nr : R) : res floors :=
  let a_nr := a_a - a_mr - a_or in                                                    (* 173 *)
  if Rle_dec a_mr 0 then Err ValueError else                                          (* 175-176 *)
  let m := Rmax 0 (if_mr - uf_mr) in                                                  (* 178-180 *)
  let o := Rmax 0 (if_or - uf_or) in
  let n := Rmax 0 (if_nr - uf_nr) in
  Ok (if Rle_dec a_or 0 then
        if Rle_dec a_nr 0 then {| mr_or := 0; mr_nr := 0; or_mr := 0; or_nr := 0; nr_mr := 0; nr_or := 0 |}
        else {| mr_or := 0; mr_nr := m; or_mr := 0; or_nr := 0; nr_mr := n; nr_or := 0 |}
      else if Rle_dec a_nr 0 then {| mr_or := m; mr_nr := 0; or_mr := o; or_nr := 0; nr_mr := 0; nr_or := 0 |}
      else {| mr_or := m / 2; mr_nr := m / 2; or_mr := o / 2; or_nr := o / 2; nr_mr := n / 2; nr_or := n / 2 |}).

(* get_inner_wall_layers 214-242 *)
Definition inner_wall_layers : list layer :=
  [ {| l_name := "gpb"; l_method := CONDUCTIVITY; l_thickness := 125 / 10000; l_specific_heat := 830; l_conductivity := 22 / 100; l_resistance := 0 |};
    {| l_name := "air_layer"; l_method := RESISTANCE; l_thickness := 120 / 1000; l_specific_heat := 0; l_conductivity := 0; l_resistance := 9 / 100 |};
    {| l_name := "gpb"; l_method := CONDUCTIVITY; l_thickness := 125 / 10000; l_specific_heat := 830; l_conductivity := 22 / 100; l_resistance := 0 |} ].

(* get_horizontal_envelope_total_area 245-268 *)
Definition horizontal_area (sp : space_type) (ss : list envelope) : R :=
  area_where (fun e => space_eqb (e_space_type e) sp && is_horizontal (e_direction e)) ss.

(* max(0.0, 4 * r * h * a ** 0.5 - b): a negative a gives a complex number, which max cannot compare *)
Definition wall_total (r a b : R) : res R :=
  if Rlt_dec a 0 then Err TypeError else Ok (Rmax 0 (4 * r * (28 / 10) * sqrt a - b)).

(* get_inner_wall_total_area 271-294 *)
Definition inner_wall_total (a_mr a_or a_a h_mr h_or h_nr : R) : res (R * R * R) :=
  bind (wall_total (12 / 10) a_mr h_mr) (fun m => bind (wall_total (14 / 10) a_or h_or) (fun o =>
  bind (wall_total (14 / 10) (a_a - a_mr - a_or) h_nr) (fun n => Ok (m, o, n)))).

(* get_inner_wall_total_area_between_rooms 297-337: (main-other, main-non, other-non) *)
Definition walls_between (a_mr a_or a_a iw_mr iw_or iw_nr : R) : res (R * R * R) :=
  let a_nr := a_a - a_mr - a_or in
  if Rle_dec a_mr 0 then Err ValueError else
  Ok (if Rle_dec a_or 0 then
        if Rle_dec a_nr 0 then (0, 0, 0) else (0, (iw_mr + iw_nr) / 2, 0)
      else if Rle_dec a_nr 0 then ((iw_mr + iw_or) / 2, 0, 0)
      else (Rmax 0 ((iw_mr + iw_or - iw_nr) / 2), Rmax 0 ((iw_mr + iw_nr - iw_or) / 2), Rmax 0 ((iw_or + iw_nr - iw_mr) / 2))).

(* append_inner_floor 395-411, append_inner_wall 459-469 *)
Definition append_floor (name : string) (area : R) (upper lower : string) : list inner_floor :=
  if Rlt_dec 0 area then [ {| if_name := name; if_area := area; if_upper := upper; if_lower := lower; if_layers := inner_floor_layers |} ] else [].
Definition append_wall (name : string) (area : R) (s1 s2 : string) : list inner_wall :=
  if Rlt_dec 0 area then [ {| iw_name := name; iw_area := area; iw_space_1 := s1; iw_space_2 := s2; iw_layers := inner_wall_layers |} ] else [].

Definition mr_name : string := "main_occupant_room".
Definition or_name : string := "other_occupant_room".
Definition nr_name : string := "non_occupant_room".
Definition uf_name : string := "underfloor".

(* make_inner_floors 340-423; the entries of common are the three areas *)
Definition make_inner_floors (a_mr a_or a_a : R) (ss : list envelope) (ecs : list center) : res (list inner_floor) :=
  let '(if_mr, if_or, if_nr) :=
    inner_floor_total a_a a_mr a_or (downward_area MAIN ss) (downward_area OTHER ss) (downward_area NON ss)
      (earthfloor_area mr_name ecs) (earthfloor_area or_name ecs) (earthfloor_area nr_name ecs) in
  let '(uf_mr, uf_or, uf_nr) := over_underfloor if_mr if_or if_nr (earthfloor_area uf_name ecs) in
  bind (floors_between a_mr a_or a_a if_mr if_or if_nr uf_mr uf_or uf_nr) (fun f => Ok (
    append_floor "inner_floor_main_to_underfloor" uf_mr mr_name uf_name ++
    append_floor "inner_floor_other_to_underfloor" uf_or or_name uf_name ++
    append_floor "inner_floor_non_to_underfloor" uf_nr nr_name uf_name ++
    append_floor "inner_floor_main_to_other" (mr_or f) mr_name or_name ++
    append_floor "inner_floor_main_to_non" (mr_nr f) mr_name nr_name ++
    append_floor "inner_floor_other_to_main" (or_mr f) or_name mr_name ++
    append_floor "inner_floor_other_to_non" (or_nr f) or_name nr_name ++
    append_floor "inner_floor_non_to_main" (nr_mr f) nr_name mr_name ++
    append_floor "inner_floor_non_to_other" (nr_or f) nr_name or_name)).

(* make_inner_walls 426-475 *)
Definition make_inner_walls (a_mr a_or a_a : R) (ss : list envelope) : res (list inner_wall) :=
  bind (inner_wall_total a_mr a_or a_a (horizontal_area MAIN ss) (horizontal_area OTHER ss) (horizontal_area NON ss)) (fun '(m, o, n) =>
  bind (walls_between a_mr a_or a_a m o n) (fun '(w_mo, w_mn, w_on) => Ok (
    append_wall "inner_wall_main_to_other" w_mo mr_name or_name ++
    append_wall "inner_wall_main_to_non" w_mn mr_name nr_name ++
    append_wall "inner_wall_other_to_non" w_on or_name nr_name))).

(* convert_lv4_to_h_hlc.py get_a_uf 28-36: the entries are dictionaries there; here the parts themselves *)
Definition get_a_uf (ecs : list center) : R := earthfloor_area uf_name ecs.

(* get_room_volume 153-174 *)
Definition get_room_volume (a_mr a_or a_nr a_uf : R) : R * R * R * R :=
  (a_mr * (24 / 10), a_or * (24 / 10), a_nr * (24 / 10), a_uf * (4 / 10)).

(* get_v_vent_ex 177-207 *)
Definition get_v_vent_ex (a_a a_mr a_or n : R) : res (R * R * R * R) :=
  let v := a_a * (24 / 10) * n * (11 / 10) in
  bind (fdiv (v * a_mr) (a_mr + a_or)) (fun v_mr => bind (fdiv (v * a_or) (a_mr + a_or)) (fun v_or => Ok (v_mr, v_or, 0, 0))).

(* the dictionary of a room, make_initial_rooms 39-150; next_vent: (upstream_room_name, volume); boundaries always [] *)
Record lv4_room := { lr_name : string; lr_type : string; lr_volume : R; lr_vent : R; lr_next_vent : list (string * R); lr_c_value : R; lr_nv : R }.

Definition lv4_room_of (name : string) (volume vent : R) (next_vent : list (string * R)) (nv : R) : lv4_room :=
  {| lr_name := name; lr_type := name; lr_volume := volume; lr_vent := vent; lr_next_vent := next_vent; lr_c_value := 5; lr_nv := nv |}.

(* 39-150; get_v_vent 210-224 returns its arguments *)
Definition make_initial_rooms (a_a a_mr a_or a_nr a_uf n nv_mr nv_or : R)
    : res (lv4_room * option lv4_room * option lv4_room * option lv4_room) :=
  let '(v_mr, v_or, v_nr, v_uf) := get_room_volume a_mr a_or a_nr a_uf in
  bind (get_v_vent_ex a_a a_mr a_or n) (fun '(x_mr, x_or, x_nr, x_uf) =>
  if Rle_dec a_mr 0 then Err ValueError else                                                                    (* 70-71 *)
  Ok (lv4_room_of mr_name v_mr x_mr [] nv_mr,
      if Rlt_dec 0 a_or then Some (lv4_room_of or_name v_or x_or [] nv_or) else None,
      if Rlt_dec 0 a_nr
      then Some (lv4_room_of nr_name v_nr x_nr
             ((if Rlt_dec 0 a_mr then [("main"%string, x_mr)] else []) ++ (if Rlt_dec 0 a_or then [("other"%string, x_or)] else [])) 0)
      else None,
      if Rlt_dec 0 a_uf then Some (lv4_room_of uf_name v_uf x_uf [] 0) else None)).
