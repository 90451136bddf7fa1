(* The conversions between descriptions of a house, from dictionary to dictionary:
   convert_indices_to_lv2_info.py, convert_lv2_to_lv3.py, convert_lv3_to_lv4.py, convert_lv4_to_h_hlc.py in heat_load_calc/convert *)
From Coq Require Import Reals ZArith List String Bool.
From Verif Require Import Model.Py Model.JsonValue Model.EesHouse Model.EesLayers Model.EesDict Model.EesInit Model.ModelHouse Model.Lv3 Model.Lv4.
Import ListNotations.
Local Open Scope string_scope.

(* [make(d) for d in envelope[key]] *)
Definition parts_at {A} (make : value -> res A) (key : string) (envelope : value) : res (list A) := bind (list_item key envelope) (mapM make).

(* 'key': [s.get_as_dict() for s in l] *)
Definition entry_of {A} (key : string) (dict : A -> value) (l : list A) : string * value := (key, VList (map dict l)).

(* convert_indices_to_lv2_info.py convert_spec 16-79; the two house types are the keys of the table 37-40 *)
Definition indices_convert_spec (d : value) : res value :=
  bind (item "common" d) (fun common =>                                                             (* 18 *)
  bind (int_item "region" common) (fun region =>
  bind (str_item "house_type" common) (fun house_type =>
  bind (num_item "total_floor_area" common) (fun a_f_total =>
  bind (item "envelope" d) (fun envelope =>                                                         (* 24 *)
  bind (num_item "total_area" envelope) (fun a_env_total =>
  bind (item "indices" envelope) (fun indices =>
  bind (num_item "u_a" indices) (fun u_a => bind (num_item "eta_a_h" indices) (fun eta_a_h => bind (num_item "eta_a_c" indices) (fun eta_a_c =>
  bind (if house_type =? "detached" then Ok Detached else if house_type =? "attached" then Ok Attached else Err KeyError) (fun t =>
  bind (indices_to_lv2 t region a_f_total a_env_total u_a eta_a_h eta_a_c) (fun '(gps, ws, ds, eps, ecs) =>
  Ok (VDict [("input_method", VStr "detail_without_room_usage");                                    (* 71-79 *)
             entry_of "general_parts" general_part_dict gps; entry_of "windows" window_dict ws; entry_of "doors" door_dict ds;
             entry_of "earthfloor_perimeters" perimeter_dict eps; entry_of "earthfloor_centers" center_dict ecs;
             ("heat_bridges", VList [])]))))))))))))).

(* the three areas, as read by every conversion *)
Definition floor_areas (common : value) : res (R * R * R) :=
  bind (num_item "main_occupant_room_floor_area" common) (fun a_mr =>
  bind (num_item "other_occupant_room_floor_area" common) (fun a_or =>
  bind (num_item "total_floor_area" common) (fun a_a => Ok (a_mr, a_or, a_a)))).

(* convert_lv2_to_lv3.py convert_spec 197-241. There every list is read just before it is split; here all are read first, so
   that an input with several faults may be refused with another exception. *)
Definition lv3_convert_spec (common envelope : value) : res value :=
  bind (floor_areas common) (fun '(a_mr, a_or, a_a) =>
  bind (parts_at make_general_part "general_parts" envelope) (fun gps => bind (parts_at make_window "windows" envelope) (fun ws =>
  bind (parts_at make_door "doors" envelope) (fun ds => bind (parts_at make_heatbridge "heat_bridges" envelope) (fun hbs =>
  bind (parts_at make_perimeter "earthfloor_perimeters" envelope) (fun eps => bind (parts_at make_center "earthfloor_centers" envelope) (fun ecs =>
  bind (lv2_to_lv3 a_mr a_or a_a {| ps_gps := gps; ps_ws := ws; ps_ds := ds; ps_hbs := hbs; ps_eps := eps; ps_ecs := ecs |}) (fun p =>
  Ok (VDict [("input_method", VStr "detail_with_room_usage");                                       (* 231-239 *)
             entry_of "general_parts" general_part_dict (ps_gps p); entry_of "windows" window_dict (ps_ws p); entry_of "doors" door_dict (ps_ds p);
             entry_of "heat_bridges" heatbridge_dict (ps_hbs p); entry_of "earthfloor_perimeters" perimeter_dict (ps_eps p);
             entry_of "earthfloor_centers" center_dict (ps_ecs p)]))))))))).

(* gps + ws + ds, convert_lv3_to_lv4.py 36-70, 245-268 *)
Definition outer_envelopes (gps : list general_part) (ws : list window) (ds : list door) : list envelope :=
  (map (fun g => gp_env (gp_ns g)) gps ++ map (fun w => w_env (w_ns w)) ws ++ map (fun d => d_env (d_ns d)) ds)%list.

(* convert_lv3_to_lv4.py convert_spec 478-504 *)
Definition lv4_convert_spec (common envelope : value) : res value :=
  bind (parts_at make_general_part "general_parts" envelope) (fun gps => bind (parts_at make_window "windows" envelope) (fun ws =>
  bind (parts_at make_door "doors" envelope) (fun ds => bind (parts_at make_perimeter "earthfloor_perimeters" envelope) (fun eps =>
  bind (parts_at make_center "earthfloor_centers" envelope) (fun ecs => bind (parts_at make_heatbridge "heat_bridges" envelope) (fun hbs =>
  bind (floor_areas common) (fun '(a_mr, a_or, a_a) =>                                              (* 358-360, 436-438 *)
  bind (make_inner_floors a_mr a_or a_a (outer_envelopes gps ws ds) ecs) (fun ifs =>                       (* 489 *)
  bind (make_inner_walls a_mr a_or a_a (outer_envelopes gps ws ds)) (fun iws =>                            (* 492 *)
  Ok (VDict [entry_of "general_parts" general_part_dict gps; entry_of "windows" window_dict ws; entry_of "doors" door_dict ds;
             entry_of "earthfloor_perimeters" perimeter_dict eps; entry_of "earthfloor_centers" center_dict ecs;
             entry_of "heat_bridges" heatbridge_dict hbs; entry_of "inner_floors" inner_floor_dict ifs;
             entry_of "inner_walls" inner_wall_dict iws])))))))))).                                 (* 494-504 *)

(* convert_lv4_to_h_hlc.py make_rooms 684-734. The natural ventilation entries (701-702) are copied into the rooms and may be
   of any type; the rooms are dropped, so 0 stands for them. The boundaries are only printed (719). Line 722 reads the name
   rooms, which is bound neither in the function nor in the module; the lines below it are never reached. *)
Definition make_rooms (ventilation natural_vent : value) (region : Z) (a_a a_mr a_or a_nr : R)
    (gps : list general_part) (ws : list window) (ds : list door) (ecs : list center) : res value :=
  bind (num_item "air_change_rate" ventilation) (fun n =>
  bind (item "main_occupant_room_natural_vent_time" natural_vent) (fun _ =>
  bind (item "other_occupant_room_natural_vent_time" natural_vent) (fun _ =>
  bind (make_initial_rooms a_a a_mr a_or a_nr (get_a_uf ecs) n 0 0) (fun _ =>
  bind (mapM (general_part_init 0 region) gps) (fun _ =>                                            (* 710-711 *)
  bind (mapM (window_init region) ws) (fun _ =>                                                     (* 713-714 *)
  bind (mapM (door_init region) ds) (fun _ => Err NameError))))))).                                 (* 716-717, 722 *)

(* convert_lv4_to_initializer 625-681; the equipment is only handed on *)
Definition convert_lv4_to_initializer (common envelope d natural_vent : value) : res value :=
  bind (int_item "region" common) (fun region =>
  bind (num_item "total_floor_area" common) (fun a_a => bind (num_item "main_occupant_room_floor_area" common) (fun a_mr =>
  bind (num_item "other_occupant_room_floor_area" common) (fun a_or =>
  bind (parts_at make_general_part "general_parts" envelope) (fun gps => bind (parts_at make_window "windows" envelope) (fun ws =>
  bind (parts_at make_door "doors" envelope) (fun ds => bind (parts_at make_perimeter "earthfloor_perimeters" envelope) (fun _ =>
  bind (parts_at make_center "earthfloor_centers" envelope) (fun ecs => bind (parts_at make_heatbridge "heat_bridges" envelope) (fun _ =>
  bind (parts_at make_inner_floor "inner_floors" envelope) (fun _ => bind (parts_at make_inner_wall "inner_walls" envelope) (fun _ =>
  bind (item "ventilation" d) (fun ventilation =>
  make_rooms ventilation natural_vent region a_a a_mr a_or (a_a - a_mr - a_or) gps ws ds ecs))))))))))))).
