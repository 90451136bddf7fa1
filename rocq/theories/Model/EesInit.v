(* heat_load_calc/convert/ees_house.py and factor_f.py: the dictionaries written for the initializer, and how the initializer
   sees them *)
From Coq Require Import Reals ZArith List String Bool.
From Verif Require Import Model.Py Model.JsonValue Model.FactorH Model.FactorNu Model.FactorF Model.EesHouse Model.EesLayers Model.EesDict.
From Verif Require Model.BoundaryDict.
Import ListNotations.
Local Open Scope string_scope.

(* factor_f.py make_initializer_dict 182-186, 206-209, 257-272 *)
Definition opaque_shade_init (s : opaque_shade) : value :=
  match s with
  | OpNotDefined | OpNotInput => VDict [("existence", VBool false)]
  | OpInput k => VDict (("existence", VBool true) :: ("input_method", VStr "detailed") :: kernel_entries k)
  end.

(* factor_f.py make_initializer_dict 333-337, 366-371, 388-392, 477-485, 538-553 *)
Definition window_shade_init (s : window_shade) : value :=
  match s with
  | TrNotDefined | TrNotExist => VDict [("existence", VBool false)]
  | TrNotInput => VDict [("existence", VBool true); ("input_method", VStr "default")]
  | TrSimple a b c => VDict [("existence", VBool true); ("input_method", VStr "simple"); ("depth", VNum a); ("d_h", VNum b); ("d_e", VNum c)]
  | TrDetail k => VDict (("existence", VBool true) :: ("input_method", VStr "detailed") :: kernel_entries k)
  end.

(* Layer.make_initializer_dict 396-400 *)
Definition layer_value (l : init_layer) : value :=
  VDict [("name", VStr (il_name l)); ("thermal_resistance", VNum (il_r l)); ("thermal_capacity", VNum (il_c l))].

(* d.update(direction=...) if the sun reaches the other side *)
Definition direction_entry (e : envelope) : list (string * value) :=
  if get_is_sun_striked_outside (e_next_space e) then [("direction", VStr (direction_value (e_direction e)))] else [].

(* GeneralPart.make_initializer_dict 1413-1437: one part *)
Definition general_part_entry (e : envelope) (t : gp_type) (s : opaque_shade) (id : Z) (region : Z) (p : init_part) : res value :=
  bind (env_h e region) (fun h =>
  Ok (VDict ([("name", VStr (ip_name p)); ("connected_room_id", VInt id); ("boundary_type", VStr "external_general_part"); ("area", VNum (ip_area p));
              ("is_sun_striked_outside", VBool (get_is_sun_striked_outside (e_next_space e))); ("temp_dif_coef", VNum h);
              ("is_solar_absorbed_inside", VBool (is_floor_type t));
              ("inside_heat_transfer_resistance", VNum (ip_r_in p)); ("outside_heat_transfer_resistance", VNum (ip_r_ex p));
              ("outside_emissivity", VNum (9 / 10)); ("outside_solar_absorption", VNum (8 / 10));
              ("layers", VList (map layer_value (ip_layers p))); ("solar_shading_part", opaque_shade_init s)] ++ direction_entry e))).

(* GeneralPart.make_initializer_dict 1396-1440; is_floor (1409) is computed but not written *)
Definition general_part_init (u_add : R) (region : Z) (g : general_part) : res (list value) :=
  let e := gp_env (gp_ns g) in
  bind (spec_init (e_name e) (e_area e) u_add (gp_spec_of g)) (fun ps =>
  bind (get_connected_id (e_space_type e)) (fun id =>
  mapM (general_part_entry e (gp_kind (gp_ns g)) (gp_shade (gp_ns g)) id region) ps)).

(* Window.make_initializer_dict 1716-1742 *)
Definition window_init (region : Z) (w : window) : res value :=
  let e := w_env (w_ns w) in
  bind (get_connected_id (e_space_type e)) (fun id => bind (env_h e region) (fun h =>
  Ok (VDict ([("name", VStr (e_name e)); ("connected_id", VInt id); ("boundary_type", VStr "external_transparent_part"); ("area", VNum (e_area e));
              ("is_sun_striked_outside", VBool (get_is_sun_striked_outside (e_next_space e))); ("temp_dif_coef", VNum h);
              ("is_solar_absorbed_inside", VBool false);
              ("inside_heat_transfer_resistance", VNum (13 / 100)); ("outside_heat_transfer_resistance", VNum (4 / 100));
              ("outside_emissivity", VNum (9 / 10)); ("eta_d_h_value", VNum (ws_eta_d_h (w_spec w))); ("eta_d_c_value", VNum (ws_eta_d_c (w_spec w)));
              ("u_value", VNum (ws_u (w_spec w))); ("incident_angle_characteristics", VStr (glass_value (ws_glass (w_spec w))));
              ("solar_shading_part", window_shade_init (w_shade (w_ns w)))] ++ direction_entry e)))).

(* Door.make_initializer_dict 1895-1920 *)
Definition door_init (region : Z) (d : door) : res value :=
  let e := d_env (d_ns d) in
  bind (get_connected_id (e_space_type e)) (fun id => bind (env_h e region) (fun h =>
  Ok (VDict ([("name", VStr (e_name e)); ("connected_room_id", VInt id); ("boundary_type", VStr "external_opaque_part"); ("area", VNum (e_area e));
              ("is_sun_striked_outside", VBool (get_is_sun_striked_outside (e_next_space e))); ("temp_dif_coef", VNum h);
              ("is_solar_absorbed_inside", VBool false); ("direction", VStr (direction_value (e_direction e)));
              ("inside_heat_transfer_resistance", VNum (13 / 100)); ("outside_heat_transfer_resistance", VNum (4 / 100));
              ("outside_emissivity", VNum (9 / 10)); ("outside_solar_absorption", VNum (8 / 10));
              ("u_value", VNum (d_u d)); ("solar_shading_part", opaque_shade_init (d_shade (d_ns d)))] ++ direction_entry e)))).

(* the entries of a dictionary the initializer looks for (boundary_simple.py 74-197, solar_shading.py 18-77, response_factor.py):
   None if there is no such entry *)
Definition opt {A} (r : res A) : option A := match r with Ok a => Some a | Err _ => None end.
Definition int_item (k : string) (v : value) : res Z := bind (item k v) (fun x => match x with VInt z => Ok z | _ => Err TypeError end).
Definition see_layer (v : value) : res BoundaryDict.layer :=
  bind (num_item "thermal_capacity" v) (fun c => bind (num_item "thermal_resistance" v) (fun r =>
  Ok {| BoundaryDict.thermal_capacity := c; BoundaryDict.thermal_resistance := r |})).
Definition see_shading (v : value) : res BoundaryDict.shading_dict :=
  bind (bool_item "existence" v) (fun e =>
  Ok {| BoundaryDict.existence := e; BoundaryDict.input_method := opt (str_item "input_method" v); BoundaryDict.depth := opt (num_item "depth" v);
        BoundaryDict.d_h := opt (num_item "d_h" v); BoundaryDict.d_e := opt (num_item "d_e" v) |}).
Definition see_boundary (v : value) : BoundaryDict.bdict := {|
  BoundaryDict.b_id := opt (int_item "id" v);
  BoundaryDict.b_name := opt (str_item "name" v);
  BoundaryDict.connected_room_id := opt (int_item "connected_room_id" v);
  BoundaryDict.boundary_type := opt (str_item "boundary_type" v);
  BoundaryDict.area := opt (num_item "area" v);
  BoundaryDict.is_sun_striked_outside := opt (bool_item "is_sun_striked_outside" v);
  BoundaryDict.temp_dif_coef := opt (num_item "temp_dif_coef" v);
  BoundaryDict.next_room_type := opt (str_item "next_room_type" v);
  BoundaryDict.rear_surface_boundary_id := opt (int_item "rear_surface_boundary_id" v);
  BoundaryDict.is_solar_absorbed_inside := opt (bool_item "is_solar_absorbed_inside" v);
  BoundaryDict.is_floor := opt (bool_item "is_floor" v);
  BoundaryDict.direction := opt (str_item "direction" v);
  BoundaryDict.inside_heat_transfer_resistance := opt (num_item "inside_heat_transfer_resistance" v);
  BoundaryDict.h_c := opt (num_item "h_c" v);
  BoundaryDict.solar_shading_part := opt (bind (item "solar_shading_part" v) see_shading);
  BoundaryDict.outside_solar_absorption := opt (num_item "outside_solar_absorption" v);
  BoundaryDict.outside_emissivity := opt (num_item "outside_emissivity" v);
  BoundaryDict.outside_heat_transfer_resistance := opt (num_item "outside_heat_transfer_resistance" v);
  BoundaryDict.incident_angle_characteristics := opt (str_item "incident_angle_characteristics" v);
  BoundaryDict.eta_value := opt (num_item "eta_value" v);
  BoundaryDict.layers := opt (bind (list_item "layers" v) (mapM see_layer));
  BoundaryDict.u_value := opt (num_item "u_value" v)
|}.
