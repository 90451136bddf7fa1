(* heat_load_calc/convert/ees_house.py and factor_f.py: parts written to and read from dictionaries. Keyword arguments are
   evaluated from left to right. *)
From Coq Require Import Reals ZArith List String Bool.
From Verif Require Import Model.Py Model.JsonValue Model.FactorH Model.FactorNu Model.FactorF Model.EesHouse Model.Lv3.
Import ListNotations.
Local Open Scope string_scope.

(* values of the enumerations: 17-27, 30-48, 85-97, 100-116; factor_h.py 7-19 *)
Definition method_value (m : input_method) : string := match m with CONDUCTIVITY => "conductivity" | RESISTANCE => "resistance" end.
Definition kind_value (t : gp_type) : string :=
  match t with
  | ROOF => "roof" | CEILING => "ceiling" | WALL => "wall" | FLOOR => "floor" | BOUNDARY_WALL => "boundary_wall"
  | UPWARD_BOUNDARY_FLOOR => "upward_boundary_floor" | DOWNWARD_BOUNDARY_FLOOR => "downward_boundary_floor"
  end.
Definition glass_value (g : glass_type) : string :=
  match g with SINGLE => "single" | DOUBLE => "double" | TRIPLE_AND_MORE => "triple_and_more" | UNKNOWN_GLASS => "unknown" end.
Definition flame_value (f : flame_type) : string :=
  match f with
  | WOOD => "wood" | RESIN => "resin" | METAL => "metal" | WOOD_AND_METAL => "wood_and_metal" | RESIN_AND_METAL => "resin_and_metal"
  | UNKNOWN_FLAME => "unknown"
  end.
Definition next_value (n : next_space) : string :=
  match n with
  | OUTDOOR => "outdoor" | OPEN_SPACE => "open_space" | CLOSED_SPACE => "closed_space" | AIR_CONDITIONED => "air_conditioned"
  | OPEN_UNDERFLOOR => "open_underfloor" | CLOSED_UNDERFLOOR => "closed_underfloor"
  end.

(* Enum(value) *)
Definition HeatResistanceInputMethod (s : string) : res input_method := enum [CONDUCTIVITY; RESISTANCE] method_value s.
Definition GeneralPartType (s : string) : res gp_type :=
  enum [ROOF; CEILING; WALL; FLOOR; BOUNDARY_WALL; UPWARD_BOUNDARY_FLOOR; DOWNWARD_BOUNDARY_FLOOR] kind_value s.
Definition GlassType (s : string) : res glass_type := enum [SINGLE; DOUBLE; TRIPLE_AND_MORE; UNKNOWN_GLASS] glass_value s.
Definition FlameType (s : string) : res flame_type := enum [WOOD; RESIN; METAL; WOOD_AND_METAL; RESIN_AND_METAL; UNKNOWN_FLAME] flame_value s.
Definition NextSpace (s : string) : res next_space :=
  enum [OUTDOOR; OPEN_SPACE; CLOSED_SPACE; AIR_CONDITIONED; OPEN_UNDERFLOOR; CLOSED_UNDERFLOOR] next_value s.
Definition SpaceType (s : string) : res space_type := enum [MAIN; OTHER; NON; UNDERFLOOR; UNDEFINED] space_value s.

(* E(d[k]) *)
Definition enum_item {A} (E : string -> res A) (k : string) (d : value) : res A := bind (str_item k d) E.

(* Layer.get_as_dict 358-382 *)
Definition layer_dict (l : layer) : value :=
  VDict ([("name", VStr (l_name l)); ("heat_resistance_input_method", VStr (method_value (l_method l)));
          ("thickness", VNum (l_thickness l)); ("volumetric_specific_heat", VNum (l_specific_heat l))] ++
         match l_method l with
         | CONDUCTIVITY => [("thermal_conductivity", VNum (l_conductivity l))]
         | RESISTANCE => [("thermal_resistance", VNum (l_resistance l))]
         end).

(* Layer.make_layer 318-344; the number not given is 0.0 by default: 207-216 *)
Definition make_layer (d : value) : res layer :=
  bind (enum_item HeatResistanceInputMethod "heat_resistance_input_method" d) (fun m =>
  bind (str_item "name" d) (fun n => bind (num_item "thickness" d) (fun t => bind (num_item "volumetric_specific_heat" d) (fun c =>
  match m with
  | CONDUCTIVITY => bind (num_item "thermal_conductivity" d) (fun k =>
      Ok {| l_name := n; l_method := m; l_thickness := t; l_specific_heat := c; l_conductivity := k; l_resistance := 0%R |})
  | RESISTANCE => bind (num_item "thermal_resistance" d) (fun r =>
      Ok {| l_name := n; l_method := m; l_thickness := t; l_specific_heat := c; l_conductivity := 0%R; l_resistance := r |})
  end)))).

(* make_layers 346-356 *)
Definition make_layers (ds : list value) : res (list layer) := mapM make_layer ds.

(* GeneralPartPart.get_as_dict 489-495 *)
Definition part_dict (p : part) : value :=
  VDict [("name", VStr (p_name p)); ("part_area_ratio", VNum (p_ratio p)); ("layers", VList (map layer_dict (p_layers p)))].

(* make_general_part_part 417-431 *)
Definition make_part (d : value) : res part :=
  bind (str_item "name" d) (fun n => bind (num_item "part_area_ratio" d) (fun r =>
  bind (bind (list_item "layers" d) make_layers) (fun ls => Ok {| p_name := n; p_ratio := r; p_layers := ls |}))).

(* make_general_part_parts 433-449 *)
Definition make_parts (ds : list value) : res (list part) :=
  bind (mapM (num_item "part_area_ratio") ds) (fun rs =>
  if Rlt_dec (1 / 1000000)%R (Rabs (py_sum rs - 1)%R) then Err OtherError else mapM make_part ds).

(* get_as_dict 733-740, 780-786, 835-842, 1086-1092 *)
Definition detail_entries (d : detail) : list (string * value) :=
  [("r_srf_in", VNum (s_r_in d)); ("r_srf_ex", VNum (s_r_ex d)); ("parts", VList (map part_dict (s_parts d)))].
Definition spec_dict (s : gp_spec) : value :=
  match s with
  | SpecWood d => VDict (("structure", VStr "wood") :: detail_entries d)
  | SpecRC d => VDict (("structure", VStr "rc") :: detail_entries d)
  | SpecSteel u d => VDict (("structure", VStr "steel") :: ("u_r_value_steel", VNum u) :: detail_entries d)
  | SpecOther _ u w => VDict [("structure", VStr "other"); ("u_value_other", VNum u); ("weight", VStr w)]
  end.

(* make_from_dict 715-722, 762-769, 816-824, 1075-1082 *)
Definition make_detail (d : value) : res detail :=
  bind (num_item "r_srf_in" d) (fun i => bind (num_item "r_srf_ex" d) (fun e =>
  bind (bind (list_item "parts" d) make_parts) (fun ps => Ok {| s_r_in := i; s_r_ex := e; s_parts := ps |}))).

(* make_general_part_spec 530-557 *)
Definition make_spec (d : value) (t : gp_type) : res gp_spec :=
  bind (str_item "structure" d) (fun s =>
  if s =? "wood" then bind (make_detail d) (fun x => Ok (SpecWood x))
  else if s =? "rc" then bind (make_detail d) (fun x => Ok (SpecRC x))
  else if s =? "steel" then bind (num_item "u_r_value_steel" d) (fun u => bind (make_detail d) (fun x => Ok (SpecSteel u x)))
  else if s =? "other" then bind (num_item "u_value_other" d) (fun u => bind (str_item "weight" d) (fun w => Ok (SpecOther t u w)))
  else Err OtherError).

(* SunshadeComplexKernel, entries x1 to z_y_mns *)
Definition kernel_entries (k : kernel) : list (string * value) :=
  [("x1", VNum (k_x1 k)); ("x2", VNum (k_x2 k)); ("x3", VNum (k_x3 k)); ("y1", VNum (k_y1 k)); ("y2", VNum (k_y2 k)); ("y3", VNum (k_y3 k));
   ("z_x_pls", VNum (k_z_x_pls k)); ("z_x_mns", VNum (k_z_x_mns k)); ("z_y_pls", VNum (k_z_y_pls k)); ("z_y_mns", VNum (k_z_y_mns k))].
Definition make_kernel (d : value) : res kernel :=
  bind (num_item "x1" d) (fun x1 => bind (num_item "x2" d) (fun x2 => bind (num_item "x3" d) (fun x3 =>
  bind (num_item "y1" d) (fun y1 => bind (num_item "y2" d) (fun y2 => bind (num_item "y3" d) (fun y3 =>
  bind (num_item "z_x_pls" d) (fun a => bind (num_item "z_x_mns" d) (fun b => bind (num_item "z_y_pls" d) (fun c => bind (num_item "z_y_mns" d) (fun e =>
  Ok {| k_x1 := x1; k_x2 := x2; k_x3 := x3; k_y1 := y1; k_y2 := y2; k_y3 := y3;
        k_z_x_pls := a; k_z_x_mns := b; k_z_y_pls := c; k_z_y_mns := e |})))))))))).

(* factor_f.py get_as_dict 176-180, 199-204, 239-255: the lengths are written under 'spec' *)
Definition opaque_dict (s : opaque_shade) : value :=
  match s with
  | OpNotDefined => VDict [("is_defined", VBool false)]
  | OpNotInput => VDict [("is_defined", VBool true); ("input", VStr "not_input")]
  | OpInput k => VDict [("is_defined", VBool true); ("input", VStr "complex"); ("spec", VDict (kernel_entries k))]
  end.

(* factor_f.py make_sunshade_opaque 136-159: the lengths are read directly *)
Definition make_opaque (d : value) : res opaque_shade :=
  bind (bool_item "is_defined" d) (fun b =>
  if b then bind (str_item "input" d) (fun s =>
    if s =? "not_input" then Ok OpNotInput
    else if s =? "complex" then bind (make_kernel d) (fun k => Ok (OpInput k))
    else Err ValueError)
  else Ok OpNotDefined).

(* factor_f.py get_as_dict 327-331, 359-364, 382-386, 467-475, 520-536 *)
Definition window_shade_dict (s : window_shade) : value :=
  match s with
  | TrNotDefined => VDict [("is_defined", VBool false)]
  | TrNotInput => VDict [("is_defined", VBool true); ("input", VStr "not_input")]
  | TrNotExist => VDict [("is_defined", VBool true); ("input", VStr "not_exist")]
  | TrSimple a b c => VDict [("is_defined", VBool true); ("input", VStr "simple"); ("depth", VNum a); ("d_h", VNum b); ("d_e", VNum c)]
  | TrDetail k => VDict [("is_defined", VBool true); ("input", VStr "complex"); ("spec", VDict (kernel_entries k))]
  end.

(* factor_f.py make_sunshade_transient 289-315: 'not_exist' and 'complex' raise the object that should be returned, which is
   no exception: TypeError *)
Definition make_window_shade (d : value) : res window_shade :=
  bind (bool_item "is_defined" d) (fun b =>
  if b then bind (str_item "input" d) (fun s =>
    if s =? "not_input" then Ok TrNotInput
    else if s =? "not_exist" then Err TypeError
    else if s =? "simple" then bind (num_item "depth" d) (fun x => bind (num_item "d_h" d) (fun y => bind (num_item "d_e" d) (fun z => Ok (TrSimple x y z))))
    else if s =? "complex" then bind (make_kernel d) (fun _ => Err TypeError)
    else Err KeyError)
  else Ok TrNotDefined).

(* GeneralPart.get_as_dict 1384-1395 *)
Definition general_part_dict (g : general_part) : value :=
  let e := gp_env (gp_ns g) in
  VDict [("name", VStr (e_name e)); ("general_part_type", VStr (kind_value (gp_kind (gp_ns g)))); ("next_space", VStr (next_value (e_next_space e)));
         ("direction", VStr (direction_value (e_direction e))); ("area", VNum (e_area e)); ("space_type", VStr (space_value (e_space_type e)));
         ("spec", spec_dict (gp_spec_of g)); ("sunshade", opaque_dict (gp_shade (gp_ns g)))].

(* make_general_part 1297-1324 *)
Definition make_general_part (d : value) : res general_part :=
  bind (enum_item GeneralPartType "general_part_type" d) (fun t =>
  bind (str_item "name" d) (fun n => bind (enum_item NextSpace "next_space" d) (fun ns =>
  bind (enum_item Direction "direction" d) (fun dir => bind (num_item "area" d) (fun a =>
  bind (enum_item SpaceType "space_type" d) (fun st => bind (bind (item "sunshade" d) make_opaque) (fun sh =>
  bind (bind (item "spec" d) (fun s => make_spec s t)) (fun sp =>
  Ok {| gp_ns := {| gp_env := {| e_name := n; e_next_space := ns; e_direction := dir; e_area := a; e_space_type := st |};
                    gp_kind := t; gp_shade := sh |};
        gp_spec_of := sp |})))))))).
(* make_general_parts 1326-1336 *)
Definition make_general_parts (ds : list value) : res (list general_part) := mapM make_general_part ds.

(* WindowSpec.get_as_dict 1502-1510, make_window_spec 1470-1484 *)
Definition window_spec_dict (w : window_spec) : value :=
  VDict [("u_value", VNum (ws_u w)); ("eta_d_h_value", VNum (ws_eta_d_h w)); ("eta_d_c_value", VNum (ws_eta_d_c w));
         ("glass_type", VStr (glass_value (ws_glass w))); ("flame_type", VStr (flame_value (ws_flame w)))].
Definition make_window_spec (d : value) : res window_spec :=
  bind (num_item "u_value" d) (fun u => bind (num_item "eta_d_h_value" d) (fun h => bind (num_item "eta_d_c_value" d) (fun c =>
  bind (enum_item GlassType "glass_type" d) (fun g => bind (enum_item FlameType "flame_type" d) (fun f =>
  Ok {| ws_u := u; ws_eta_d_h := h; ws_eta_d_c := c; ws_glass := g; ws_flame := f |}))))).

(* Window.get_as_dict 1704-1714, make_window 1646-1664 *)
Definition window_dict (w : window) : value :=
  let e := w_env (w_ns w) in
  VDict [("name", VStr (e_name e)); ("next_space", VStr (next_value (e_next_space e))); ("direction", VStr (direction_value (e_direction e)));
         ("area", VNum (e_area e)); ("space_type", VStr (space_value (e_space_type e))); ("sunshade", window_shade_dict (w_shade (w_ns w)));
         ("spec", window_spec_dict (w_spec w))].
Definition make_window (d : value) : res window :=
  bind (str_item "name" d) (fun n => bind (num_item "area" d) (fun a => bind (enum_item NextSpace "next_space" d) (fun ns =>
  bind (enum_item Direction "direction" d) (fun dir => bind (enum_item SpaceType "space_type" d) (fun st =>
  bind (bind (item "sunshade" d) make_window_shade) (fun sh => bind (bind (item "spec" d) make_window_spec) (fun sp =>
  Ok {| w_ns := {| w_env := {| e_name := n; e_next_space := ns; e_direction := dir; e_area := a; e_space_type := st |}; w_shade := sh |};
        w_spec := sp |}))))))).
Definition make_windows (ds : list value) : res (list window) := mapM make_window ds.   (* 1666-1676 *)

(* Door.get_as_dict 1881-1893, make_door 1831-1849 *)
Definition door_dict (w : door) : value :=
  let e := d_env (d_ns w) in
  VDict [("name", VStr (e_name e)); ("next_space", VStr (next_value (e_next_space e))); ("direction", VStr (direction_value (e_direction e)));
         ("area", VNum (e_area e)); ("space_type", VStr (space_value (e_space_type e))); ("sunshade", opaque_dict (d_shade (d_ns w)));
         ("spec", VDict [("u_value", VNum (d_u w))])].
Definition make_door (d : value) : res door :=
  bind (str_item "name" d) (fun n => bind (enum_item NextSpace "next_space" d) (fun ns =>
  bind (enum_item Direction "direction" d) (fun dir => bind (num_item "area" d) (fun a => bind (enum_item SpaceType "space_type" d) (fun st =>
  bind (bind (item "sunshade" d) make_opaque) (fun sh => bind (bind (item "spec" d) (num_item "u_value")) (fun u =>
  Ok {| d_ns := {| d_env := {| e_name := n; e_next_space := ns; e_direction := dir; e_area := a; e_space_type := st |}; d_shade := sh |};
        d_u := u |}))))))).
Definition make_doors (ds : list value) : res (list door) := mapM make_door ds.   (* 1851-1860 *)

(* EarthfloorPerimeter.get_as_dict 2011-2021, make_earthfloor_perimeter 1988-1996 *)
Definition perimeter_dict (p : perimeter) : value :=
  let e := ep_ns p in
  VDict [("name", VStr (ep_name e)); ("next_space", VStr (next_value (ep_next_space e))); ("length", VNum (ep_length e));
         ("space_type", VStr (space_value (ep_space_type e))); ("spec", VDict [("psi_value", VNum (ep_psi p))])].
Definition make_perimeter (d : value) : res perimeter :=
  bind (str_item "name" d) (fun n => bind (enum_item NextSpace "next_space" d) (fun ns => bind (num_item "length" d) (fun l =>
  bind (enum_item SpaceType "space_type" d) (fun st => bind (bind (item "spec" d) (num_item "psi_value")) (fun psi =>
  Ok {| ep_ns := {| ep_name := n; ep_next_space := ns; ep_length := l; ep_space_type := st |}; ep_psi := psi |}))))).

(* EarthfloorCenter.get_as_dict 2115-2122 (2039-2043), make_earthfloor_center 2099-2105 (2031-2033) *)
Definition center_dict (c : center) : value :=
  VDict [("name", VStr (ec_name (ec_ns c))); ("area", VNum (ec_area (ec_ns c))); ("space_type", VStr (ec_space_type (ec_ns c)));
         ("spec", VDict [("layers", ec_layers c)])].
Definition make_center (d : value) : res center :=
  bind (str_item "name" d) (fun n => bind (num_item "area" d) (fun a => bind (str_item "space_type" d) (fun st =>
  bind (bind (item "spec" d) (item "layers")) (fun ls =>
  Ok {| ec_ns := {| ec_name := n; ec_area := a; ec_space_type := st |}; ec_layers := ls |})))).

(* Heatbridge.get_as_dict 2292-2301 (2142-2146), make_heatbridge 2242-2250 (2131-2134) *)
Definition heatbridge_dict (h : heatbridge) : value :=
  VDict [("name", VStr (hb_name h)); ("next_spaces", VList (map (fun n => VStr (next_value n)) (hb_next_spaces h)));
         ("directions", VList (map VStr (hb_directions h))); ("length", VNum (hb_length h)); ("space_type", VStr (space_value (hb_space_type h)));
         ("spec", VDict [("psi_value", VNum (hb_psi h))])].
Definition make_heatbridge (d : value) : res heatbridge :=
  bind (str_item "name" d) (fun n =>
  bind (bind (list_item "next_spaces" d) (mapM (fun v => bind (as_str v) NextSpace))) (fun ns =>
  bind (bind (list_item "directions" d) (mapM as_str)) (fun ds => bind (num_item "length" d) (fun l =>
  bind (enum_item SpaceType "space_type" d) (fun st => bind (bind (item "spec" d) (num_item "psi_value")) (fun psi =>
  Ok {| hb_name := n; hb_next_spaces := ns; hb_directions := ds; hb_length := l; hb_space_type := st; hb_psi := psi |})))))).

(* InnerFloor.get_as_dict 2351-2361, make_inner_floor 2322-2329 *)
Definition inner_floor_dict (f : inner_floor) : value :=
  VDict [("name", VStr (if_name f)); ("area", VNum (if_area f)); ("upper_space_type", VStr (if_upper f)); ("lower_space_type", VStr (if_lower f));
         ("spec", VDict [("layers", VList (map layer_dict (if_layers f)))])].
Definition make_inner_floor (d : value) : res inner_floor :=
  bind (str_item "name" d) (fun n => bind (num_item "area" d) (fun a => bind (str_item "upper_space_type" d) (fun u =>
  bind (str_item "lower_space_type" d) (fun l => bind (bind (bind (item "spec" d) (list_item "layers")) make_layers) (fun ls =>
  Ok {| if_name := n; if_area := a; if_upper := u; if_lower := l; if_layers := ls |}))))).

(* InnerWall.get_as_dict 2411-2421, make_inner_wall 2382-2389 *)
Definition inner_wall_dict (f : inner_wall) : value :=
  VDict [("name", VStr (iw_name f)); ("area", VNum (iw_area f)); ("space_type_1", VStr (iw_space_1 f)); ("space_type_2", VStr (iw_space_2 f));
         ("spec", VDict [("layers", VList (map layer_dict (iw_layers f)))])].
Definition make_inner_wall (d : value) : res inner_wall :=
  bind (str_item "name" d) (fun n => bind (num_item "area" d) (fun a => bind (str_item "space_type_1" d) (fun u =>
  bind (str_item "space_type_2" d) (fun l => bind (bind (bind (item "spec" d) (list_item "layers")) make_layers) (fun ls =>
  Ok {| iw_name := n; iw_area := a; iw_space_1 := u; iw_space_2 := l; iw_layers := ls |}))))).
