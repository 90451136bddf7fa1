(* heat_load_calc/convert/convert_lv2_to_lv3.py: parts are distributed over the rooms *)
From Coq Require Import Reals ZArith List String.
From Verif Require Import Model.Py Model.EesHouse.
Import ListNotations.
Local Open Scope R_scope.

(* the values of SpaceType, ees_house.py 119-133 *)
Definition space_value (s : space_type) : string :=
  match s with
  | MAIN => "main_occupant_room" | OTHER => "other_occupant_room" | NON => "non_occupant_room"
  | UNDERFLOOR => "underfloor" | UNDEFINED => "undefined"
  end.

(* get_separated_areas 13-32, get_separated_lengths 35-54: the same expressions *)
Definition get_separated (a a_mr a_or a_total : R) : res (R * R * R) :=
  bind (fdiv a_mr a_total) (fun r_mr => bind (fdiv a_or a_total) (fun r_or => bind (fdiv (a_total - a_mr - a_or) a_total) (fun r_nr =>
  Ok (r_mr * a, r_or * a, r_nr * a)))).

(* name + '_' + space_type.value *)
Definition lv3_name (n : string) (s : space_type) : string := (n ++ "_" ++ space_value s)%string.

Definition lv3_env (e : envelope) (s : space_type) (area : R) : envelope :=
  {| e_name := lv3_name (e_name e) s; e_next_space := e_next_space e; e_direction := e_direction e; e_area := area; e_space_type := s |}.

(* get_general_part_lv3 72-83 *)
Definition general_part_lv3 (g : general_part) (s : space_type) (area : R) : general_part :=
  {| gp_ns := {| gp_env := lv3_env (gp_env (gp_ns g)) s area; gp_kind := gp_kind (gp_ns g); gp_shade := gp_shade (gp_ns g) |};
     gp_spec_of := gp_spec_of g |}.

(* the loops 57-69, 86-98, 114-126, 142-154: three shares for every part *)
Definition split {A} (size : A -> R) (share : A -> space_type -> R -> A) (a_mr a_or a_total : R) (l : list A) : res (list A) :=
  bind (mapM (fun x => bind (get_separated (size x) a_mr a_or a_total) (fun '(m, o, n) =>
                       Ok [share x MAIN m; share x OTHER o; share x NON n])) l) (fun ls => Ok (List.concat ls)).

(* 57-69 *)
Definition general_parts_lv3 := split gp_area general_part_lv3.

(* get_window_lv3 101-111, get_windows_lv3 86-98 *)
Definition window_lv3 (w : window) (s : space_type) (area : R) : window :=
  {| w_ns := {| w_env := lv3_env (w_env (w_ns w)) s area; w_shade := w_shade (w_ns w) |}; w_spec := w_spec w |}.
Definition windows_lv3 := split w_area window_lv3.

(* get_door_lv3 129-139, get_doors_lv3 114-126 *)
Definition door_lv3 (d : door) (s : space_type) (area : R) : door :=
  {| d_ns := {| d_env := lv3_env (d_env (d_ns d)) s area; d_shade := d_shade (d_ns d) |}; d_u := d_u d |}.
Definition doors_lv3 := split d_area door_lv3.

(* get_heatbridge_lv3 157-165, get_heatbridges_lv3 142-154 *)
Definition heatbridge_lv3 (b : heatbridge) (s : space_type) (length : R) : heatbridge :=
  {| hb_name := lv3_name (hb_name b) s; hb_next_spaces := hb_next_spaces b; hb_directions := hb_directions b; hb_length := length;
     hb_space_type := s; hb_psi := hb_psi b |}.
Definition heatbridges_lv3 := split hb_length heatbridge_lv3.

(* get_earthfloor_perimeters_lv3 168-180 *)
Definition perimeters_lv3 (l : list perimeter) : list perimeter :=
  map (fun p => {| ep_ns := {| ep_name := ep_name (ep_ns p); ep_next_space := ep_next_space (ep_ns p); ep_length := ep_length (ep_ns p);
                               ep_space_type := UNDERFLOOR |}; ep_psi := ep_psi p |}) l.

(* get_earthfloor_centers_lv3 183-194 *)
Definition centers_lv3 (l : list center) : list center :=
  map (fun c => {| ec_ns := {| ec_name := ec_name (ec_ns c); ec_area := ec_area (ec_ns c); ec_space_type := "underfloor"%string |};
                   ec_layers := ec_layers c |}) l.

(* an envelope description, level 2 or 3 *)
Record parts := {
  ps_gps : list general_part; ps_ws : list window; ps_ds : list door; ps_hbs : list heatbridge; ps_eps : list perimeter; ps_ecs : list center
}.

(* convert_spec 197-241 between reading the parts and writing the result (see Model/EesDict.v) *)
Definition lv2_to_lv3 (a_mr a_or a_total : R) (p : parts) : res parts :=
  bind (general_parts_lv3 a_mr a_or a_total (ps_gps p)) (fun gps =>
  bind (windows_lv3 a_mr a_or a_total (ps_ws p)) (fun ws =>
  bind (doors_lv3 a_mr a_or a_total (ps_ds p)) (fun ds =>
  bind (heatbridges_lv3 a_mr a_or a_total (ps_hbs p)) (fun hbs =>
  Ok {| ps_gps := gps; ps_ws := ws; ps_ds := ds; ps_hbs := hbs; ps_eps := perimeters_lv3 (ps_eps p); ps_ecs := centers_lv3 (ps_ecs p) |})))).
