(* heat_load_calc/convert/ees_house.py: parts of the envelope, their heat loss and solar gain *)
From Coq Require Import Reals ZArith List String Bool.
From Verif Require Import Model.Py Model.JsonValue Model.FactorH Model.FactorNu Model.FactorF.
Import ListNotations.
Local Open Scope R_scope.

(* sum([...]) *)
Definition py_sum (l : list R) : R := fold_right Rplus 0 l.
Definition sumM {A} (f : A -> res R) (l : list A) : res R := bind (mapM f l) (fun r => Ok (py_sum r)).

(* a / b on floats *)
Definition fdiv (a b : R) : res R := if Req_EM_T b 0 then Err ZeroDivisionError else Ok (a / b).

(* 17-27 *)
Inductive input_method := CONDUCTIVITY | RESISTANCE.

(* 30-48 *)
Inductive gp_type := ROOF | CEILING | WALL | FLOOR | BOUNDARY_WALL | UPWARD_BOUNDARY_FLOOR | DOWNWARD_BOUNDARY_FLOOR.

(* 50-64 and 66-82: the same table *)
Definition is_floor_type (t : gp_type) : bool := match t with FLOOR | DOWNWARD_BOUNDARY_FLOOR => true | _ => false end.

(* 85-97, 100-116 *)
Inductive glass_type := SINGLE | DOUBLE | TRIPLE_AND_MORE | UNKNOWN_GLASS.
Inductive flame_type := WOOD | RESIN | METAL | WOOD_AND_METAL | RESIN_AND_METAL | UNKNOWN_FLAME.

(* 119-133 *)
Inductive space_type := MAIN | OTHER | NON | UNDERFLOOR | UNDEFINED.

(* 135-143 *)
Definition get_connected_id (s : space_type) : res Z :=
  match s with MAIN => Ok 0%Z | OTHER => Ok 1%Z | NON => Ok 2%Z | UNDERFLOOR => Ok 3%Z | UNDEFINED => Err ValueError end.

(* Layer 207-291. Objects are immutable values here (the code never changes one; deepcopy in 1053 is left out). *)
Record layer := {
  l_name : string; l_method : input_method; l_thickness : R; l_specific_heat : R; l_conductivity : R; l_resistance : R
}.

(* r 293-306 *)
Definition layer_r (l : layer) : res R :=
  match l_method l with
  | CONDUCTIVITY => fdiv (l_thickness l) (l_conductivity l)
  | RESISTANCE => Ok (l_resistance l)
  end.

(* c 308-315 *)
Definition layer_c (l : layer) : R := l_thickness l * l_specific_heat l.

(* GeneralPartPart 404-478 *)
Record part := { p_name : string; p_ratio : R; p_layers : list layer }.

(* get_r_total 480-487 *)
Definition get_r_total (p : part) : res R := sumM layer_r (p_layers p).

(* GeneralPartSpecDetail 609-650 *)
Record detail := { s_r_in : R; s_r_ex : R; s_parts : list part }.

(* GeneralPartSpec: Wood 709, RC 756, Steel 802 (u_r_value_steel), UValueOther 1065 (general_part_type, u_value, weight) *)
Inductive gp_spec :=
| SpecWood (d : detail) | SpecRC (d : detail) | SpecSteel (u_r : R) (d : detail) | SpecOther (t : gp_type) (u : R) (weight : string).

(* get_u_general_part 652-663 *)
Definition get_u_general_part (d : detail) : res R :=
  sumM (fun p => bind (get_r_total p) (fun r => fdiv (p_ratio p) (s_r_in d + r + s_r_ex d))) (s_parts d).

(* get_u 724-731, 771-778, 826-833, 874-881 *)
Definition spec_u (s : gp_spec) : res R :=
  match s with
  | SpecWood d | SpecRC d => get_u_general_part d
  | SpecSteel u_r d => bind (get_u_general_part d) (fun u => Ok (u + u_r))
  | SpecOther _ u _ => Ok u
  end.

(* get_eta 590-597 *)
Definition spec_eta (s : gp_spec) : res R := bind (spec_u s) (fun u => Ok (34 / 1000 * u)).

(* UpperArealEnvelope 1101-1164 *)
Record envelope := {
  e_name : string; e_next_space : next_space; e_direction : direction; e_area : R; e_space_type : space_type
}.

(* get_h 1166-1175 *)
Definition env_h (e : envelope) (region : Z) : res R := get_h (e_next_space e) region.

(* get_nu 1177-1190 *)
Definition env_nu (e : envelope) (region : Z) (s : season) : res R :=
  match e_next_space e with OUTDOOR => get_nu (e_direction e) region s | _ => Ok 0 end.

(* GeneralPartNoSpec 1207-1254, GeneralPart 1257-1336 *)
Record general_part_ns := { gp_env : envelope; gp_kind : gp_type; gp_shade : opaque_shade }.
Record general_part := { gp_ns : general_part_ns; gp_spec_of : gp_spec }.

Definition gp_area (g : general_part) : R := e_area (gp_env (gp_ns g)).

(* get_q 1347-1356 *)
Definition gp_q (region : Z) (g : general_part) : res R :=
  bind (spec_u (gp_spec_of g)) (fun u => bind (env_h (gp_env (gp_ns g)) region) (fun h => Ok (gp_area g * u * h))).

(* the same expression for general parts and doors: 1378-1382, 1875-1879 *)
Definition opaque_m (e : envelope) (shade : opaque_shade) (eta : res R) (region : Z) (s : season) : res R :=
  match e_next_space e with
  | OUTDOOR => bind eta (fun eta => bind (env_nu e region s) (fun nu => bind (get_f_sh shade) (fun f => Ok (e_area e * eta * nu * f))))
  | _ => Ok 0
  end.

(* get_m 1367-1382 *)
Definition gp_m (region : Z) (s : season) (g : general_part) : res R :=
  opaque_m (gp_env (gp_ns g)) (gp_shade (gp_ns g)) (spec_eta (gp_spec_of g)) region s.

(* WindowSpec 1443-1466 *)
Record window_spec := { ws_u : R; ws_eta_d_h : R; ws_eta_d_c : R; ws_glass : glass_type; ws_flame : flame_type }.

(* get_eta_d 1486-1500 *)
Definition get_eta_d_of (w : window_spec) (s : season) : R := match s with Heating => ws_eta_d_h w | Cooling => ws_eta_d_c w end.

(* WindowNoSpec 1558-1592, Window 1611-1680 *)
Record window_ns := { w_env : envelope; w_shade : window_shade }.
Record window := { w_ns : window_ns; w_spec : window_spec }.

Definition w_area (w : window) : R := e_area (w_env (w_ns w)).

(* get_f 1594-1608 *)
Definition w_f (region : Z) (s : season) (w : window_ns) : res R := get_f (w_shade w) region s (e_direction (w_env w)).

(* get_q 1685-1686 *)
Definition w_q (region : Z) (w : window) : res R :=
  bind (env_h (w_env (w_ns w)) region) (fun h => Ok (w_area w * ws_u (w_spec w) * h)).

(* get_m 1698-1702 *)
Definition w_m (region : Z) (s : season) (w : window) : res R :=
  bind (w_f region s (w_ns w)) (fun f => bind (env_nu (w_env (w_ns w)) region s) (fun nu => Ok (get_eta_d_of (w_spec w) s * w_area w * f * nu))).

(* DoorNoSpec 1756-1790, Door 1793-1862; DoorSpec 1745-1753 is its U value *)
Record door_ns := { d_env : envelope; d_shade : opaque_shade }.
Record door := { d_ns : door_ns; d_u : R }.

Definition d_area (d : door) : R := e_area (d_env (d_ns d)).

(* get_q 1867-1868 *)
Definition d_q (region : Z) (d : door) : res R :=
  bind (env_h (d_env (d_ns d)) region) (fun h => Ok (d_area d * d_u d * h)).

(* get_m 1873-1879, eta 1752-1753 *)
Definition d_m (region : Z) (s : season) (d : door) : res R :=
  opaque_m (d_env (d_ns d)) (d_shade (d_ns d)) (Ok (34 / 1000 * d_u d)) region s.

(* EarthfloorPerimeterNoSpec 1930-1963, EarthfloorPerimeter 1966-2003 with its psi value 1923-1927 *)
Record perimeter_ns := { ep_name : string; ep_next_space : next_space; ep_length : R; ep_space_type : space_type }.
Record perimeter := { ep_ns : perimeter_ns; ep_psi : R }.

(* get_q 2008-2009 *)
Definition ep_q (region : Z) (p : perimeter) : res R :=
  bind (get_h (ep_next_space (ep_ns p)) region) (fun h => Ok (ep_length (ep_ns p) * ep_psi p * h)).

(* EarthfloorCenterNoSpec 2046-2080, EarthfloorCenter 2083-2113; the space type is a string, the layers are kept as read *)
Record center_ns := { ec_name : string; ec_area : R; ec_space_type : string }.
Record center := { ec_ns : center_ns; ec_layers : value }.

(* HeatbridgeNoSpec 2149-2184, Heatbridge 2211-2261; directions are strings *)
Record heatbridge := {
  hb_name : string; hb_next_spaces : list next_space; hb_directions : list string; hb_length : R; hb_space_type : space_type; hb_psi : R
}.

(* sum(l) / len(l) *)
Definition mean (l : list R) : res R :=
  match l with [] => Err ZeroDivisionError | _ => Ok (py_sum l / INR (List.length l)) end.

(* get_q 2263-2266, get_hs 2186-2187 *)
Definition hb_q (region : Z) (b : heatbridge) : res R :=
  bind (mapM (fun n => get_h n region) (hb_next_spaces b)) (fun hs => bind (mean hs) (fun h => Ok (hb_length b * hb_psi b * h))).

(* get_nus 2189-2208 *)
Definition hb_nu (region : Z) (s : season) (nd : next_space * string) : res R :=
  bind (Direction (snd nd)) (fun d => match fst nd with OUTDOOR => get_nu d region s | _ => Ok 0 end).

(* get_m 2277-2290, get_eta 2139-2140 *)
Definition hb_m (region : Z) (s : season) (b : heatbridge) : res R :=
  bind (mapM (hb_nu region s) (combine (hb_next_spaces b) (hb_directions b))) (fun nus =>
  bind (mean nus) (fun nu => Ok (hb_length b * (34 / 1000 * hb_psi b) * nu))).

(* InnerFloor 2304-2349, InnerWall 2364-2409 *)
Record inner_floor := { if_name : string; if_area : R; if_upper : string; if_lower : string; if_layers : list layer }.
Record inner_wall := { iw_name : string; iw_area : R; iw_space_1 : string; iw_space_2 : string; iw_layers : list layer }.
