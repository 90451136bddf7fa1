(* The input file of the initializer and the file mid_data_house.json it writes, as records: an entry that may be
   missing is an option. Values are taken to have the right JSON type. *)
From Coq Require Import Reals List String ZArith.
From Verif Require Import Model.Py Model.BoundaryDict Model.ResponseFactor.
Import ListNotations.
Local Open Scope R_scope.

(* an equipment dictionary of the input file: 'convective' (minimum and maximum power and air flow), 'radiative' (power
   per area, area) *)
Record conv_in := { ci_q_min : option R; ci_q_max : option R; ci_v_min : option R; ci_v_max : option R }.
Record rad_in := { ri_max_capacity : option R; ri_area : option R }.
Record equip_in := { e_type : option string; e_convective : option conv_in; e_radiative : option rad_in }.

(* one entry of 'next_vent' *)
Record vent_in := { upstream_room_id : option Z; v_volume : option R }.

(* one entry of 'rooms' *)
Record room_in := {
  r_id : option Z; r_name : option string; r_room_type : option string; r_volume : option R; r_vent : option R;
  r_next_vent : option (list vent_in); r_natural_vent_time : option R; r_heating : option equip_in; r_cooling : option equip_in;
  r_floor_area : option R
}.

(* 'building' *)
Record building_in := { story : option Z; c_value : option R; inside_pressure : option string }.

(* the whole input *)
Record house_in := { h_rooms : option (list room_in); h_boundaries : option (list bdict); h_building : option building_in }.

(* written: equipment; entries that are not written are None *)
Record conv_out := { co_installed : bool; co_q_min : option R; co_q_max : option R; co_v_min : option R; co_v_max : option R }.
Record rad_out := { ro_installed : bool; ro_max_capacity : option R }.
(* 'max_capacity' directly under 'cooling' is what the core looks for; the initializer never writes it *)
Record equip_out := { o_radiative : rad_out; o_convective : conv_out; o_max_capacity : option R }.

(* written: one entry of 'spaces' *)
Record space := {
  sp_id : Z; sp_name : string; sp_volume : R; sp_beta : R; sp_mechanical : R; sp_next_spaces : list R; sp_natural : R;
  sp_heat_capacity : R; sp_heat_cond : R; sp_moisture_capacity : R; sp_moisture_cond : R;
  sp_heating : equip_out; sp_cooling : equip_out
}.

(* written: one entry of 'boundaries'; a number is None where it is not finite *)
Record bdry := {
  bd_id : Z; bd_name : string; bd_is_ground : string; bd_connected_space_id : Z; bd_area : R; bd_h_i : R; bd_h_c : R;
  bd_flr : option R; bd_is_solar_absorbed : string; bd_f_mrt_hum : option R; bd_k_outside : R; bd_k_inside : option (Z * R);
  bd_spec : spec
}.
