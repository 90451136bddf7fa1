(* The dictionaries of the input file as records: an entry that may be missing is an option; reading a missing entry
   (b['key']) raises KeyError. Values are taken to have the right JSON type. *)
From Coq Require Import Reals List String ZArith.
From Verif Require Import Model.Py.
Local Open Scope R_scope.

Definition key {A} (o : option A) : res A := of_option KeyError o.

Record layer := { thermal_capacity : R; thermal_resistance : R }.

(* 'solar_shading_part'; the ten lengths of the method 'detail' are left out: nothing can be computed from them
   (solar_shading.py 182-210 NotImplementedError) *)
Record shading_dict := {
  existence : bool; input_method : option string; depth : option R; d_h : option R; d_e : option R
}.

(* one entry of 'boundaries' *)
Record bdict := {
  b_id : option Z;
  b_name : option string;
  connected_room_id : option Z;
  boundary_type : option string;
  area : option R;
  is_sun_striked_outside : option bool;
  temp_dif_coef : option R;
  next_room_type : option string;
  rear_surface_boundary_id : option Z;
  is_solar_absorbed_inside : option bool;
  is_floor : option bool;
  direction : option string;
  inside_heat_transfer_resistance : option R;
  h_c : option R;
  solar_shading_part : option shading_dict;
  outside_solar_absorption : option R;
  outside_emissivity : option R;
  outside_heat_transfer_resistance : option R;
  incident_angle_characteristics : option string;
  eta_value : option R;
  layers : option (list layer);
  u_value : option R
}.

(* one row of weather.csv; the azimuth is None where it is undefined (nan) *)
Record wstep := {
  theta_o : R; i_dn : R; i_sky : R; r_n : R; h_sun : R; a_sun : option R
}.
