(* Which input files are complete. *)
From Coq Require Import Reals List String ZArith.
From Verif Require Import Model.BoundaryDict Model.HouseDict Spec.HouseSpec.
Import ListNotations.
Local Open Scope R_scope.

Definition directions : list string := ["s"; "sw"; "w"; "nw"; "n"; "ne"; "e"; "se"; "top"; "bottom"]%string.

(* a sunshade, if there is one, is described by its depth, the height of the opening (not 0) and the distance between them *)
Definition complete_sunshade (p : shading_dict) : Prop :=
  existence p = true ->
  input_method p = Some "simple"%string /\ given (depth p) /\ given (d_e p) /\ exists h, d_h p = Some h /\ h <> 0.

(* what a boundary that the sun may reach needs *)
Definition complete_outside (b : bdict) (t : string) : Prop :=
  given (temp_dif_coef b) /\
  exists sun, BoundaryDict.is_sun_striked_outside b = Some sun /\
  (sun = true ->
     (exists d, BoundaryDict.direction b = Some d /\ In d directions) /\ given (outside_emissivity b) /\ given (outside_heat_transfer_resistance b) /\
     (exists p, solar_shading_part b = Some p /\ complete_sunshade p) /\
     (t <> "external_transparent_part"%string -> given (outside_solar_absorption b)) /\
     (t = "external_transparent_part"%string ->
        given (eta_value b) /\ (incident_angle_characteristics b = Some "single"%string \/ incident_angle_characteristics b = Some "multiple"%string))).

Definition complete_boundary (b : bdict) : Prop :=
  given (b_id b) /\ given (b_name b) /\ given (BoundaryDict.connected_room_id b) /\ given (BoundaryDict.area b) /\
  given (BoundaryDict.is_solar_absorbed_inside b) /\ given (BoundaryDict.is_floor b) /\ given (BoundaryDict.h_c b) /\
  (exists r, inside_heat_transfer_resistance b = Some r /\ r <> 0) /\ given (solar_shading_part b) /\
  exists t, BoundaryDict.boundary_type b = Some t /\
  ((t = "internal"%string /\ BoundaryDict.is_sun_striked_outside b <> Some true /\
      (exists n, BoundaryDict.next_room_type b = Some n /\ In n room_types) /\ given (BoundaryDict.rear_surface_boundary_id b) /\
      given (layers b) /\ given (outside_heat_transfer_resistance b)) \/
   (t = "ground"%string /\ BoundaryDict.is_sun_striked_outside b <> Some true /\ given (layers b)) \/
   (t = "external_general_part"%string /\ complete_outside b t /\ given (layers b) /\ given (outside_heat_transfer_resistance b)) \/
   (t = "external_transparent_part"%string /\ complete_outside b t /\ given (u_value b)) \/
   (t = "external_opaque_part"%string /\ complete_outside b t /\ given (u_value b))).

Definition complete_building (b : building_in) : Prop :=
  (story b = Some 1%Z \/ story b = Some 2%Z) /\ given (c_value b) /\
  (inside_pressure b = Some "positive"%string \/ inside_pressure b = Some "negative"%string \/ inside_pressure b = Some "balanced"%string).

Definition complete_house (d : house_in) : Prop :=
  exists rooms bds bd ids types,
  h_rooms d = Some rooms /\ h_boundaries d = Some bds /\ h_building d = Some bd /\
  map r_id rooms = map Some ids /\ map r_room_type rooms = map Some types /\ valid_rooms ids types /\
  Forall (complete_room (List.length rooms)) rooms /\ (forall r, In r rooms -> given (r_floor_area r)) /\
  Forall complete_boundary bds /\ complete_building bd /\
  (* every room has a boundary *)
  (forall i, In i ids -> exists b, In b bds /\ BoundaryDict.connected_room_id b = Some i).
