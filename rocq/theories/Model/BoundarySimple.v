(* heat_load_calc/initializer/boundary_simple.py, boundary_type.py *)
From Coq Require Import Reals List String ZArith Bool.
From Verif Require Import Model.Py Model.Trig Model.BoundaryDict Model.Inclined Model.SolarShading Model.Transmission Model.OutsideEqvTemp.
Import ListNotations.
Local Open Scope R_scope.

(* boundary_type.py 4-22 *)
Inductive btype := Internal | ExternalGeneralPart | ExternalTransparentPart | ExternalOpaquePart | Ground.

(* BoundaryType(value): ValueError for an unknown value *)
Definition BoundaryType (s : string) : res btype :=
  if (s =? "internal")%string then Ok Internal
  else if (s =? "external_general_part")%string then Ok ExternalGeneralPart
  else if (s =? "external_transparent_part")%string then Ok ExternalTransparentPart
  else if (s =? "external_opaque_part")%string then Ok ExternalOpaquePart
  else if (s =? "ground")%string then Ok Ground
  else Err ValueError.

(* boundary_simple.py 11-71; sub_name is always empty (84) and left out *)
Record bsimple := {
  bs_id : Z; bs_name : string; bs_connected_room_id : Z; bs_type : btype; bs_area : R; bs_h_td : R; bs_next_room_type : Z;
  bs_rear_surface_boundary_id : option Z; bs_is_floor : bool; bs_is_solar_absorbed_inside : bool;
  bs_is_sun_striked_outside : option bool; bs_direction : option string; bs_h_i : R; bs_h_c : R;
  bs_theta_o_sol : list (option R); bs_q_trs_sol : list (option R)
}.

(* 121-126 *)
Definition next_room_index (s : string) : res Z :=
  if (s =? "main_occupant_room")%string then Ok 0%Z
  else if (s =? "other_occupant_room")%string then Ok 1%Z
  else if (s =? "non_occupant_room")%string then Ok 2%Z
  else if (s =? "underfloor")%string then Ok 3%Z
  else Err KeyError.

(* 74-197. float(), int() and bool() are applied to values that already have these types. *)
Definition get_boundary_simple (ws : list wstep) (b : bdict) : res bsimple :=
  bind (key (b_id b)) (fun boundary_id =>                                                    (* 80 *)
  bind (key (b_name b)) (fun name =>                                                         (* 83 *)
  bind (key (BoundaryDict.connected_room_id b)) (fun connected =>                            (* 87 *)
  bind (key (BoundaryDict.boundary_type b)) (fun t =>
  bind (BoundaryType t) (fun boundary_type =>                                                (* 95 *)
  bind (key (BoundaryDict.area b)) (fun area =>                                              (* 98 *)
  bind (if is_external t then bind (key (BoundaryDict.is_sun_striked_outside b)) (fun s => Ok (Some s)) else Ok None) (fun sun => (* 104-107 *)
  bind (if is_external t then key (temp_dif_coef b) else Ok 0) (fun h_td =>                  (* 111-114 *)
  bind (if (t =? "internal")%string then bind (key (BoundaryDict.next_room_type b)) next_room_index else Ok (-1)%Z) (fun next_room =>  (* 119-126 *)
  bind (if (t =? "internal")%string then bind (key (BoundaryDict.rear_surface_boundary_id b)) (fun k => Ok (Some k)) else Ok None) (fun rear => (* 128-131 *)
  bind (key (BoundaryDict.is_solar_absorbed_inside b)) (fun absorbed =>                      (* 136 *)
  bind (key (BoundaryDict.is_floor b)) (fun is_floor =>                                      (* 140 *)
  bind (match BoundaryDict.is_sun_striked_outside b with
        | Some true => bind (key (BoundaryDict.direction b)) (fun d => Ok (Some d))
        | _ => Ok None
        end) (fun direction =>                                                               (* 145-151 *)
  bind (key (BoundaryDict.inside_heat_transfer_resistance b)) (fun r_i =>                    (* 154 *)
  if Req_EM_T r_i 0 then Err ZeroDivisionError else                                          (* 157 *)
  bind (key (BoundaryDict.h_c b)) (fun h_c =>                                                (* 160 *)
  bind (create_shading b) (fun s =>                                                          (* 162 *)
  bind (create_oet b) (fun oet =>                                                            (* 165 *)
  bind (get_theta_o_sol oet ws) (fun theta_o_sol =>                                          (* 166-173 *)
  bind (create_transmission b s) (fun tsr =>                                                 (* 176 *)
  bind (get_qgt tsr ws) (fun q_trs_sol =>                                                    (* 177 *)
  Ok {| bs_id := boundary_id; bs_name := name; bs_connected_room_id := connected; bs_type := boundary_type;
        bs_area := area; bs_h_td := h_td; bs_next_room_type := next_room; bs_rear_surface_boundary_id := rear;
        bs_is_floor := is_floor; bs_is_solar_absorbed_inside := absorbed; bs_is_sun_striked_outside := sun;
        bs_direction := direction; bs_h_i := 1 / r_i; bs_h_c := h_c;
        bs_theta_o_sol := theta_o_sol; bs_q_trs_sol := q_trs_sol |})))))))))))))))))))).
