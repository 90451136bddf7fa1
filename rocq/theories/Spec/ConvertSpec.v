(* Descriptions of houses as dictionaries *)
From Coq Require Import Reals ZArith List String.
From Verif Require Import Model.Py Model.JsonValue Model.EesHouse Model.EesDict Model.EesInit Model.Lv3 Spec.EnvelopeSpec Spec.DictSpec.
Import ListNotations.
Local Open Scope string_scope.

(* the entry k is a list of dictionaries, of which the reader makes the parts l *)
Definition lists {A} (k : string) (read : value -> res A) (v : value) (l : list A) : Prop :=
  exists vs, item k v = Ok (VList vs) /\ Forall2 (fun d x => read d = Ok x) vs l.

(* the dictionary v describes a house with the parts p *)
Definition describes (v : value) (p : parts) : Prop :=
  lists "general_parts" make_general_part v (ps_gps p) /\ lists "windows" make_window v (ps_ws p) /\ lists "doors" make_door v (ps_ds p) /\
  lists "earthfloor_perimeters" make_perimeter v (ps_eps p) /\ lists "earthfloor_centers" make_center v (ps_ecs p) /\
  lists "heat_bridges" make_heatbridge v (ps_hbs p).

(* every part survives being written and read (C44) *)
Definition plain_house (p : parts) : Prop :=
  Forall plain_general_part (ps_gps p) /\ Forall plain_window (ps_ws p) /\ Forall plain_door (ps_ds p).

(* every part of the envelope belongs to one of the three kinds of rooms *)
Definition in_rooms (p : parts) : Prop :=
  (forall g, In g (ps_gps p) -> In (e_space_type (gp_env (gp_ns g))) rooms) /\ (forall w, In w (ps_ws p) -> In (e_space_type (w_env (w_ns w))) rooms) /\
  (forall d, In d (ps_ds p) -> In (e_space_type (d_env (d_ns d))) rooms).

(* walls, windows and doors around the rooms *)
Definition outer_parts (p : parts) : list envelope :=
  (map (fun g => gp_env (gp_ns g)) (ps_gps p) ++ map (fun w => w_env (w_ns w)) (ps_ws p) ++ map (fun d => d_env (d_ns d)) (ps_ds p))%list.

(* floor areas: main rooms, other rooms, total *)
Definition has_floors (common : value) (a_mr a_or a_a : R) : Prop :=
  num_item "main_occupant_room_floor_area" common = Ok a_mr /\ num_item "other_occupant_room_floor_area" common = Ok a_or /\
  num_item "total_floor_area" common = Ok a_a.

(* a detached house given by its indices *)
Definition asks_for (d common : value) (region : Z) (a_a env u_a eta_a_h eta_a_c : R) : Prop :=
  item "common" d = Ok common /\ int_item "region" common = Ok region /\ str_item "house_type" common = Ok "detached" /\
  num_item "total_floor_area" common = Ok a_a /\
  exists envelope indices, item "envelope" d = Ok envelope /\ num_item "total_area" envelope = Ok env /\ item "indices" envelope = Ok indices /\
  num_item "u_a" indices = Ok u_a /\ num_item "eta_a_h" indices = Ok eta_a_h /\ num_item "eta_a_c" indices = Ok eta_a_c.

(* the air change rate, and something about natural ventilation *)
Definition ventilated (d natural_vent : value) : Prop :=
  (exists v n, item "ventilation" d = Ok v /\ num_item "air_change_rate" v = Ok n) /\
  (exists t, item "main_occupant_room_natural_vent_time" natural_vent = Ok t) /\ (exists t, item "other_occupant_room_natural_vent_time" natural_vent = Ok t).
