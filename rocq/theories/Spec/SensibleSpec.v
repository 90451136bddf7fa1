(* Descriptions of houses whose numbers make sense. What must be there at all is said in CompleteSpec.v. *)
From Coq Require Import Reals List String ZArith.
From Verif Require Import Model.Py Model.BoundaryDict Model.ResponseFactor Model.HouseDict Spec.HouseSpec Spec.HouseholdSpec Model.Schedule Model.ShapeFactor Model.Inclined.
Import ListNotations.
Local Open Scope R_scope.

(* the air that comes from other rooms, m3/h *)
Definition inflow (l : list vent_in) : R := HouseSpec.total (map (fun p => match v_volume p with Some v => v | None => 0 end) l).

(* a room: positive volume, no negative air flows, from other rooms less than a room volume per quarter of an hour, and an
   air conditioner for cooling whose air flow at the lowest power is large enough *)
Record sensible_room (r : room_in) : Prop := {
  sr_volume : forall v, r_volume r = Some v -> 0 < v;
  sr_vent : forall u, r_vent r = Some u -> 0 <= u;
  sr_natural : forall n, r_natural_vent_time r = Some n -> 0 <= n;
  sr_paths : forall l p v, r_next_vent r = Some l -> In p l -> v_volume p = Some v -> 0 <= v;
  sr_inflow : forall l v, r_next_vent r = Some l -> r_volume r = Some v -> inflow l < 4 * v;
  sr_cooling : exists e q1 q2 v1 v2, r_cooling r = Some e /\ convective_equipment e q1 q2 v1 v2 /\
    0 <= q1 < q2 /\ 0 <= v1 <= v2 /\ q1 * (v2 - v1) <= v1 * (q2 - q1);
  sr_heating : forall e m a, r_heating r = Some e -> radiative_equipment e m a -> 0 <= m /\ 0 <= a
}.

(* The wall that a boundary stands for. Walls of layers are handled by a numerical method; that it gives a positive
   response to heat and a transmission between 0 and 1 in the first step is required here. Windows and doors must have a
   resistance of their own beyond the resistance of the inner surface. *)
Definition sensible_wall (inv : list (list R) -> res (list (list R))) (b : bdict) : Prop :=
  forall t, BoundaryDict.boundary_type b = Some t ->
  let computed f := exists rf f', get_response_factors inv f = Ok (rf, f') /\ 0 < rfa0 rf /\ 0 <= rft0 rf <= 1 in
  (t = "internal"%string \/ t = "external_general_part"%string -> forall l r,
     layers b = Some l -> outside_heat_transfer_resistance b = Some r -> computed (Envelope (map thermal_capacity l) (map thermal_resistance l) r)) /\
  (t = "ground"%string -> forall l, layers b = Some l -> computed (GroundF (map thermal_capacity l) (map thermal_resistance l))) /\
  (t = "external_transparent_part"%string \/ t = "external_opaque_part"%string -> forall u r,
     u_value b = Some u -> inside_heat_transfer_resistance b = Some r -> 0 < u /\ r < 1 / u).

(* boundary number j of a house with nr rooms and nb boundaries *)
Record sensible_boundary (inv : list (list R) -> res (list (list R))) (nr nb j : nat) (b : bdict) : Prop := {
  sb_id : b_id b = Some (Z.of_nat j);
  sb_room : forall i, connected_room_id b = Some i -> (0 <= i < Z.of_nat nr)%Z;
  sb_area : forall a, area b = Some a -> 0 < a;
  sb_h_c : forall x, h_c b = Some x -> 0 < x;
  sb_coef : forall x, temp_dif_coef b = Some x -> 0 <= x <= 1;
  sb_rear : forall k, rear_surface_boundary_id b = Some k -> (0 <= k < Z.of_nat nb)%Z;
  sb_wall : sensible_wall inv b
}.

Definition sensible_house (inv : list (list R) -> res (list (list R))) (d : house_in) : Prop :=
  forall rooms bds, h_rooms d = Some rooms -> h_boundaries d = Some bds ->
  Forall sensible_room rooms /\
  (forall j b, nth_error bds j = Some b -> sensible_boundary inv (List.length rooms) (List.length bds) j b) /\
  (* every room has a floor and something else *)
  (forall i fl, (0 <= i < Z.of_nat (List.length rooms))%Z -> exists b, In b bds /\ connected_room_id b = Some i /\ is_floor b = Some fl).

(* the calendar has the three kinds of days only, and the tables no negative ventilation *)
Definition sensible_tables (tbl : tables) (cal : list string) : Prop :=
  Forall known_day cal /\ forall room day m t x, entry tbl room "local_vent_amount" day m t x -> 0 <= x.

(* rooms are heated by warm air or not at all; a house of one room *)
Definition convective_heating (d : house_in) : Prop :=
  forall rooms r e, h_rooms d = Some rooms -> In r rooms -> r_heating r = Some e -> e_type e <> Some "radiative"%string.
Definition one_room (d : house_in) : Prop := exists r, h_rooms d = Some [r].

(* the areas of the surfaces of room i *)
Definition surfaces (i : Z) (bds : list bdict) : list R :=
  flat_map (fun b => match connected_room_id b, BoundaryDict.area b with
                     | Some k, Some a => if (k =? i)%Z then [a] else [] | _, _ => [] end) bds.
(* fsolve finds a zero of the function it is given, for every room *)
Definition solver_works (f_ver : list R -> R) (d : house_in) : Prop :=
  forall bds i, h_boundaries d = Some bds -> surfaces i bds <> [] ->
  let rs := ratios (surfaces i bds) in f_ver rs <> 0 /\ residual rs (f_ver rs) = 0.

(* The sun has an azimuth at every step, and never stands exactly in the plane of a wall with a sunshade. *)
Definition sensible_weather (ws : list wstep) (d : house_in) : Prop :=
  Forall (fun w => exists a, a_sun w = Some a /\
    forall bds b p dir al be, h_boundaries d = Some bds -> In b bds -> solar_shading_part b = Some p -> existence p = true ->
    BoundaryDict.direction b = Some dir -> get_w_alpha_j_w_beta_j dir = Ok (al, be) -> 0 < h_sun w -> cos (a - al) <> 0) ws.
