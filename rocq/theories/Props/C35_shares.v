From Coq Require Import Reals List String ZArith Lra Lia.
From Verif Require Import Model.Py Model.BoundaryDict Model.BoundarySimple Model.HouseDict Model.Initializer
  Spec.HouseSpec Lemmas.BoundariesL Lemmas.SharesL Lemmas.SolarSumL Examples.MakeHouseEx.
Import ListNotations.
Local Open Scope R_scope.

(* C35: the occupants' view factors of a room with floor area and other area (both not 0).
   Missing for the full property: rooms without floor, rooms with nothing but floor, see the refutations. *)
Theorem C35_view_factors_partial : forall round1 bss rooms bds out i,
  make_boundaries round1 bss rooms bds = Ok out -> (0 <= i < Z.of_nat (List.length rooms))%Z ->
  floor_area (parts i bss) <> 0 -> other_area (parts i bss) <> 0 ->
  adds_up_to (map bd_f_mrt_hum (of_room i out)) 1.
Proof. exact view_factors. Qed.
Print Assumptions C35_view_factors_partial.

(* without a floor they add up to 0.55, with nothing but floor to 0.45 *)
Theorem C35_no_floor : forall round1 bss rooms bds out i,
  make_boundaries round1 bss rooms bds = Ok out -> (0 <= i < Z.of_nat (List.length rooms))%Z ->
  (forall bs, In bs (parts i bss) -> bs_is_floor bs = false) -> other_area (parts i bss) <> 0 ->
  adds_up_to (map bd_f_mrt_hum (of_room i out)) (55 / 100).
Proof. exact view_factors_no_floor. Qed.
Print Assumptions C35_no_floor.

Theorem C35_only_floor : forall round1 bss rooms bds out i,
  make_boundaries round1 bss rooms bds = Ok out -> (0 <= i < Z.of_nat (List.length rooms))%Z ->
  (forall bs, In bs (parts i bss) -> bs_is_floor bs = true) -> floor_area (parts i bss) <> 0 ->
  adds_up_to (map bd_f_mrt_hum (of_room i out)) (45 / 100).
Proof. exact view_factors_only_floor. Qed.
Print Assumptions C35_only_floor.

(* the shares of radiant heating *)
Theorem C35_radiant_partial : forall round1 bss rooms bds out i r e t,
  make_boundaries round1 bss rooms bds = Ok out ->
  nth_error rooms i = Some r -> r_heating r = Some e -> e_type e = Some t ->
  floor_area (parts (Z.of_nat i) bss) <> 0 ->
  adds_up_to (map bd_flr (of_room (Z.of_nat i) out)) (if (t =? "radiative")%string then 1 else 0).
Proof. exact radiant_shares. Qed.
Print Assumptions C35_radiant_partial.

(* each boundary's share is its part of the floor area *)
Theorem C35_radiant_each : forall round1 bss rooms bds out i r e t,
  make_boundaries round1 bss rooms bds = Ok out ->
  nth_error rooms i = Some r -> r_heating r = Some e -> e_type e = Some t ->
  floor_area (parts (Z.of_nat i) bss) <> 0 ->
  map bd_flr (of_room (Z.of_nat i) out) =
  map (fun bs => Some (if bs_is_floor bs then (if (t =? "radiative")%string then bs_area bs / floor_area (parts (Z.of_nat i) bss) else 0) else 0)) (parts (Z.of_nat i) bss).
Proof. exact radiant_each. Qed.
Print Assumptions C35_radiant_each.

(* a room without floor area has no usable shares at all, even without radiant heating *)
Theorem C35_radiant_undefined : forall round1 bss rooms bds out i d,
  make_boundaries round1 bss rooms bds = Ok out -> (0 <= i < Z.of_nat (List.length rooms))%Z ->
  floor_area (parts i bss) = 0 -> In d (of_room i out) -> bd_flr d = None.
Proof. exact radiant_undefined. Qed.
Print Assumptions C35_radiant_undefined.

(* a house whose only room has no floor *)
Theorem C35_refuted : exists bss rooms bds, forall round1, exists out,
  make_boundaries round1 bss rooms bds = Ok out /\ (List.length rooms = 1)%nat /\
  adds_up_to (map bd_f_mrt_hum (of_room 0 out)) (55 / 100) /\ exists d, In d (of_room 0 out) /\ bd_flr d = None.
Proof. exact no_floor_house. Qed.
Print Assumptions C35_refuted.

(* floor 20, wall 30 and window 2 of the example house *)
Example C35_example : forall round1, exists m, make_house round1 Lemmas.ScheduleL.cook_tables Lemmas.ScheduleL.cook_calendar ex_weather (ex_house ex_cooling 1 0) = Ok m /\
  adds_up_to (map bd_f_mrt_hum (of_room 0 (m_boundaries m))) 1 /\ adds_up_to (map bd_flr (of_room 0 (m_boundaries m))) 1.
Proof. exact example_shares. Qed.
