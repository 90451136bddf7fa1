From Coq Require Import Reals List String ZArith Lra.
From Verif Require Import Model.Py Model.BoundaryDict Model.SolarShading Model.BoundarySimple Model.HouseDict Model.Initializer Model.ReadHouse Model.FactorH
  Spec.HouseSpec Lemmas.SolarSumL Lemmas.WeightsL Examples.MakeHouseEx.
Import ListNotations.
Local Open Scope R_scope.

(* C31: the weights of the outdoor and of the rear surface temperature. The full property (they always add up to one) is
   false; this part says when it holds. round1 is Python's round(x, 1). *)

(* a boundary with an outside and temperature difference coefficient h <= 1: exactly if h has at most one decimal *)
Theorem C31_outside_partial : forall round1 ws bds bss rooms out j b d t h,
  to_nearest_tenth round1 ->
  mapM (get_boundary_simple ws) bds = Ok bss -> make_boundaries round1 bss rooms bds = Ok out ->
  nth_error bds j = Some b -> nth_error out j = Some d ->
  BoundaryDict.boundary_type b = Some t -> is_external t = true -> temp_dif_coef b = Some h -> h <= 1 ->
  (bd_k_outside d + rear_weight (bd_k_inside d) = 1 <-> tenths h).
Proof. exact external_sum. Qed.
Print Assumptions C31_outside_partial.

(* otherwise the sum is off by at most 0.05 *)
Theorem C31_off_by : forall round1 ws bds bss rooms out j b d t h,
  to_nearest_tenth round1 ->
  mapM (get_boundary_simple ws) bds = Ok bss -> make_boundaries round1 bss rooms bds = Ok out ->
  nth_error bds j = Some b -> nth_error out j = Some d ->
  BoundaryDict.boundary_type b = Some t -> is_external t = true -> temp_dif_coef b = Some h -> h <= 1 ->
  Rabs (1 - (bd_k_outside d + rear_weight (bd_k_inside d))) <= 1 / 20.
Proof. exact external_near. Qed.
Print Assumptions C31_off_by.

(* an inner wall: all weight on the given rear surface *)
Theorem C31_inner : forall round1 ws bds bss rooms out j b d,
  mapM (get_boundary_simple ws) bds = Ok bss -> make_boundaries round1 bss rooms bds = Ok out ->
  nth_error bds j = Some b -> nth_error out j = Some d ->
  BoundaryDict.boundary_type b = Some "internal"%string ->
  bd_k_outside d = 0 /\ exists k, BoundaryDict.rear_surface_boundary_id b = Some k /\ bd_k_inside d = Some (k, 1).
Proof. exact internal_weights. Qed.
Print Assumptions C31_inner.

(* a floor on the ground has no weights at all *)
Theorem C31_ground : forall round1 ws bds bss rooms out j b d,
  mapM (get_boundary_simple ws) bds = Ok bss -> make_boundaries round1 bss rooms bds = Ok out ->
  nth_error bds j = Some b -> nth_error out j = Some d ->
  BoundaryDict.boundary_type b = Some "ground"%string ->
  bd_k_outside d = 0 /\ bd_k_inside d = None.
Proof. exact ground_weights. Qed.
Print Assumptions C31_ground.

(* of the coefficients the program itself assigns, exactly those for conditioned rooms and closed underfloor spaces
   (0.05 and 0.15) have two decimals *)
Theorem C31_own_coefficients : forall s region h, get_h s region = Ok h -> 0 < h <= 1 /\ (tenths h <-> s <> AIR_CONDITIONED /\ s <> CLOSED_UNDERFLOOR).
Proof. intros s region h H; split; [exact (get_h_range s region h H)|exact (tenths_get_h s region h H)]. Qed.
Print Assumptions C31_own_coefficients.

(* the core keeps the weights: the row of a boundary has the outdoor weight and puts the rear weight at the rear surface *)
Theorem C31_core : forall inv n bs cb j d, read_boundaries inv n bs = Ok cb -> nth_error bs j = Some d ->
  exists row, nth_error (cb_k_ei cb) j = Some row /\ nth_error (cb_k_eo cb) j = Some (bd_k_outside d) /\ List.length row = List.length bs /\
  total row = rear_weight (bd_k_inside d) /\
  (forall k c, bd_k_inside d = Some (k, c) -> (0 <= k)%Z -> forall i, (i < List.length bs)%nat -> nth i row 0 = if (Z.of_nat i =? k)%Z then c else 0).
Proof. exact core_row. Qed.
Print Assumptions C31_core.

(* a wall to a conditioned neighbour in region 6 (coefficient 0.15) *)
Theorem C31_refuted : exists ws bds bss rooms j b h,
  get_h AIR_CONDITIONED 6 = Ok h /\ nth_error bds j = Some b /\ BoundaryDict.boundary_type b = Some "external_general_part"%string /\ temp_dif_coef b = Some h /\
  mapM (get_boundary_simple ws) bds = Ok bss /\
  forall round1, to_nearest_tenth round1 -> exists out d,
  make_boundaries round1 bss rooms bds = Ok out /\ nth_error out j = Some d /\ bd_k_outside d + rear_weight (bd_k_inside d) <> 1.
Proof.
destruct (ex_wall_written (15 / 100)) as [bss [M G]].
exists ex_weather, [ex_floor; ex_wall (15 / 100); ex_window 0], bss, [ex_room ex_cooling], 1%nat, (ex_wall (15 / 100)), (15 / 100).
repeat (split; [reflexivity || exact M|]); intros round1 N; destruct (G round1) as [out [d [O Ed]]].
exists out, d; split; [exact O|]; split; [exact Ed|]; intro S.
assert (X := proj1 (external_sum round1 _ _ _ _ _ 1%nat (ex_wall (15 / 100)) d "external_general_part" (15 / 100) N M O eq_refl Ed eq_refl eq_refl eq_refl ltac:(lra)) S).
apply (tenths_get_h AIR_CONDITIONED 6) in X; [destruct X as [X _]; congruence|reflexivity].
Qed.
Print Assumptions C31_refuted.

Example C31_example : exists round1, to_nearest_tenth round1.
Proof.
exists (fun x => IZR (up (10 * x - 1 / 2)) / 10); intro x; exists (up (10 * x - 1 / 2)); split; [reflexivity|].
destruct (archimed (10 * x - 1 / 2)) as [A B]; apply Rabs_le; split; lra.
Qed.

(* a wall to a closed space (coefficient 0.7) *)
Example C31_example2 : exists bss, mapM (get_boundary_simple ex_weather) [ex_floor; ex_wall (7 / 10); ex_window 0] = Ok bss /\
  forall round1, to_nearest_tenth round1 -> exists out d,
  make_boundaries round1 bss [ex_room ex_cooling] [ex_floor; ex_wall (7 / 10); ex_window 0] = Ok out /\ nth_error out 1 = Some d /\
  bd_k_outside d + rear_weight (bd_k_inside d) = 1.
Proof.
destruct (ex_wall_written (7 / 10)) as [bss [M G]]; exists bss; split; [exact M|]; intros round1 N; destruct (G round1) as [out [d [O Ed]]].
exists out, d; split; [exact O|]; split; [exact Ed|].
refine (proj2 (external_sum round1 _ _ _ _ _ 1%nat (ex_wall (7 / 10)) d "external_general_part" (7 / 10) N M O eq_refl Ed eq_refl eq_refl eq_refl _) _); [lra|].
exists 7%Z; reflexivity.
Qed.
