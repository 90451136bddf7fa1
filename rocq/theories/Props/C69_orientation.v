From Coq Require Import Reals ZArith List String Lra Lia.
From Verif Require Import Model.Py Model.FactorH Model.FactorNu Model.Trig Model.Inclined Model.Orientation Spec.OrientationSpec Lemmas.OrientationL.
Import ListNotations.
Local Open Scope R_scope.
Local Open Scope string_scope.

(* C69: the angles written for a direction are those the solar calculation uses; roofs and floors have no azimuth *)
Theorem C69_angles : forall d name, capital d = Some name ->
  exists a i w_alpha w_beta, get_directionangle name = Ok a /\ get_inclinationangle name = Ok (Some i) /\
    get_w_alpha_j_w_beta_j (direction_value d) = Ok (w_alpha, w_beta) /\ radians i = w_beta /\
    (a = None <-> ~ upright d) /\ forall x, a = Some x -> radians x = w_alpha.
Proof. exact angles_agree. Qed.
Print Assumptions C69_angles.

(* the temperature difference factors are those of the envelope calculation, in every region, known or not *)
Theorem C69_factor : forall place n region,
  (exists d, capital d = Some place) /\ n = OUTDOOR \/ place_name n = Some place -> get_tempdifferentfactor region place = get_h n region.
Proof. exact factor_agree. Qed.
Print Assumptions C69_factor.

(* a part facing the open air is written with its angles and the ground reflectance of the solar calculation *)
Theorem C69_outdoor : forall region d name, (1 <= region <= 8)%Z -> capital d = Some name ->
  exists a i, get_directionangle name = Ok a /\ get_inclinationangle name = Ok (Some i) /\
    get_boundary_for_outer_skin region "Outdoor" name = Ok (SkinOutdoor name a (Some i) get_rho_gnd).
Proof. exact skin_outdoor. Qed.
Print Assumptions C69_outdoor.

(* one facing another space with the factor of that space, whatever its direction *)
Theorem C69_space : forall region n name face, place_name n = Some name ->
  get_boundary_for_outer_skin region name face = bind (get_h n region) (fun h => Ok (SkinDelta face h)).
Proof. exact skin_space. Qed.
Print Assumptions C69_space.

(* unknown regions are rejected, even where no factor is written *)
Theorem C69_region : forall region next face, ~ (1 <= region <= 8)%Z -> exists er, get_boundary_for_outer_skin region next face = Err er /\ er = KeyError.
Proof. exact skin_region. Qed.
Print Assumptions C69_region.

(* the side from which heat enters the room surface follows the tilt *)
Theorem C69_side : forall d name, capital d = Some name -> exists s i, heat_flow_of name = Ok s /\ get_inclinationangle name = Ok (Some i) /\
  (s = "Downward" /\ i = 0 \/ s = "Vertical" /\ i = 90 \/ s = "Upward" /\ i = 180).
Proof. intros d name; destruct d; simpl; intro E; try discriminate E; injection E as <-; do 2 eexists; do 2 (split; [reflexivity|]); tauto. Qed.
Print Assumptions C69_side.

(* a space open to the outside has a factor but no name here *)
Theorem C69_open_space_refuted : place_name OPEN_SPACE = None /\ (exists h, get_h OPEN_SPACE 6 = Ok h) /\
  get_boundary_for_outer_skin 6 "OpenSpace" "N" = Err KeyError.
Proof. split; [reflexivity|split; [eexists; reflexivity|reflexivity]]. Qed.
Print Assumptions C69_open_space_refuted.

Example C69_example : capital DNW = Some "NW" /\ place_name CLOSED_UNDERFLOOR = Some "ClosedBackFloor" /\
  get_boundary_for_outer_skin 3 "ClosedBackFloor" "Bottom" = Ok (SkinDelta "Bottom" (5 / 100)) /\
  get_boundary_for_outer_skin 3 "Outdoor" "NW" = Ok (SkinOutdoor "NW" (Some 135) (Some 90) (1 / 10)).
Proof. repeat split. Qed.
