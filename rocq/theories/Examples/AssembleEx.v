(* a hut: one room with floor heating and an air conditioner for cooling, a floor and a roof window of the same size *)
From Coq Require Import Reals List String ZArith Bool Lra Lia.
From Verif Require Import Model.Py Model.BoundaryDict Model.ResponseFactor Model.HouseDict Model.Schedule Model.ShapeFactor
  Spec.HouseholdSpec Spec.HouseSpec Spec.CompleteSpec Spec.SensibleSpec Lemmas.ScheduleL Lemmas.MakeHouseL Examples.MakeHouseEx.
Import ListNotations.
Local Open Scope R_scope.

Definition hut_floor : bdict := {|
  b_id := Some 0%Z; b_name := Some "floor"%string; connected_room_id := Some 0%Z; boundary_type := Some "external_opaque_part"%string; area := Some 20;
  is_sun_striked_outside := Some false; temp_dif_coef := Some (7 / 10); next_room_type := None; rear_surface_boundary_id := None;
  is_solar_absorbed_inside := Some true; is_floor := Some true; direction := None; inside_heat_transfer_resistance := Some (15 / 100);
  h_c := Some 1; solar_shading_part := Some no_shade; outside_solar_absorption := None; outside_emissivity := None;
  outside_heat_transfer_resistance := None; incident_angle_characteristics := None; eta_value := None; layers := None; u_value := Some 1 |}.
Definition hut_window : bdict := {|
  b_id := Some 1%Z; b_name := Some "window"%string; connected_room_id := Some 0%Z; boundary_type := Some "external_transparent_part"%string;
  area := Some 20; is_sun_striked_outside := Some true; temp_dif_coef := Some 1; next_room_type := None; rear_surface_boundary_id := None;
  is_solar_absorbed_inside := Some false; is_floor := Some false; direction := Some "top"%string;
  inside_heat_transfer_resistance := Some (11 / 100); h_c := Some 5; solar_shading_part := Some no_shade; outside_solar_absorption := None;
  outside_emissivity := Some (9 / 10); outside_heat_transfer_resistance := Some (4 / 100);
  incident_angle_characteristics := Some "single"%string; eta_value := Some (1 / 2); layers := None; u_value := Some 3 |}.
Definition hut : house_in := {|
  h_rooms := Some [ex_room ex_cooling]; h_boundaries := Some [hut_floor; hut_window];
  h_building := Some {| story := Some 2%Z; c_value := Some 1; inside_pressure := Some "balanced"%string |} |}.

Lemma hut_complete : complete_house hut.
Proof.
assert (N1 : 15 / 100 <> 0) by lra; assert (N2 : 11 / 100 <> 0) by lra.
exists [ex_room ex_cooling], [hut_floor; hut_window], {| story := Some 2%Z; c_value := Some 1; inside_pressure := Some "balanced"%string |}, [0%Z], ["main_occupant_room"%string].
do 5 (split; [reflexivity|]); split; [apply ex_valid|]; split; [apply Forall_cons; [apply ex_room_complete, ex_cooling_complete|apply Forall_nil]|].
split; [intros r [<-|[]]; exists 20; reflexivity|]; split.
{ apply Forall_cons; [|apply Forall_cons; [|apply Forall_nil]]; unfold complete_boundary, given; simpl; repeat (split; [eexists; reflexivity|]).
  - split; [eexists; split; [reflexivity|exact N1]|]; split; [eexists; reflexivity|].
    eexists; split; [reflexivity|]; right; right; right; right; split; [reflexivity|]; split; [|eexists; reflexivity].
    split; [eexists; reflexivity|]; exists false; split; [reflexivity|discriminate].
  - split; [eexists; split; [reflexivity|exact N2]|]; split; [eexists; reflexivity|].
    eexists; split; [reflexivity|]; right; right; right; left; split; [reflexivity|]; split; [|eexists; reflexivity].
    split; [eexists; reflexivity|]; exists true; split; [reflexivity|]; intros _.
    split; [exists "top"%string; split; [reflexivity|simpl; tauto]|]; split; [eexists; reflexivity|]; split; [eexists; reflexivity|].
    split; [eexists; split; [reflexivity|discriminate]|]; split; [congruence|]; intros _; split; [eexists; reflexivity|left; reflexivity]. }
split.
- split; [right; reflexivity|]; split; [exists 1; reflexivity|right; right; reflexivity].
- intros i [<-|[]]; exists hut_floor; split; [left; reflexivity|reflexivity].
Qed.

Lemma hut_sensible inv : sensible_house inv hut.
Proof.
intros rooms bds E1 E2; injection E1 as <-; injection E2 as <-; split; [|split].
- apply Forall_cons; [|apply Forall_nil]; constructor; cbn.
  + intros v E; injection E as <-; lra.
  + intros v E; injection E as <-; lra.
  + intros v E; injection E as <-; lra.
  + intros l p v E I V; injection E as <-; destruct I as [<-|[]]; injection V as <-; lra.
  + intros l v E E'; injection E as <-; injection E' as <-; unfold inflow; cbn; lra.
  + exists ex_cooling, 500, 2200, 12, 21; repeat split; try lra.
  + intros e m a E [T F]; injection E as <-; injection F as <- <-; lra.
- intros [|[|[|j]]] b E; cbn in E; try discriminate; injection E as <-; constructor; cbn;
    try reflexivity; try (intros x E; injection E as <-; lra || lia); try (intros x E; discriminate E);
    intros t E; injection E as <-; cbn; (split; [intros [F|F]; discriminate F|split; [discriminate|]]);
    intros _ u r E1 E2; injection E1 as <-; injection E2 as <-; split; lra.
- intros i fl I; cbn in I; assert (i = 0%Z) as -> by lia; destruct fl; [exists hut_floor|exists hut_window]; cbn; auto.
Qed.

Lemma hut_solver : solver_works (fun _ => 2) hut.
Proof.
intros bds i E; injection E as <-; unfold surfaces; cbn [flat_map connected_room_id area hut_floor hut_window].
destruct (0 =? i)%Z; cbn [app]; [|intro N; exfalso; apply N; reflexivity]; intros _; split; [lra|].
unfold residual, ratios, sumR, f_j; cbn.
assert (Z : 1 - 4 * (20 / (20 + (20 + 0))) / 2 = 0) by field; rewrite Z, Rabs_R0, sqrt_0; lra.
Qed.

Lemma hut_weather : sensible_weather ex_weather hut.
Proof.
apply Forall_forall; intros w I; apply repeat_spec in I; subst w; exists 0; split; [reflexivity|].
intros bds b p dir al be E I P X; injection E as <-; destruct I as [<-|[<-|[]]]; injection P as <-; discriminate X.
Qed.

Lemma cook_sensible : sensible_tables cook_tables cook_calendar.
Proof.
split.
- apply Forall_forall; intros x I; apply repeat_spec in I; subst; left; reflexivity.
- intros room day m t x [l [E N]]; assert (X : l = repeat 0 96) by (unfold cook_tables in E; cbn [String.eqb Ascii.eqb Bool.eqb] in E; congruence).
  rewrite X in N; apply nth_error_In, repeat_spec in N; subst; lra.
Qed.
