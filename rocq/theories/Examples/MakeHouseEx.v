(* A small house: one room with a floor on the ground, a wall and a roof window; the window is said to belong to room w,
   and the wall has the temperature difference coefficient h. *)
From Coq Require Import Reals List String ZArith Bool Lra Lia.
From Verif Require Import Model.Py Model.Trig Model.BoundaryDict Model.Inclined Model.SolarShading Model.Transmission Model.OutsideEqvTemp
  Model.BoundarySimple Model.ResponseFactor Model.HouseDict Model.Residents Model.Schedule Model.Initializer Model.ReadHouse
  Spec.HouseholdSpec Spec.HouseSpec Spec.CompleteSpec
  Lemmas.PyL Lemmas.CoreLoopL Lemmas.ScheduleL Lemmas.VentL Lemmas.RoomsL Lemmas.BoundariesL Lemmas.WeightsL Lemmas.MakeHouseL Lemmas.SolarSumL.
Import ListNotations.
Local Open Scope R_scope.

Definition no_shade : shading_dict := {| existence := false; input_method := None; depth := None; d_h := None; d_e := None |}.

Definition ex_floor : bdict := {|
  b_id := Some 0%Z; b_name := Some "floor"%string; connected_room_id := Some 0%Z; boundary_type := Some "ground"%string; area := Some 20;
  is_sun_striked_outside := None; temp_dif_coef := None; next_room_type := None; rear_surface_boundary_id := None;
  is_solar_absorbed_inside := Some true; is_floor := Some true; direction := None; inside_heat_transfer_resistance := Some (15 / 100);
  h_c := Some 1; solar_shading_part := Some no_shade; outside_solar_absorption := None; outside_emissivity := None;
  outside_heat_transfer_resistance := None; incident_angle_characteristics := None; eta_value := None;
  layers := Some [{| thermal_capacity := 10; thermal_resistance := 1 |}]; u_value := None |}.

Definition ex_wall (h : R) : bdict := {|
  b_id := Some 1%Z; b_name := Some "wall"%string; connected_room_id := Some 0%Z; boundary_type := Some "external_general_part"%string;
  area := Some 30; is_sun_striked_outside := Some false; temp_dif_coef := Some h; next_room_type := None; rear_surface_boundary_id := None;
  is_solar_absorbed_inside := Some false; is_floor := Some false; direction := None; inside_heat_transfer_resistance := Some (11 / 100);
  h_c := Some 2; solar_shading_part := Some no_shade; outside_solar_absorption := None; outside_emissivity := None;
  outside_heat_transfer_resistance := Some (4 / 100); incident_angle_characteristics := None; eta_value := None;
  layers := Some [{| thermal_capacity := 20; thermal_resistance := 2 |}]; u_value := None |}.

Definition ex_window (w : Z) : bdict := {|
  b_id := Some 2%Z; b_name := Some "window"%string; connected_room_id := Some w; boundary_type := Some "external_transparent_part"%string;
  area := Some 2; is_sun_striked_outside := Some true; temp_dif_coef := Some 1; next_room_type := None; rear_surface_boundary_id := None;
  is_solar_absorbed_inside := Some false; is_floor := Some false; direction := Some "top"%string;
  inside_heat_transfer_resistance := Some (11 / 100); h_c := Some 5; solar_shading_part := Some no_shade; outside_solar_absorption := None;
  outside_emissivity := Some (9 / 10); outside_heat_transfer_resistance := Some (4 / 100);
  incident_angle_characteristics := Some "single"%string; eta_value := Some (1 / 2); layers := None; u_value := Some 3 |}.

Definition ex_cooling : equip_in := {| e_type := Some "convective"%string;
  e_convective := Some {| ci_q_min := Some 500; ci_q_max := Some 2200; ci_v_min := Some 12; ci_v_max := Some 21 |}; e_radiative := None |}.
Definition ex_floor_heating : equip_in := {| e_type := Some "radiative"%string; e_convective := None;
  e_radiative := Some {| ri_max_capacity := Some 100; ri_area := Some 10 |} |}.
Definition ex_no_equipment : equip_in := {| e_type := Some "not_installed"%string; e_convective := None; e_radiative := None |}.

Definition ex_room (cooling : equip_in) : room_in := {|
  r_id := Some 0%Z; r_name := Some "main_occupant_room"%string; r_room_type := Some "main_occupant_room"%string; r_volume := Some 48; r_vent := Some 36;
  r_next_vent := Some [{| upstream_room_id := Some 0%Z; v_volume := Some 72 |}]; r_natural_vent_time := Some 5; r_heating := Some ex_floor_heating;
  r_cooling := Some cooling; r_floor_area := Some 20 |}.

Definition ex_house (cooling : equip_in) (h : R) (w : Z) : house_in := {|
  h_rooms := Some [ex_room cooling]; h_boundaries := Some [ex_floor; ex_wall h; ex_window w];
  h_building := Some {| story := Some 2%Z; c_value := Some 1; inside_pressure := Some "balanced"%string |} |}.

Definition ex_step : wstep := {| theta_o := 5; i_dn := 0; i_sky := 100; r_n := 50; h_sun := 0; a_sun := Some 0 |}.
Definition ex_weather : list wstep := repeat ex_step year.

Lemma ex_valid : valid_rooms [0%Z] ["main_occupant_room"%string].
Proof.
split; [reflexivity|]; split; [intros t [<-|[]]; left; reflexivity|]; split; [reflexivity|].
intros t _; cbn [count_occ]; destruct (string_dec "main_occupant_room" t); lia.
Qed.

Lemma ex_room_complete c : complete_equipment c -> complete_room 1 (ex_room c).
Proof.
intro C; unfold complete_room, ex_room, given; simpl; repeat (split; [eexists; reflexivity|]); split.
- eexists; split; [reflexivity|]; intros p [<-|[]]; simpl; exists 0%Z, 72; repeat split; lia.
- split; [|exists c; split; [reflexivity|exact C]]; eexists; split; [reflexivity|]; right; right; split; [reflexivity|].
  eexists; split; [reflexivity|]; split; eexists; reflexivity.
Qed.

Lemma ex_boundaries_complete h w : Forall complete_boundary [ex_floor; ex_wall h; ex_window w].
Proof.
assert (N1 : 15 / 100 <> 0) by lra; assert (N2 : 11 / 100 <> 0) by lra.
apply Forall_cons; [|apply Forall_cons; [|apply Forall_cons; [|apply Forall_nil]]]; unfold complete_boundary, given; simpl; repeat (split; [eexists; reflexivity|]).
- split; [eexists; split; [reflexivity|exact N1]|]; split; [eexists; reflexivity|].
  eexists; split; [reflexivity|]; right; left; split; [reflexivity|]; split; [discriminate|eexists; reflexivity].
- split; [eexists; split; [reflexivity|exact N2]|]; split; [eexists; reflexivity|].
  eexists; split; [reflexivity|]; right; right; left; split; [reflexivity|]; split.
  + split; [eexists; reflexivity|]; exists false; split; [reflexivity|discriminate].
  + split; eexists; reflexivity.
- split; [eexists; split; [reflexivity|exact N2]|]; split; [eexists; reflexivity|].
  eexists; split; [reflexivity|]; right; right; right; left; split; [reflexivity|]; split; [|eexists; reflexivity].
  split; [eexists; reflexivity|]; exists true; split; [reflexivity|]; intros _.
  split; [exists "top"%string; split; [reflexivity|simpl; tauto]|]; split; [eexists; reflexivity|]; split; [eexists; reflexivity|].
  split; [eexists; split; [reflexivity|discriminate]|]; split; [congruence|]; intros _; split; [eexists; reflexivity|left; reflexivity].
Qed.

Lemma ex_complete c h w : complete_equipment c -> complete_house (ex_house c h w).
Proof.
intro C; exists [ex_room c], [ex_floor; ex_wall h; ex_window w], {| story := Some 2%Z; c_value := Some 1; inside_pressure := Some "balanced"%string |}, [0%Z], ["main_occupant_room"%string].
do 5 (split; [reflexivity|]); split; [apply ex_valid|]; split; [apply Forall_cons; [apply ex_room_complete, C|apply Forall_nil]|].
split; [intros r [<-|[]]; exists 20; reflexivity|]; split; [apply ex_boundaries_complete|]; split.
- split; [right; reflexivity|]; split; [exists 1; reflexivity|right; right; reflexivity].
- intros i [<-|[]]; exists ex_floor; split; [left; reflexivity|reflexivity].
Qed.

Lemma ex_cooling_complete : complete_equipment ex_cooling.
Proof. right; left; split; [reflexivity|]; eexists; split; [reflexivity|]; repeat split; eexists; reflexivity. Qed.
Lemma ex_floor_heating_complete : complete_equipment ex_floor_heating.
Proof. right; right; split; [reflexivity|]; eexists; split; [reflexivity|]; repeat split; eexists; reflexivity. Qed.
Lemma ex_none_complete : complete_equipment ex_no_equipment.
Proof. left; reflexivity. Qed.

Lemma ex_house_made round1 c h w : complete_equipment c -> exists m, make_house round1 cook_tables cook_calendar ex_weather (ex_house c h w) = Ok m.
Proof. intro C; apply house_total; [intros; apply cook_complete|apply repeat_length|apply repeat_length|apply ex_complete, C]. Qed.

(* the sun through the window: 90 W at every step *)
Lemma ex_window_sun : exists x, get_qgt_n "top" 2 NotShaded "single" (1 / 2) ex_step = Ok (Some x) /\ x = 90.
Proof.
unfold get_qgt_n; cbn -[radians get_i_is_j_n get_theta_aoi_j_n tau_single cos Rplus Rmult Rminus Rdiv].
assert (T : exists t, get_theta_aoi_j_n 0 (Some 0) (radians 0) (radians 0) = Some t).
{ unfold get_theta_aoi_j_n; rewrite cos_0; destruct (Req_EM_T 1 0) as [|_]; [lra|]; cbn [obind].
  assert (Z : radians 0 = 0) by (unfold radians; field).
  rewrite Z, sin_0, cos_0; unfold arccos; rewrite Rmax_right by lra.
  destruct (Rle_dec _ _) as [_|N]; [|exfalso; apply N; lra]; destruct (Rle_dec _ _) as [_|N]; [|exfalso; apply N; lra]; eauto. }
destruct T as [t T]; unfold get_i_is_j_n; rewrite T; cbn -[tau_single cos radians Rplus Rmult Rminus Rdiv].
eexists; split; [reflexivity|].
assert (Z : radians 0 = 0) by (unfold radians; field).
unfold get_i_is_sky_j_n, get_i_is_ref_j_n, get_f_gnd_j, get_f_sky_j, get_rho_gnd; rewrite Z, cos_0; field.
Qed.

Lemma ok_inj A (a b : A) : Ok a = Ok b -> a = b.
Proof. congruence. Qed.

Lemma nth_zeros_row t n : (t < n)%nat -> nth t (repeat (Some 0) n) None = Some 0.
Proof. intro L; rewrite nth_indep with (d' := Some 0) by (rewrite repeat_length; exact L); apply nth_repeat. Qed.

Lemma no_sun ws b bs : get_boundary_simple ws b = Ok bs -> (forall s, create_transmission b s = Ok NotTransmitting) -> nth 0 (bs_q_trs_sol bs) None = Some 0.
Proof.
intros B N; destruct (simple_solar _ _ _ B) as [s [tr [_ [T Q]]]]; rewrite N in T; apply ok_inj in T; rewrite <- T in Q.
unfold get_qgt in Q; apply ok_inj in Q; rewrite <- Q; apply nth_zeros_row; apply Nat.ltb_lt; reflexivity.
Qed.

Lemma ex_solar round1 tbl cal ws c h w m bss : nth_error ws 0 = Some ex_step ->
  make_house round1 tbl cal ws (ex_house c h w) = Ok m ->
  mapM (get_boundary_simple ws) [ex_floor; ex_wall h; ex_window w] = Ok bss ->
  sum_at 0 (map bs_q_trs_sol bss) 90 /\ sum_at 0 (m_q_trs_sol m) (if (w =? 0)%Z then 90 else 0).
Proof.
intros C H M; destruct (house_solar _ _ _ _ _ _ H) as [rooms [bds [bss' [E1 [E2 [E3 G]]]]]].
cbn [h_rooms h_boundaries ex_house] in E1, E2; injection E1 as <-; injection E2 as <-; rewrite M in E3; injection E3 as <-.
cbn [mapM] in M.
apply bind_ok in M; destruct M as [b1 [B1 M]]; apply bind_ok in M; destruct M as [l1 [M1 M]]; injection M as <-.
apply bind_ok in M1; destruct M1 as [b2 [B2 M]]; apply bind_ok in M; destruct M as [l2 [M2 M]]; injection M as <-.
apply bind_ok in M2; destruct M2 as [b3 [B3 M]]; apply bind_ok in M; destruct M as [l3 [M3 M]]; injection M as <-; injection M3 as <-.
assert (Q1 : nth 0 (bs_q_trs_sol b1) None = Some 0) by (apply (no_sun _ _ _ B1); reflexivity).
assert (Q2 : nth 0 (bs_q_trs_sol b2) None = Some 0) by (apply (no_sun _ _ _ B2); reflexivity).
assert (Q3 : nth 0 (bs_q_trs_sol b3) None = Some 90).
{ destruct (simple_solar _ _ _ B3) as [s [tr [S [T Q]]]]; change (create_shading (ex_window w)) with (Ok NotShaded) in S; apply ok_inj in S; rewrite <- S in T.
  change (create_transmission (ex_window w) NotShaded) with (Ok (SunStrike "top" 2 NotShaded "single" (1 / 2))) in T; apply ok_inj in T; rewrite <- T in Q.
  unfold get_qgt in Q; destruct (mapM_ok _ _ _ _ _ Q) as [_ N]; destruct (N 0%nat ex_step) as [y [Y J]].
  - exact C.
  - destruct ex_window_sun as [x [X Ex]]; rewrite X in Y; apply ok_inj in Y; rewrite Ex in Y; rewrite <- Y in J; apply nth_error_nth with (d := None) in J; exact J. }
assert (I1 : bs_connected_room_id b1 = 0%Z) by (destruct (simple_fields _ _ _ B1) as [_ [E _]]; cbn in E; congruence).
assert (I2 : bs_connected_room_id b2 = 0%Z) by (destruct (simple_fields _ _ _ B2) as [_ [E _]]; cbn in E; congruence).
assert (I3 : bs_connected_room_id b3 = w) by (destruct (simple_fields _ _ _ B3) as [_ [E _]]; cbn in E; congruence).
split.
- unfold sum_at; cbn [map adds_up_to]; rewrite Q1, Q2, Q3; exists 90; split; [|lra]; exists 90; split; [|lra]; exists 0; split; [reflexivity|lra].
- apply G; unfold sum_at; cbn [List.length filter]; unfold below; rewrite I1, I2, I3; cbn [Z.leb Z.ltb Z.compare andb Z.of_nat Pos.of_succ_nat].
  destruct (Z.eqb_spec w 0) as [->|N].
  + cbn [Z.leb Z.ltb Z.compare andb map adds_up_to]; rewrite Q1, Q2, Q3; exists 90; split; [|lra]; exists 90; split; [|lra]; exists 0; split; [reflexivity|lra].
  + replace ((0 <=? w)%Z && (w <? 1)%Z) with false.
    2:{ destruct (Z.leb_spec 0 w); destruct (Z.ltb_spec w 1); try reflexivity; lia. }
    cbn [map adds_up_to]; rewrite Q1, Q2; exists 0; split; [|lra]; exists 0; split; [reflexivity|lra].
Qed.

Lemma ex_weather_start : nth_error ex_weather 0 = Some ex_step.
Proof. apply nth_error_repeat; apply Nat.ltb_lt; reflexivity. Qed.

(* what is written for the wall *)
Lemma ex_wall_written h : exists bss, mapM (get_boundary_simple ex_weather) [ex_floor; ex_wall h; ex_window 0] = Ok bss /\
  forall round1, exists out d, make_boundaries round1 bss [ex_room ex_cooling] [ex_floor; ex_wall h; ex_window 0] = Ok out /\ nth_error out 1 = Some d.
Proof.
destruct (ex_house_made (fun x => x) ex_cooling h 0 ex_cooling_complete) as [m0 H0].
destruct (house_parts _ _ _ _ _ _ H0) as [rooms [bds' [bss [E1 [E2 [M _]]]]]]; cbn in E1, E2; injection E1 as <-; injection E2 as <-.
exists bss; split; [exact M|]; intro round1.
destruct (ex_house_made round1 ex_cooling h 0 ex_cooling_complete) as [m H].
destruct (house_parts _ _ _ _ _ _ H) as [rooms' [bds' [bss' [E1 [E2 [M' [_ [_ [O _]]]]]]]]]; cbn in E1, E2; injection E1 as <-; injection E2 as <-.
rewrite M in M'; injection M' as <-.
assert (L := boundaries_ok _ _ _ _ _ O); destruct L as [_ [_ [_ [_ [_ [_ [L _]]]]]]].
assert (Lb := mapM_length _ _ _ _ _ M).
destruct (nth_error (m_boundaries m) 1) as [d|] eqn:Ed; [exists (m_boundaries m), d; auto|].
apply nth_error_None in Ed; rewrite L, Lb in Ed; cbn in Ed; lia.
Qed.
