(* The initializer reads what the converter writes *)
From Coq Require Import Reals ZArith List String Bool Lra.
From Verif Require Import Model.Py Model.JsonValue Model.FactorH Model.FactorNu Model.FactorF Model.EesHouse Model.EesLayers Model.EesDict Model.EesInit.
From Verif Require Import Spec.InitDictSpec Lemmas.PyL Lemmas.WeightsL Lemmas.EesDictL.
From Verif Require Model.BoundaryDict Model.BoundarySimple Model.OutsideEqvTemp Model.SolarShading Model.Transmission Model.Inclined Model.Trig.
Import ListNotations.
Local Open Scope string_scope.

Lemma lookup_app k a b : lookup k (a ++ b)%list = match lookup k b with Some w => Some w | None => lookup k a end.
Proof. induction a as [|[k' v] a IH]; simpl; [destruct (lookup k b); reflexivity|]; rewrite IH; destruct (lookup k b); reflexivity. Qed.

Lemma mapM_forall2_eq A B (f : A -> res B) l r : mapM f l = Ok r -> Forall2 (fun a b => f a = Ok b) l r.
Proof.
revert r; induction l as [|a l IH]; simpl; intros r E; [injection E as <-; constructor|].
apply bind_ok in E; destruct E as (b & Eb & E); apply bind_ok in E; destruct E as (bs & Ebs & E); injection E as <-; constructor; auto.
Qed.

(* the boundary the initializer sees *)
Definition seen_layers (ls : list init_layer) : list BoundaryDict.layer :=
  map (fun l => {| BoundaryDict.thermal_capacity := il_c l; BoundaryDict.thermal_resistance := il_r l |}) ls.

Lemma layers_seen ls : mapM see_layer (map layer_value ls) = Ok (seen_layers ls).
Proof. induction ls as [|l ls IH]; simpl; [reflexivity|]; rewrite IH; reflexivity. Qed.

Definition seen_opaque (s : opaque_shade) : BoundaryDict.shading_dict :=
  match s with
  | OpInput _ => {| BoundaryDict.existence := true; BoundaryDict.input_method := Some "detailed"; BoundaryDict.depth := None; BoundaryDict.d_h := None; BoundaryDict.d_e := None |}
  | _ => {| BoundaryDict.existence := false; BoundaryDict.input_method := None; BoundaryDict.depth := None; BoundaryDict.d_h := None; BoundaryDict.d_e := None |}
  end.
Definition seen_window_shade (s : window_shade) : BoundaryDict.shading_dict :=
  match s with
  | TrNotDefined | TrNotExist => {| BoundaryDict.existence := false; BoundaryDict.input_method := None; BoundaryDict.depth := None; BoundaryDict.d_h := None; BoundaryDict.d_e := None |}
  | TrNotInput => {| BoundaryDict.existence := true; BoundaryDict.input_method := Some "default"; BoundaryDict.depth := None; BoundaryDict.d_h := None; BoundaryDict.d_e := None |}
  | TrSimple a b c => {| BoundaryDict.existence := true; BoundaryDict.input_method := Some "simple"; BoundaryDict.depth := Some a; BoundaryDict.d_h := Some b; BoundaryDict.d_e := Some c |}
  | TrDetail _ => {| BoundaryDict.existence := true; BoundaryDict.input_method := Some "detailed"; BoundaryDict.depth := None; BoundaryDict.d_h := None; BoundaryDict.d_e := None |}
  end.

Definition sun (e : envelope) : bool := get_is_sun_striked_outside (e_next_space e).

Lemma sun_outdoor e : sun e = true <-> e_next_space e = OUTDOOR.
Proof. unfold sun; destruct (e_next_space e); simpl; split; congruence. Qed.

Section parts.
Variables (id : Z) (floor : bool) (hc : R).

Definition seen_general (e : envelope) (t : gp_type) (s : opaque_shade) (r : Z) (h : R) (p : init_part) : BoundaryDict.bdict := {|
  BoundaryDict.b_id := Some id; BoundaryDict.b_name := Some (ip_name p); BoundaryDict.connected_room_id := Some r;
  BoundaryDict.boundary_type := Some "external_general_part"; BoundaryDict.area := Some (ip_area p);
  BoundaryDict.is_sun_striked_outside := Some (sun e); BoundaryDict.temp_dif_coef := Some h;
  BoundaryDict.next_room_type := None; BoundaryDict.rear_surface_boundary_id := None;
  BoundaryDict.is_solar_absorbed_inside := Some (is_floor_type t); BoundaryDict.is_floor := Some floor;
  BoundaryDict.direction := if sun e then Some (direction_value (e_direction e)) else None;
  BoundaryDict.inside_heat_transfer_resistance := Some (ip_r_in p); BoundaryDict.h_c := Some hc;
  BoundaryDict.solar_shading_part := Some (seen_opaque s);
  BoundaryDict.outside_solar_absorption := Some (8 / 10)%R; BoundaryDict.outside_emissivity := Some (9 / 10)%R;
  BoundaryDict.outside_heat_transfer_resistance := Some (ip_r_ex p);
  BoundaryDict.incident_angle_characteristics := None; BoundaryDict.eta_value := None;
  BoundaryDict.layers := Some (seen_layers (ip_layers p)); BoundaryDict.u_value := None |}.

Lemma see_general e t s r h region p v : env_h e region = Ok h -> general_part_entry e t s r region p = Ok v ->
  see_boundary (with_entries (missing id floor hc) v) = seen_general e t s r h p.
Proof.
unfold general_part_entry; intros -> E; cbn [bind] in E; injection E as <-; unfold seen_general, sun, direction_entry.
destruct e as [n ns dir a st]; cbn [e_next_space e_direction].
assert (LS : opt (bind (Ok (map layer_value (ip_layers p))) (mapM see_layer)) = Some (seen_layers (ip_layers p))) by (cbn [bind]; rewrite layers_seen; reflexivity).
rewrite <- LS; clear LS; destruct s as [| |k], ns; reflexivity.
Qed.

Definition seen_door (e : envelope) (s : opaque_shade) (u : R) (r : Z) (h : R) : BoundaryDict.bdict := {|
  BoundaryDict.b_id := Some id; BoundaryDict.b_name := Some (e_name e); BoundaryDict.connected_room_id := Some r;
  BoundaryDict.boundary_type := Some "external_opaque_part"; BoundaryDict.area := Some (e_area e);
  BoundaryDict.is_sun_striked_outside := Some (sun e); BoundaryDict.temp_dif_coef := Some h;
  BoundaryDict.next_room_type := None; BoundaryDict.rear_surface_boundary_id := None;
  BoundaryDict.is_solar_absorbed_inside := Some false; BoundaryDict.is_floor := Some floor;
  BoundaryDict.direction := Some (direction_value (e_direction e));
  BoundaryDict.inside_heat_transfer_resistance := Some (13 / 100)%R; BoundaryDict.h_c := Some hc;
  BoundaryDict.solar_shading_part := Some (seen_opaque s);
  BoundaryDict.outside_solar_absorption := Some (8 / 10)%R; BoundaryDict.outside_emissivity := Some (9 / 10)%R;
  BoundaryDict.outside_heat_transfer_resistance := Some (4 / 100)%R;
  BoundaryDict.incident_angle_characteristics := None; BoundaryDict.eta_value := None;
  BoundaryDict.layers := None; BoundaryDict.u_value := Some u |}.

Lemma see_door d r h region v : get_connected_id (e_space_type (d_env (d_ns d))) = Ok r -> env_h (d_env (d_ns d)) region = Ok h -> door_init region d = Ok v ->
  see_boundary (with_entries (missing id floor hc) v) = seen_door (d_env (d_ns d)) (d_shade (d_ns d)) (d_u d) r h.
Proof.
unfold door_init; intros -> -> E; cbn [bind] in E; injection E as <-; unfold seen_door, sun, direction_entry.
destruct d as [[[n ns dir a st] s] u]; cbn [d_env d_ns d_u d_shade e_next_space e_direction e_name e_area]; destruct s as [| |k], ns; reflexivity.
Qed.

Definition seen_window (e : envelope) (s : window_shade) (g : glass_type) (u eta : R) (r : Z) (h : R) : BoundaryDict.bdict := {|
  BoundaryDict.b_id := Some id; BoundaryDict.b_name := Some (e_name e); BoundaryDict.connected_room_id := Some r;
  BoundaryDict.boundary_type := Some "external_transparent_part"; BoundaryDict.area := Some (e_area e);
  BoundaryDict.is_sun_striked_outside := Some (sun e); BoundaryDict.temp_dif_coef := Some h;
  BoundaryDict.next_room_type := None; BoundaryDict.rear_surface_boundary_id := None;
  BoundaryDict.is_solar_absorbed_inside := Some false; BoundaryDict.is_floor := Some floor;
  BoundaryDict.direction := if sun e then Some (direction_value (e_direction e)) else None;
  BoundaryDict.inside_heat_transfer_resistance := Some (13 / 100)%R; BoundaryDict.h_c := Some hc;
  BoundaryDict.solar_shading_part := Some (seen_window_shade s);
  BoundaryDict.outside_solar_absorption := None; BoundaryDict.outside_emissivity := Some (9 / 10)%R;
  BoundaryDict.outside_heat_transfer_resistance := Some (4 / 100)%R;
  BoundaryDict.incident_angle_characteristics := Some (glass_value g); BoundaryDict.eta_value := Some eta;
  BoundaryDict.layers := None; BoundaryDict.u_value := Some u |}.

Lemma see_window w r room eta h region v : get_connected_id (e_space_type (w_env (w_ns w))) = Ok r -> env_h (w_env (w_ns w)) region = Ok h -> window_init region w = Ok v ->
  see_boundary (with_entries (missing_window id floor hc room eta) v) =
  seen_window (w_env (w_ns w)) (w_shade (w_ns w)) (ws_glass (w_spec w)) (ws_u (w_spec w)) eta room h.
Proof.
unfold window_init; intros -> -> E; cbn [bind] in E; injection E as <-; unfold seen_window, sun, direction_entry.
destruct w as [[[n ns dir a st] s] [u eh ec g f]]; cbn [w_env w_ns w_spec ws_glass ws_u ws_eta_d_h ws_eta_d_c w_shade e_next_space e_direction e_name e_area].
destruct s, ns; reflexivity.
Qed.
End parts.

(* directions *)
Lemma direction_known d : known_direction d -> exists ab, Inclined.get_w_alpha_j_w_beta_j (direction_value d) = Ok ab.
Proof. intros (A & B & C); destruct d; try congruence; eexists; reflexivity. Qed.

Lemma direction_unknown d : ~ known_direction d -> Inclined.get_w_alpha_j_w_beta_j (direction_value d) = Err KeyError.
Proof. intro N; destruct d; try reflexivity; destruct N; repeat split; discriminate. Qed.

Lemma known_dec d : {known_direction d} + {~ known_direction d}.
Proof. destruct d; solve [left; repeat split; discriminate|right; intros (A & B & C); congruence]. Qed.

Lemma mapM_all A B (f : A -> res B) l : (forall a, exists b, f a = Ok b) -> exists r, mapM f l = Ok r.
Proof. intro H; induction l as [|a l (r & IH)]; simpl; [eauto|]; destruct (H a) as (b & ->); simpl; rewrite IH; simpl; eauto. Qed.

Lemma mapM_none A B (f : A -> res B) e l : l <> [] -> (forall a, f a = Err e) -> mapM f l = Err e.
Proof. destruct l as [|a l]; [congruence|]; intros _ H; simpl; rewrite H; reflexivity. Qed.

(* opaque parts *)
Definition opaque_boundary (b : BoundaryDict.bdict) (t : string) (e : envelope) (s : opaque_shade) : Prop :=
  BoundaryDict.b_id b <> None /\ BoundaryDict.b_name b <> None /\ BoundaryDict.connected_room_id b <> None /\
  BoundaryDict.boundary_type b = Some t /\ (t = "external_general_part" \/ t = "external_opaque_part") /\
  BoundaryDict.area b <> None /\ BoundaryDict.is_sun_striked_outside b = Some (sun e) /\ BoundaryDict.temp_dif_coef b <> None /\
  BoundaryDict.is_solar_absorbed_inside b <> None /\ BoundaryDict.is_floor b <> None /\
  (sun e = true -> BoundaryDict.direction b = Some (direction_value (e_direction e))) /\ 
  (exists r, BoundaryDict.inside_heat_transfer_resistance b = Some r /\ r <> 0%R) /\ BoundaryDict.h_c b <> None /\
  BoundaryDict.solar_shading_part b = Some (seen_opaque s) /\ BoundaryDict.outside_solar_absorption b <> None /\
  BoundaryDict.outside_emissivity b <> None /\ BoundaryDict.outside_heat_transfer_resistance b <> None.

Lemma opaque_accepted b t e s ws : opaque_boundary b t e s -> ws <> [] ->
  ((exists bs, BoundarySimple.get_boundary_simple ws b = Ok bs) <-> fit_opaque e s).
Proof.
destruct b as [a1 a2 a3 a4 a5 a6 a7 a8 a9 a10 a11 a12 a13 a14 a15 a16 a17 a18 a19 a20 a21 a22].
intros (H1 & H2 & H3 & H4 & HT & H5 & H6 & H7 & H8 & H9 & H10 & (r & H11 & R0) & H12 & H13 & H14 & H15 & H16) W.
cbn [BoundaryDict.b_id BoundaryDict.b_name BoundaryDict.connected_room_id BoundaryDict.boundary_type BoundaryDict.area BoundaryDict.is_sun_striked_outside
     BoundaryDict.temp_dif_coef BoundaryDict.is_solar_absorbed_inside BoundaryDict.is_floor BoundaryDict.direction BoundaryDict.inside_heat_transfer_resistance
     BoundaryDict.h_c BoundaryDict.solar_shading_part BoundaryDict.outside_solar_absorption BoundaryDict.outside_emissivity BoundaryDict.outside_heat_transfer_resistance] in *.
subst a4 a6 a13 a15; destruct a1 as [a1|], a2 as [a2|], a3 as [a3|], a5 as [a5|], a7 as [a7|], a10 as [a10|], a11 as [a11|], a14 as [a14|], a16 as [a16|], a17 as [a17|], a18 as [a18|]; try congruence.
unfold fit_opaque; rewrite <- sun_outdoor.
assert (G : forall o, OutsideEqvTemp.create_oet
   {| BoundaryDict.b_id := Some a1; BoundaryDict.b_name := Some a2; BoundaryDict.connected_room_id := Some a3; BoundaryDict.boundary_type := Some t;
      BoundaryDict.area := Some a5; BoundaryDict.is_sun_striked_outside := Some (sun e); BoundaryDict.temp_dif_coef := Some a7;
      BoundaryDict.next_room_type := a8; BoundaryDict.rear_surface_boundary_id := a9; BoundaryDict.is_solar_absorbed_inside := Some a10;
      BoundaryDict.is_floor := Some a11; BoundaryDict.direction := a12; BoundaryDict.inside_heat_transfer_resistance := Some r;
      BoundaryDict.h_c := Some a14; BoundaryDict.solar_shading_part := Some (seen_opaque s); BoundaryDict.outside_solar_absorption := Some a16;
      BoundaryDict.outside_emissivity := Some a17; BoundaryDict.outside_heat_transfer_resistance := Some a18;
      BoundaryDict.incident_angle_characteristics := a19; BoundaryDict.eta_value := a20; BoundaryDict.layers := a21; BoundaryDict.u_value := a22 |} = o ->
   o = (if sun e then Ok (OutsideEqvTemp.OOpaque (direction_value (e_direction e)) a16 a17 a18) else Ok OutsideEqvTemp.ONotSun)).
{ intros o <-; unfold OutsideEqvTemp.create_oet; destruct HT as [-> | ->]; cbn; destruct (sun e); try reflexivity; rewrite H10 by reflexivity; reflexivity. }
specialize (G _ eq_refl); destruct (sun e) eqn:S.
- rewrite H10 in * by reflexivity; assert (F : (true = true -> known_direction (e_direction e) /\ match s with OpInput _ => False | _ => True end) <->
      known_direction (e_direction e) /\ match s with OpInput _ => False | _ => True end) by (split; auto).
  rewrite F; clear F; unfold BoundarySimple.get_boundary_simple; rewrite G.
  destruct HT as [-> | ->]; cbn -[Req_EM_T Inclined.get_w_alpha_j_w_beta_j seen_opaque Nat.mul]; destruct (Req_EM_T r 0) as [|_]; try contradiction;
  (destruct (known_dec (e_direction e)) as [K|K];
   [destruct (direction_known _ K) as (ab & D)|assert (D := direction_unknown _ K)]);
  destruct s as [| |k]; cbn -[Inclined.get_w_alpha_j_w_beta_j Nat.mul]; rewrite ?D; cbn -[Inclined.get_w_alpha_j_w_beta_j Nat.mul].
  all: try solve [split; [intros (? & E); discriminate|tauto]].
  all: try solve [rewrite (mapM_none _ _ _ KeyError ws W) by (intro w; unfold OutsideEqvTemp.theta_opaque; rewrite D; reflexivity); cbn [bind]; split; [intros (? & E); discriminate|tauto]].
  all: destruct (mapM_all _ _ (OutsideEqvTemp.theta_opaque (direction_value (e_direction e)) a16 a17 a18) ws) as (q & Q);
    [intro w; unfold OutsideEqvTemp.theta_opaque; rewrite D; cbn [bind]; destruct (Inclined.get_i_is_j_n _ _ _ _ _ _) as ((? & ?) & ?); eauto|].
  all: rewrite Q; cbn [bind]; split; [tauto|eauto].
- unfold BoundarySimple.get_boundary_simple; rewrite G; split; [discriminate|intros _].
  destruct HT as [-> | ->]; cbn -[Req_EM_T Nat.mul]; (destruct (Req_EM_T r 0) as [|_]; [contradiction|]); destruct s as [| |k]; cbn -[Nat.mul]; eauto.
Qed.

(* windows *)
Lemma window_accepted id floor hc e s g u eta r h ws : ws <> [] ->
  ((exists bs, BoundarySimple.get_boundary_simple ws (seen_window id floor hc e s g u eta r h) = Ok bs) <-> fit_window e s g).
Proof.
intro W; unfold fit_window; rewrite <- sun_outdoor; unfold seen_window; destruct (sun e) eqn:S.
- assert (F : forall P : Prop, (true = true -> P) <-> P) by (intro P; split; auto); rewrite F; clear F.
  unfold BoundarySimple.get_boundary_simple; cbn -[Req_EM_T Inclined.get_w_alpha_j_w_beta_j seen_window_shade Nat.mul Transmission.get_qgt OutsideEqvTemp.get_theta_o_sol glass_value].
  destruct (Req_EM_T (13 / 100) 0) as [Z|_]; [lra|]; unfold SolarShading.create_shading; cbn -[Req_EM_T Inclined.get_w_alpha_j_w_beta_j seen_window_shade Nat.mul Transmission.get_qgt OutsideEqvTemp.get_theta_o_sol glass_value].
  unfold OutsideEqvTemp.get_theta_o_sol.
  destruct (known_dec (e_direction e)) as [K|K]; [destruct (direction_known _ K) as (ab & D)|assert (D := direction_unknown _ K)].
  + destruct (mapM_all _ _ (OutsideEqvTemp.theta_transparent (direction_value (e_direction e)) (9 / 10) (4 / 100)) ws) as (q & Q);
      [intro w; unfold OutsideEqvTemp.theta_transparent; rewrite D; cbn [bind]; eauto|].
    assert (T : forall sh, (exists y, Transmission.get_qgt (Transmission.SunStrike (direction_value (e_direction e)) (e_area e) sh (glass_value g) eta) ws = Ok y) <->
        g = SINGLE /\ match sh with SolarShading.Simple _ _ d _ => d <> 0%R | SolarShading.Detail => False | SolarShading.NotShaded => True end).
    { intro sh; cbn [Transmission.get_qgt]; split.
      - intros (y & Y); destruct ws as [|w ws]; [congruence|]; simpl in Y; apply bind_ok in Y; destruct Y as (y1 & Y1 & _).
        unfold Transmission.get_qgt_n in Y1; rewrite D in Y1; cbn [bind] in Y1; destruct (Inclined.get_i_is_j_n _ _ _ _ _ _) as ((? & ?) & ?).
        apply bind_ok in Y1; destruct Y1 as (f & F1 & Y1); apply bind_ok in Y1; destruct Y1 as (f2 & F2 & Y1); apply bind_ok in Y1; destruct Y1 as (tau & T1 & _); split.
        + destruct g; [reflexivity|discriminate|discriminate|discriminate].
        + destruct sh as [wa dp d de| |]; [|discriminate|exact I]; simpl in F2; destruct (Req_EM_T (2 * d) 0); [discriminate|lra].
      - intros (-> & SH); apply mapM_all; intro w; unfold Transmission.get_qgt_n; rewrite D; cbn [bind]; destruct (Inclined.get_i_is_j_n _ _ _ _ _ _) as ((? & ?) & ?).
        destruct sh as [wa dp d de| |]; [|destruct SH|]; cbn -[Req_EM_T]; [destruct (Req_EM_T (2 * d) 0) as [Z|_]; [exfalso; lra|]|]; cbn; eauto. }
    destruct s as [| | |dp dh de|k]; cbn -[Inclined.get_w_alpha_j_w_beta_j Nat.mul Transmission.get_qgt glass_value OutsideEqvTemp.theta_transparent]; rewrite ?D;
      cbn -[Inclined.get_w_alpha_j_w_beta_j Nat.mul Transmission.get_qgt glass_value OutsideEqvTemp.theta_transparent].
    * rewrite Q; cbn [bind]; specialize (T SolarShading.NotShaded); destruct (Transmission.get_qgt _ ws) as [y|x]; cbn [bind].
      -- split; [intros _; split; [exact K|]; apply T; eauto|eauto].
      -- split; [intros (? & E); discriminate|intros (_ & B); destruct (proj2 T B) as (? & E); discriminate].
    * split; [intros (? & E); discriminate|tauto].
    * rewrite Q; cbn [bind]; specialize (T SolarShading.NotShaded); destruct (Transmission.get_qgt _ ws) as [y|x]; cbn [bind].
      -- split; [intros _; split; [exact K|]; apply T; eauto|eauto].
      -- split; [intros (? & E); discriminate|intros (_ & B); destruct (proj2 T B) as (? & E); discriminate].
    * rewrite Q; cbn [bind]; specialize (T (SolarShading.Simple (fst ab) dp dh de)); destruct (Transmission.get_qgt _ ws) as [y|x]; cbn [bind].
      -- split; [intros _; split; [exact K|]; apply T; eauto|eauto].
      -- split; [intros (? & E); discriminate|intros (_ & B); destruct (proj2 T B) as (? & E); discriminate].
    * split; [intros (? & E); discriminate|tauto].
  + assert (N := mapM_none _ _ (OutsideEqvTemp.theta_transparent (direction_value (e_direction e)) (9 / 10) (4 / 100)) KeyError ws W
      ltac:(intro w; unfold OutsideEqvTemp.theta_transparent; rewrite D; reflexivity)).
    destruct s as [| | |dp dh de|k]; cbn -[Inclined.get_w_alpha_j_w_beta_j Nat.mul Transmission.get_qgt glass_value OutsideEqvTemp.theta_transparent]; rewrite ?D;
      cbn -[Inclined.get_w_alpha_j_w_beta_j Nat.mul Transmission.get_qgt glass_value OutsideEqvTemp.theta_transparent]; rewrite ?N; cbn [bind];
      (split; [intros (? & E); discriminate|tauto]).
- split; [discriminate|intros _].
  unfold BoundarySimple.get_boundary_simple; cbn -[Req_EM_T Nat.mul seen_window_shade glass_value]; destruct (Req_EM_T (13 / 100) 0) as [Z|_]; [lra|].
  destruct s; cbn -[Nat.mul glass_value]; eauto.
Qed.

(* what is taken over *)
Lemma simple_taken ws b bs t : BoundarySimple.get_boundary_simple ws b = Ok bs -> BoundaryDict.boundary_type b = Some t -> SolarShading.is_external t = true ->
  BoundaryDict.b_id b = Some (BoundarySimple.bs_id bs) /\ BoundaryDict.b_name b = Some (BoundarySimple.bs_name bs) /\
  BoundaryDict.connected_room_id b = Some (BoundarySimple.bs_connected_room_id bs) /\ BoundarySimple.BoundaryType t = Ok (BoundarySimple.bs_type bs) /\
  BoundaryDict.area b = Some (BoundarySimple.bs_area bs) /\ BoundaryDict.temp_dif_coef b = Some (BoundarySimple.bs_h_td bs) /\
  BoundaryDict.is_floor b = Some (BoundarySimple.bs_is_floor bs) /\
  BoundaryDict.is_solar_absorbed_inside b = Some (BoundarySimple.bs_is_solar_absorbed_inside bs) /\
  BoundaryDict.is_sun_striked_outside b = BoundarySimple.bs_is_sun_striked_outside bs /\
  (exists r, BoundaryDict.inside_heat_transfer_resistance b = Some r /\ BoundarySimple.bs_h_i bs = (1 / r)%R) /\
  BoundaryDict.h_c b = Some (BoundarySimple.bs_h_c bs).
Proof.
intros E T X; unfold BoundarySimple.get_boundary_simple in E; rewrite T in E.
apply bind_ok in E; destruct E as (a1 & H1 & E); apply bind_ok in E; destruct E as (a2 & H2 & E); apply bind_ok in E; destruct E as (a3 & H3 & E).
cbn [BoundaryDict.key of_option bind] in E; apply bind_ok in E; destruct E as (a4 & H4 & E); apply bind_ok in E; destruct E as (a5 & H5 & E); rewrite X in E.
apply bind_ok in E; destruct E as (a6 & H6 & E); apply bind_ok in H6; destruct H6 as (s6 & H6 & H6'); injection H6' as <-.
apply bind_ok in E; destruct E as (a7 & H7 & E); apply bind_ok in E; destruct E as (a8 & _ & E); apply bind_ok in E; destruct E as (a9 & _ & E).
apply bind_ok in E; destruct E as (a10 & H10 & E); apply bind_ok in E; destruct E as (a11 & H11 & E); apply bind_ok in E; destruct E as (a12 & _ & E).
apply bind_ok in E; destruct E as (a13 & H13 & E); destruct (Req_EM_T a13 0); [discriminate|]; apply bind_ok in E; destruct E as (a14 & H14 & E).
do 5 (apply bind_ok in E; destruct E as (? & _ & E)); injection E as <-.
cbn [BoundarySimple.bs_id BoundarySimple.bs_name BoundarySimple.bs_connected_room_id BoundarySimple.bs_type BoundarySimple.bs_area BoundarySimple.bs_h_td
  BoundarySimple.bs_is_floor BoundarySimple.bs_is_solar_absorbed_inside BoundarySimple.bs_is_sun_striked_outside BoundarySimple.bs_h_i BoundarySimple.bs_h_c].
repeat match goal with H : BoundaryDict.key _ = Ok _ |- _ => apply key_ok in H end; rewrite H6; repeat (split; [assumption|]).
split; [reflexivity|]; split; [eauto|assumption].
Qed.

Lemma connected_room s r : get_connected_id s = Ok r -> room_of s = Some r.
Proof. destruct s; simpl; [intros [= <-]; reflexivity ..|discriminate]. Qed.

Lemma no_entry k v more : item k v = Err KeyError -> lookup k more = None -> item k (with_entries more v) = Err KeyError.
Proof. destruct v; try discriminate; unfold item, with_entries; rewrite lookup_app; intros E ->; exact E. Qed.

Lemma general_lacks e t s r region p v k : general_part_entry e t s r region p = Ok v -> In k ["id"; "is_floor"; "h_c"] -> item k v = Err KeyError.
Proof.
unfold general_part_entry; intro E; apply bind_ok in E; destruct E as (h & _ & E); injection E as <-; unfold direction_entry.
intros [<- |[<- |[<- |[]]]]; destruct (get_is_sun_striked_outside _); reflexivity.
Qed.

Lemma door_lacks d region v k : door_init region d = Ok v -> In k ["id"; "is_floor"; "h_c"] -> item k v = Err KeyError.
Proof.
unfold door_init; intro E; apply bind_ok in E; destruct E as (r & _ & E); apply bind_ok in E; destruct E as (h & _ & E); injection E as <-; unfold direction_entry.
intros [<- |[<- |[<- |[]]]]; destruct (get_is_sun_striked_outside _); reflexivity.
Qed.

Lemma window_lacks w region v k : window_init region w = Ok v -> In k ["id"; "is_floor"; "h_c"; "connected_room_id"; "eta_value"] -> item k v = Err KeyError.
Proof.
unfold window_init; intro E; apply bind_ok in E; destruct E as (r & _ & E); apply bind_ok in E; destruct E as (h & _ & E); injection E as <-; unfold direction_entry.
intros [<- |[<- |[<- |[<- |[<- |[]]]]]]; destruct (get_is_sun_striked_outside _); reflexivity.
Qed.

Lemma required ws v bs : BoundarySimple.get_boundary_simple ws (see_boundary v) = Ok bs ->
  forall k, In k ["id"; "is_floor"; "h_c"; "connected_room_id"] -> item k v <> Err KeyError.
Proof.
intros E k I N; unfold BoundarySimple.get_boundary_simple in E.
apply bind_ok in E; destruct E as (a1 & H1 & E); apply bind_ok in E; destruct E as (a2 & H2 & E); apply bind_ok in E; destruct E as (a3 & H3 & E).
do 8 (apply bind_ok in E; destruct E as (? & _ & E)); apply bind_ok in E; destruct E as (a11 & H11 & E); do 2 (apply bind_ok in E; destruct E as (? & _ & E)).
destruct (Req_EM_T _ 0); [discriminate|]; apply bind_ok in E; destruct E as (a14 & H14 & _).
unfold see_boundary in *; cbn [BoundaryDict.b_id BoundaryDict.is_floor BoundaryDict.h_c BoundaryDict.connected_room_id] in *.
destruct I as [<- |[<- |[<- |[<- |[]]]]]; unfold int_item, bool_item, num_item in *; rewrite N in *; discriminate.
Qed.

Lemma required_eta ws v bs : BoundarySimple.get_boundary_simple ws (see_boundary v) = Ok bs ->
  str_item "boundary_type" v = Ok "external_transparent_part" -> bool_item "is_sun_striked_outside" v = Ok true -> item "eta_value" v <> Err KeyError.
Proof.
intros E T S N; unfold BoundarySimple.get_boundary_simple in E.
do 13 (apply bind_ok in E; destruct E as (? & _ & E)); apply bind_ok in E; destruct E as (a13 & _ & E).
destruct (Req_EM_T _ 0); [discriminate|]; do 4 (apply bind_ok in E; destruct E as (? & _ & E)); apply bind_ok in E; destruct E as (tr & H & _).
unfold Transmission.create_transmission, see_boundary in H.
cbn [BoundaryDict.boundary_type BoundaryDict.is_sun_striked_outside BoundaryDict.direction BoundaryDict.area BoundaryDict.incident_angle_characteristics BoundaryDict.eta_value] in H.
rewrite T, S in H; cbn [opt BoundaryDict.key of_option bind String.eqb] in H; simpl in H.
do 3 (apply bind_ok in H; destruct H as (? & _ & H)); unfold num_item in H; rewrite N in H; discriminate.
Qed.

Lemma not_ok A (r : res A) : (forall a, r <> Ok a) -> exists e, r = Err e.
Proof. destruct r as [a|e]; [intro H; destruct (H a eq_refl)|eauto]. Qed.

Lemma id_first ws v : item "id" v = Err KeyError -> BoundarySimple.get_boundary_simple ws (see_boundary v) = Err KeyError.
Proof. intro N; unfold BoundarySimple.get_boundary_simple, see_boundary; cbn [BoundaryDict.b_id]; unfold int_item; rewrite N; reflexivity. Qed.

Lemma item_more k v more : item k v = Err KeyError -> item k (with_entries more v) <> Err KeyError -> lookup k more <> None.
Proof. intros N H L; apply H, no_entry; assumption. Qed.

(* all parts of a general part *)
Lemma general_part_dicts u_add region g vs : general_part_init u_add region g = Ok vs -> let e := gp_env (gp_ns g) in
  exists ps r h, spec_init (e_name e) (e_area e) u_add (gp_spec_of g) = Ok ps /\ get_connected_id (e_space_type e) = Ok r /\
    (ps <> [] -> env_h e region = Ok h) /\ Forall2 (fun p v => general_part_entry e (gp_kind (gp_ns g)) (gp_shade (gp_ns g)) r region p = Ok v) ps vs.
Proof.
intros E e; unfold general_part_init in E; fold e in E; apply bind_ok in E; destruct E as (ps & E1 & E); apply bind_ok in E; destruct E as (r & E2 & E).
apply mapM_forall2_eq in E; destruct (env_h e region) as [h|x] eqn:H.
- exists ps, r, h; auto.
- exists ps, r, 0%R; repeat split; [assumption|assumption| |exact E]; intro N; destruct E as [|p v ps' vs' E' _]; [congruence|].
  unfold general_part_entry in E'; rewrite H in E'; discriminate.
Qed.

Lemma taken_general id floor hc e t s r h p ws bs : BoundarySimple.get_boundary_simple ws (seen_general id floor hc e t s r h p) = Ok bs ->
  taken bs id (ip_name p) r BoundarySimple.ExternalGeneralPart (ip_area p) h floor (floor_kind t) (sunlit e) (ip_r_in p) hc.
Proof.
intro E; destruct (simple_taken _ _ _ "external_general_part" E eq_refl eq_refl) as (A1 & A2 & A3 & A4 & A5 & A6 & A7 & A8 & A9 & (x & A10 & A11) & A12).
cbn in A1, A2, A3, A4, A5, A6, A7, A8, A9, A10, A12; unfold taken; rewrite A11, <- A9.
injection A1 as <-; injection A2 as <-; injection A3 as <-; injection A4 as <-; injection A5 as <-; injection A6 as <-; injection A7 as <-; injection A8 as A8; injection A10 as <-; injection A12 as <-.
rewrite <- A8; repeat (split; [solve [reflexivity|assumption|destruct t; reflexivity|unfold sun, sunlit; destruct (e_next_space e); reflexivity]|]); reflexivity.
Qed.

Lemma taken_door id floor hc e s u r h ws bs : BoundarySimple.get_boundary_simple ws (seen_door id floor hc e s u r h) = Ok bs ->
  taken bs id (e_name e) r BoundarySimple.ExternalOpaquePart (e_area e) h floor false (sunlit e) (13 / 100) hc.
Proof.
intro E; destruct (simple_taken _ _ _ "external_opaque_part" E eq_refl eq_refl) as (A1 & A2 & A3 & A4 & A5 & A6 & A7 & A8 & A9 & (x & A10 & A11) & A12).
cbn in A1, A2, A3, A4, A5, A6, A7, A8, A9, A10, A12; unfold taken; rewrite A11, <- A9.
injection A1 as <-; injection A2 as <-; injection A3 as <-; injection A4 as <-; injection A5 as <-; injection A6 as <-; injection A7 as <-; injection A8 as A8; injection A10 as <-; injection A12 as <-.
rewrite <- A8; repeat (split; [solve [reflexivity|assumption|unfold sun, sunlit; destruct (e_next_space e); reflexivity]|]); reflexivity.
Qed.

Lemma taken_window id floor hc e s g u eta r h ws bs : BoundarySimple.get_boundary_simple ws (seen_window id floor hc e s g u eta r h) = Ok bs ->
  taken bs id (e_name e) r BoundarySimple.ExternalTransparentPart (e_area e) h floor false (sunlit e) (13 / 100) hc.
Proof.
intro E; destruct (simple_taken _ _ _ "external_transparent_part" E eq_refl eq_refl) as (A1 & A2 & A3 & A4 & A5 & A6 & A7 & A8 & A9 & (x & A10 & A11) & A12).
cbn in A1, A2, A3, A4, A5, A6, A7, A8, A9, A10, A12; unfold taken; rewrite A11, <- A9.
injection A1 as <-; injection A2 as <-; injection A3 as <-; injection A4 as <-; injection A5 as <-; injection A6 as <-; injection A7 as <-; injection A8 as A8; injection A10 as <-; injection A12 as <-.
rewrite <- A8; repeat (split; [solve [reflexivity|assumption|unfold sun, sunlit; destruct (e_next_space e); reflexivity]|]); reflexivity.
Qed.

Lemma opaque_general id floor hc e t s r h p : ip_r_in p <> 0%R -> opaque_boundary (seen_general id floor hc e t s r h p) "external_general_part" e s.
Proof.
intro N; unfold opaque_boundary, seen_general; cbn -[sun]; repeat (split; [first [discriminate|reflexivity|left; reflexivity|intros ->; reflexivity|exists (ip_r_in p); split; [reflexivity|exact N]]|]); discriminate.
Qed.

Lemma opaque_door id floor hc e s u r h : opaque_boundary (seen_door id floor hc e s u r h) "external_opaque_part" e s.
Proof.
unfold opaque_boundary, seen_door; cbn -[sun]; repeat (split; [first [discriminate|reflexivity|right; reflexivity|intros _; reflexivity|exists (13 / 100)%R; split; [reflexivity|lra]]|]); discriminate.
Qed.
