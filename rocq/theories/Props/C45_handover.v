(* C45: the initializer reads what the converter writes *)
From Coq Require Import Reals ZArith List String Bool Lra.
From Verif Require Import Model.Py Model.JsonValue Model.FactorH Model.FactorNu Model.FactorF Model.EesHouse Model.EesLayers Model.EesInit.
From Verif Require Import Spec.InitDictSpec Lemmas.EesInitL Lemmas.PyL.
From Verif Require Model.BoundaryDict Model.BoundarySimple.
Import ListNotations.
Local Open Scope string_scope.

(* No dictionary written for a general part, window or door is accepted as it is. *)
Theorem C45_accepted_refuted : forall ws region v,
  (forall u_add g vs, general_part_init u_add region g = Ok vs -> In v vs -> BoundarySimple.get_boundary_simple ws (see_boundary v) = Err KeyError) /\
  (forall w, window_init region w = Ok v -> BoundarySimple.get_boundary_simple ws (see_boundary v) = Err KeyError) /\
  (forall d, door_init region d = Ok v -> BoundarySimple.get_boundary_simple ws (see_boundary v) = Err KeyError).
Proof.
intros ws region v; split; [|split].
- intros u_add g vs E I; destruct (general_part_dicts _ _ _ _ E) as (ps & r & h & _ & _ & _ & F); apply id_first.
  clear E; induction F as [|p v' ps' vs' E F IH]; [destruct I|destruct I as [<- |I]; [|exact (IH I)]].
  exact (general_lacks _ _ _ _ _ _ _ "id" E (or_introl eq_refl)).
- intros w E; apply id_first; exact (window_lacks _ _ _ "id" E (or_introl eq_refl)).
- intros d E; apply id_first; exact (door_lacks _ _ _ "id" E (or_introl eq_refl)).
Qed.
Print Assumptions C45_accepted_refuted.

(* Whatever is added, acceptance takes at least the entries id, is_floor and h_c; for windows also connected_room_id and,
   in the sun, eta_value. *)
Theorem C45_missing : forall ws region v more bs, BoundarySimple.get_boundary_simple ws (see_boundary (with_entries more v)) = Ok bs ->
  (forall u_add g vs, general_part_init u_add region g = Ok vs -> In v vs -> forall k, In k ["id"; "is_floor"; "h_c"] -> lookup k more <> None) /\
  (forall w, window_init region w = Ok v -> forall k, In k ["id"; "is_floor"; "h_c"; "connected_room_id"] -> lookup k more <> None) /\
  (forall d, door_init region d = Ok v -> forall k, In k ["id"; "is_floor"; "h_c"] -> lookup k more <> None).
Proof.
intros ws region v more bs A; assert (Q := required _ _ _ A); split; [|split].
- intros u_add g vs E I k K; destruct (general_part_dicts _ _ _ _ E) as (ps & r & h & _ & _ & _ & F).
  assert (N : item k v = Err KeyError).
  { clear E; induction F as [|p v' ps' vs' E F IH]; [destruct I|destruct I as [<- |I]; [|exact (IH I)]]; exact (general_lacks _ _ _ _ _ _ _ k E K). }
  apply (item_more k v more N), Q; simpl in *; tauto.
- intros w E k K; apply (item_more k v more); [apply (window_lacks _ _ _ k E); simpl in *; tauto|apply Q; simpl in *; tauto].
- intros d E k K; apply (item_more k v more); [apply (door_lacks _ _ _ k E); simpl in *; tauto|apply Q; simpl in *; tauto].
Qed.
Print Assumptions C45_missing.

(* With just these entries added, parts of walls are accepted if and only if an outdoor part has one of the ten directions and
   no detailed sunshade; the initializer then takes over name, room, area, temperature difference coefficient, solar absorption
   and surface resistance, and the layers. *)
Theorem C45_general_part_partial : forall u_add region g vs, general_part_init u_add region g = Ok vs -> let e := gp_env (gp_ns g) in
  exists ps r, spec_init (e_name e) (e_area e) u_add (gp_spec_of g) = Ok ps /\ room_of (e_space_type e) = Some r /\
  Forall2 (fun p v => exists h, get_h (e_next_space e) region = Ok h /\ forall ws id floor h_c, ws <> [] -> ip_r_in p <> 0%R ->
    let b := see_boundary (with_entries (missing id floor h_c) v) in
    ((exists bs, BoundarySimple.get_boundary_simple ws b = Ok bs) <-> fit_opaque e (gp_shade (gp_ns g))) /\
    BoundaryDict.layers b = Some (map (fun l => {| BoundaryDict.thermal_capacity := il_c l; BoundaryDict.thermal_resistance := il_r l |}) (ip_layers p)) /\
    forall bs, BoundarySimple.get_boundary_simple ws b = Ok bs ->
      taken bs id (ip_name p) r BoundarySimple.ExternalGeneralPart (ip_area p) h floor (floor_kind (gp_kind (gp_ns g))) (sunlit e) (ip_r_in p) h_c) ps vs.
Proof.
intros u_add region g vs E e; destruct (general_part_dicts _ _ _ _ E) as (ps & r & h & E1 & E2 & _ & F); exists ps, r; split; [exact E1|]; split; [exact (connected_room _ _ E2)|].
clear E E1; induction F as [|p v ps' vs' E F IH]; constructor; [|exact IH].
assert (H : exists h', env_h e region = Ok h') by (unfold general_part_entry in E; apply bind_ok in E; destruct E as (h' & E & _); eauto).
destruct H as (h' & H); exists h'; split; [exact H|]; intros ws id floor h_c W N b.
assert (B := see_general id floor h_c _ _ _ _ _ _ _ _ H E); unfold b; rewrite B; split; [|split].
- exact (opaque_accepted _ _ _ _ _ (opaque_general _ _ _ _ _ _ _ _ _ N) W).
- reflexivity.
- intro bs; exact (taken_general _ _ _ _ _ _ _ _ _ _ _).
Qed.
Print Assumptions C45_general_part_partial.

Theorem C45_door_partial : forall region d v, door_init region d = Ok v -> let e := d_env (d_ns d) in
  exists r h, room_of (e_space_type e) = Some r /\ get_h (e_next_space e) region = Ok h /\ forall ws id floor h_c, ws <> [] ->
    let b := see_boundary (with_entries (missing id floor h_c) v) in
    ((exists bs, BoundarySimple.get_boundary_simple ws b = Ok bs) <-> fit_opaque e (d_shade (d_ns d))) /\
    BoundaryDict.u_value b = Some (d_u d) /\
    forall bs, BoundarySimple.get_boundary_simple ws b = Ok bs ->
      taken bs id (e_name e) r BoundarySimple.ExternalOpaquePart (e_area e) h floor false (sunlit e) (13 / 100) h_c.
Proof.
intros region d v E e; assert (X := E); unfold door_init in X; fold e in X; apply bind_ok in X; destruct X as (r & R1 & X); apply bind_ok in X; destruct X as (h & H & _).
exists r, h; split; [exact (connected_room _ _ R1)|]; split; [exact H|]; intros ws id floor h_c W b.
unfold b; rewrite (see_door id floor h_c _ _ _ _ _ R1 H E); split; [|split].
- exact (opaque_accepted _ _ _ _ _ (opaque_door _ _ _ _ _ _ _ _) W).
- reflexivity.
- intro bs; exact (taken_door _ _ _ _ _ _ _ _ _ _).
Qed.
Print Assumptions C45_door_partial.

(* Outdoor windows moreover need single glazing, and a simple sunshade or none: double and triple glazing, and the default
   sunshade, go under names the initializer does not know. *)
Theorem C45_window_partial : forall region w v, window_init region w = Ok v -> let e := w_env (w_ns w) in
  exists r h, room_of (e_space_type e) = Some r /\ get_h (e_next_space e) region = Ok h /\ item "connected_id" v = Ok (VInt r) /\
    forall ws id floor h_c eta, ws <> [] ->
    let b := see_boundary (with_entries (missing_window id floor h_c r eta) v) in
    ((exists bs, BoundarySimple.get_boundary_simple ws b = Ok bs) <-> fit_window e (w_shade (w_ns w)) (ws_glass (w_spec w))) /\
    BoundaryDict.u_value b = Some (ws_u (w_spec w)) /\
    forall bs, BoundarySimple.get_boundary_simple ws b = Ok bs ->
      taken bs id (e_name e) r BoundarySimple.ExternalTransparentPart (e_area e) h floor false (sunlit e) (13 / 100) h_c.
Proof.
intros region w v E e; assert (X := E); unfold window_init in X; fold e in X; apply bind_ok in X; destruct X as (r & R1 & X); apply bind_ok in X; destruct X as (h & H & X).
exists r, h; split; [exact (connected_room _ _ R1)|]; split; [exact H|]; split.
{ injection X as <-; unfold direction_entry; destruct (get_is_sun_striked_outside _); reflexivity. }
intros ws id floor h_c eta W b; unfold b; rewrite (see_window id floor h_c _ _ r eta _ _ _ R1 H E); split; [|split].
- exact (window_accepted _ _ _ _ _ _ _ _ _ _ _ W).
- reflexivity.
- intro bs; exact (taken_window _ _ _ _ _ _ _ _ _ _ _ _).
Qed.
Print Assumptions C45_window_partial.

Example C45_example :
  let e := {| e_name := "south"; e_next_space := OUTDOOR; e_direction := DS; e_area := 3%R; e_space_type := MAIN |} in
  fit_window e (TrSimple 1 2 (1 / 2)) SINGLE /\ ~ fit_window e TrNotInput DOUBLE /\
  exists v, window_init 6 {| w_ns := {| w_env := e; w_shade := TrNotInput |}; w_spec := {| ws_u := 2%R; ws_eta_d_h := (1 / 2)%R; ws_eta_d_c := (1 / 2)%R; ws_glass := DOUBLE; ws_flame := METAL |} |} = Ok v.
Proof.
split; [|split].
- intros _; split; [repeat split; discriminate|]; split; [reflexivity|lra].
- intro F; destruct (F eq_refl) as (_ & A & _); discriminate.
- eexists; reflexivity.
Qed.
