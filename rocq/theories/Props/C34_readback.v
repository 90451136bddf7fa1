From Coq Require Import Reals List String ZArith Lra Lia.
From Verif Require Import Model.Py Model.BoundaryDict Model.BoundarySimple Model.ResponseFactor Model.HouseDict Model.Initializer Model.ReadHouse
  Spec.HouseSpec Lemmas.PyL Lemmas.VentL Lemmas.RoomsL Lemmas.WeightsL Lemmas.ReadBackL Examples.MakeHouseEx.
Import ListNotations.
Local Open Scope R_scope.

(* C34: what is written for the rooms can be read exactly if every room has convective cooling; else KeyError.
   Missing for the full property: the other kinds of cooling, see C34_cooling_refuted. *)
Theorem C34_readable_partial : forall rooms ss, make_spaces_dict rooms = Ok ss ->
  ((exists cr, read_spaces ss = Ok cr) <-> forall r, In r rooms -> exists e, r_cooling r = Some e /\ e_type e = Some "convective"%string) /\
  (forall err, read_spaces ss = Err err -> err = KeyError).
Proof. exact spaces_readable. Qed.
Print Assumptions C34_readable_partial.

(* then the values are those of the input, for every kind of heating *)
Theorem C34_rooms : forall rooms ss cr i r, make_spaces_dict rooms = Ok ss -> read_spaces ss = Ok cr -> nth_error rooms i = Some r ->
  exists name v u n h c a1 a2 a3 a4,
  r_name r = Some name /\ r_volume r = Some v /\ r_vent r = Some u /\ r_natural_vent_time r = Some n /\ r_heating r = Some h /\ r_cooling r = Some c /\
  nth_error (cr_id cr) i = Some (Z.of_nat i) /\ nth_error (cr_name cr) i = Some name /\ nth_error (cr_volume cr) i = Some v /\
  nth_error (cr_v_vent_ex cr) i = Some (u / 3600) /\ nth_error (cr_v_ntrl cr) i = Some (v * n / 3600) /\
  (e_type h <> Some "radiative"%string -> nth_error (cr_is_radiative_heating cr) i = Some false /\ nth_error (cr_lr_h_max cr) i = Some 0) /\
  (forall m a, radiative_equipment h m a -> nth_error (cr_is_radiative_heating cr) i = Some true /\ nth_error (cr_lr_h_max cr) i = Some (m * a)) /\
  nth_error (cr_is_radiative_cooling cr) i = Some false /\ convective_equipment c a1 a2 a3 a4 /\
  nth_error (cr_q_min cr) i = Some a1 /\ nth_error (cr_q_max cr) i = Some a2 /\ nth_error (cr_v_min cr) i = Some a3 /\ nth_error (cr_v_max cr) i = Some a4.
Proof.
intros rooms ss cr i r H C E; destruct (spaces_values rooms ss cr H C i r E) as [w [M [Id V]]].
destruct M as (M1 & M2 & M3 & M4 & _ & M6 & [h [Hh Rh]] & [c [Hc Rc]]).
destruct V as (V1 & V2 & V3 & V4 & _ & V6 & V7 & _ & V9 & V10).
apply read_kind in Rh, Rc; destruct (rr_cooling w) as [|a1 a2 a3 a4|]; [destruct V10| |destruct V10].
destruct V10 as [Q1 [Q2 [Q3 Q4]]].
exists (rr_name w), (rr_volume w), (rr_vent w), (rr_natural w), h, c, a1, a2, a3, a4; rewrite <- Id.
do 11 (split; [assumption|]); split.
{ intro N; destruct (rr_heating w); [exact V9|exact V9|destruct Rh; contradiction]. }
split.
{ intros m a [T1 T2]; destruct (rr_heating w) as [|? ? ? ?|m' a'].
  - congruence.
  - destruct Rh; congruence.
  - destruct Rh as [_ [x [X1 [X2 X3]]]]; rewrite T2 in X1; injection X1 as <-; cbn in X2, X3; injection X2 as <-; injection X3 as <-; exact V9. }
split; [exact V7|]; split; [|auto].
destruct Rc as [T [x [X [X1 [X2 [X3 X4]]]]]]; split; [exact T|]; rewrite X; destruct x; cbn in *; subst; reflexivity.
Qed.
Print Assumptions C34_rooms.

(* a room with radiative cooling, or without cooling, is accepted, but the core cannot read what is written *)
Theorem C34_cooling_refuted : exists rooms ss rooms' ss',
  (exists r e, In r rooms /\ r_cooling r = Some e /\ radiative_equipment e 100 10) /\ make_spaces_dict rooms = Ok ss /\ read_spaces ss = Err KeyError /\
  (exists r e, In r rooms' /\ r_cooling r = Some e /\ e_type e = Some "not_installed"%string) /\ make_spaces_dict rooms' = Ok ss' /\ read_spaces ss' = Err KeyError.
Proof.
assert (G : forall c, complete_equipment c -> e_type c <> Some "convective"%string ->
  exists ss, make_spaces_dict [ex_room c] = Ok ss /\ read_spaces ss = Err KeyError).
{ intros c C N.
  destruct (proj2 (proj1 (rooms_accepted [ex_room c] [0%Z] ["main_occupant_room"%string] eq_refl eq_refl (Forall_cons _ (ex_room_complete _ C) (Forall_nil _)))) ex_valid) as [ss S].
  exists ss; split; [exact S|]; destruct (spaces_readable _ _ S) as [I K]; destruct (read_spaces ss) as [cr|e] eqn:R.
  - destruct (proj1 I (ex_intro _ cr eq_refl) (ex_room c) (or_introl eq_refl)) as [e [E1 E2]]; injection E1 as <-; contradiction.
  - rewrite (K e eq_refl); reflexivity. }
destruct (G ex_floor_heating ex_floor_heating_complete ltac:(discriminate)) as [s1 [A1 B1]].
destruct (G ex_no_equipment ex_none_complete ltac:(discriminate)) as [s2 [A2 B2]].
exists [ex_room ex_floor_heating], s1, [ex_room ex_no_equipment], s2; repeat split; try assumption.
- exists (ex_room ex_floor_heating), ex_floor_heating; repeat split; left; reflexivity.
- exists (ex_room ex_no_equipment), ex_no_equipment; repeat split; left; reflexivity.
Qed.
Print Assumptions C34_cooling_refuted.

(* boundaries: what the core reads is what the input says *)
Theorem C34_boundaries : forall round1 ws bds bss rooms out inv n cb j b,
  mapM (get_boundary_simple ws) bds = Ok bss -> make_boundaries round1 bss rooms bds = Ok out ->
  read_boundaries inv n out = Ok cb -> nth_error bds j = Some b ->
  exists id room a hc t ab,
  BoundaryDict.b_id b = Some id /\ BoundaryDict.connected_room_id b = Some room /\ BoundaryDict.area b = Some a /\
  BoundaryDict.h_c b = Some hc /\ BoundaryDict.boundary_type b = Some t /\ BoundaryDict.is_solar_absorbed_inside b = Some ab /\
  nth_error (cb_id cb) j = Some id /\ nth_error (cb_connected cb) j = Some room /\ nth_error (cb_area cb) j = Some a /\
  nth_error (cb_h_c cb) j = Some hc /\ nth_error (cb_is_ground cb) j = Some (t =? "ground")%string /\ nth_error (cb_is_solar_abs cb) j = Some ab.
Proof. exact read_back. Qed.
Print Assumptions C34_boundaries.

(* and the wall whose response it computes is the one of the input *)
Theorem C34_walls : forall b t s, get_boundary_spec b t = Ok s ->
  exists f, create_factory s = Ok f /\
  match t with
  | Internal | ExternalGeneralPart => exists l r, BoundaryDict.layers b = Some l /\ BoundaryDict.outside_heat_transfer_resistance b = Some r /\
      f = Envelope (map thermal_capacity l) (map thermal_resistance l) r
  | Ground => exists l, BoundaryDict.layers b = Some l /\ f = GroundF (map thermal_capacity l) (map thermal_resistance l)
  | ExternalTransparentPart | ExternalOpaquePart => exists u r, BoundaryDict.u_value b = Some u /\ BoundaryDict.inside_heat_transfer_resistance b = Some r /\ f = Steady u r
  end.
Proof. exact spec_factory. Qed.
Print Assumptions C34_walls.

(* the file names the kind of boundary as the input does, and how its response is to be found *)
Theorem C34_kind : forall b t s name, get_boundary_spec b t = Ok s -> BoundaryType name = Ok t ->
  s_boundary_type s = Some name /\
  s_method s = Some (match t with Ground => "layers_ground" | Internal | ExternalGeneralPart => "layers"
    | ExternalTransparentPart | ExternalOpaquePart => "u_value" end)%string.
Proof.
intros b t s name H T; apply boundary_type_ok in T; subst name.
unfold get_boundary_spec in H; destruct t; repeat (apply bind_ok in H; destruct H as [? [? H]]); injection H as <-; split; reflexivity.
Qed.
Print Assumptions C34_kind.

(* furniture (proportional to the volume), air paths and the convective share of heating arrive as well *)
Theorem C34_furniture : forall rooms ss cr i r, make_spaces_dict rooms = Ok ss -> read_spaces ss = Ok cr -> nth_error rooms i = Some r ->
  exists v s, r_volume r = Some v /\ nth_error ss i = Some s /\
  nth_error (cr_c_sh cr) i = Some (12600 * v) /\ nth_error (cr_g_sh cr) i = Some (22 / 100000 * (12600 * v)) /\
  nth_error (cr_c_lh cr) i = Some (168 / 10 * v) /\ nth_error (cr_g_lh cr) i = Some (18 / 10000 * (168 / 10 * v)) /\
  nth_error (cr_v_int_vent cr) i = Some (sp_next_spaces s) /\ nth_error (cr_beta cr) i = Some (sp_beta s).
Proof. exact spaces_furniture. Qed.
Print Assumptions C34_furniture.

(* no radiant equipment gives off heat by convection: that share is written, and read, as 0 *)
Theorem C34_beta : forall rooms ss s, make_spaces_dict rooms = Ok ss -> In s ss -> sp_beta s = 0.
Proof. exact spaces_beta. Qed.
Print Assumptions C34_beta.

(* which boundary belongs to which room, and its shares of radiant heating and of the occupants' view *)
Theorem C34_matrices : forall inv n out cb i j d, read_boundaries inv n out = Ok cb -> nth_error out j = Some d -> (i < n)%nat ->
  let here := (bd_connected_space_id d =? Z.of_nat i)%Z in
  (exists row, nth_error (cb_p_is_js cb) i = Some row /\ nth_error row j = Some (if here then 1 else 0)) /\
  (exists row, nth_error (cb_flr_js_is cb) j = Some row /\ forall x, bd_flr d = Some x -> nth_error row i = Some (Some (if here then x else 0))) /\
  (exists row, nth_error (cb_f_mrt_hum_is_js cb) i = Some row /\ forall x, bd_f_mrt_hum d = Some x -> nth_error row j = Some (Some (if here then x else 0))).
Proof. exact matrices_read. Qed.
Print Assumptions C34_matrices.

(* the capacity of every radiative cooling is written, but the core looks for it elsewhere *)
Theorem C34_radiative_cooling_refuted : forall rooms ss i r e m a, make_spaces_dict rooms = Ok ss -> nth_error rooms i = Some r ->
  r_cooling r = Some e -> radiative_equipment e m a ->
  exists s, nth_error ss i = Some s /\ ro_installed (o_radiative (sp_cooling s)) = true /\
  ro_max_capacity (o_radiative (sp_cooling s)) = Some (m * a) /\ radiative_cooling s = Err KeyError.
Proof. exact radiative_cooling_unread. Qed.
Print Assumptions C34_radiative_cooling_refuted.

Example C34_example : exists ss cr, make_spaces_dict [ex_room ex_cooling] = Ok ss /\ read_spaces ss = Ok cr.
Proof.
destruct (proj2 (proj1 (rooms_accepted [ex_room ex_cooling] [0%Z] ["main_occupant_room"%string] eq_refl eq_refl
  (Forall_cons _ (ex_room_complete _ ex_cooling_complete) (Forall_nil _)))) ex_valid) as [ss S].
destruct (proj2 (proj1 (spaces_readable _ _ S))) as [cr R]; [intros r [<-|[]]; exists ex_cooling; split; reflexivity|eauto].
Qed.
