From Coq Require Import Reals List String ZArith Lra Lia.
From Verif Require Import Model.Py Model.HouseDict Model.Initializer Spec.HouseSpec Lemmas.VentL Lemmas.RoomsL Examples.MakeHouseEx.
Import ListNotations.
Local Open Scope R_scope.

(* C33: for rooms with complete entries, the list is accepted exactly if ids and types are valid, else ValueError *)
Theorem C33_accepted : forall rooms ids types,
  map r_id rooms = map Some ids -> map r_room_type rooms = map Some types ->
  Forall (complete_room (List.length rooms)) rooms ->
  ((exists ss, make_spaces_dict rooms = Ok ss) <-> valid_rooms ids types) /\
  (~ valid_rooms ids types -> make_spaces_dict rooms = Err ValueError).
Proof. exact rooms_accepted. Qed.
Print Assumptions C33_accepted.

(* whatever else is in the entries, only valid lists are accepted *)
Theorem C33_only_valid : forall rooms ss, make_spaces_dict rooms = Ok ss ->
  exists ids types, map r_id rooms = map Some ids /\ map r_room_type rooms = map Some types /\ valid_rooms ids types.
Proof. intros rooms ss H; destruct (spaces_rows rooms ss H) as [_ [_ [_ G]]]; exact G. Qed.
Print Assumptions C33_only_valid.

Theorem C33_at_most_four : forall ids types, valid_rooms ids types -> (List.length types <= 4)%nat.
Proof. exact valid_at_most_four. Qed.
Print Assumptions C33_at_most_four.

(* order, id, name, volume are kept; air flows are converted from m3/h (or 1/h) to m3/s; furniture is proportional to volume *)
Theorem C33_values : forall rooms ss, make_spaces_dict rooms = Ok ss ->
  List.length ss = List.length rooms /\
  forall i r, nth_error rooms i = Some r ->
  exists s v u n, nth_error ss i = Some s /\ r_volume r = Some v /\ r_vent r = Some u /\ r_natural_vent_time r = Some n /\
  sp_id s = Z.of_nat i /\ r_id r = Some (sp_id s) /\ r_name r = Some (sp_name s) /\ sp_volume s = v /\
  sp_mechanical s = u / 3600 /\ sp_natural s = v * n / 3600 /\
  sp_heat_capacity s = 12600 * v /\ sp_heat_cond s = 22 / 100000 * (12600 * v) /\
  sp_moisture_capacity s = 168 / 10 * v /\ sp_moisture_cond s = 18 / 10000 * (168 / 10 * v).
Proof.
intros rooms ss H; destruct (spaces_row rooms ss H) as [L N]; split; [exact L|]; intros i r E.
destruct (N i r E) as (s & w & S & -> & (M1 & M2 & M3 & M4 & _ & M6 & _) & Id).
exists (make_space w), (rr_volume w), (rr_vent w), (rr_natural w); cbn; rewrite Id in *.
repeat (split; [assumption || reflexivity || (unfold get_g_sh_frt, get_c_cap_frt, get_g_lh_frt, get_c_lh_frt; field)|]).
unfold get_g_lh_frt, get_c_lh_frt; reflexivity.
Qed.
Print Assumptions C33_values.

(* heating and cooling are marked as installed exactly if they are, each as what it is *)
Theorem C33_equipment : forall rooms ss i r, make_spaces_dict rooms = Ok ss -> nth_error rooms i = Some r ->
  exists s h c, nth_error ss i = Some s /\ r_heating r = Some h /\ r_cooling r = Some c /\
  (co_installed (o_convective (sp_heating s)) = true <-> e_type h = Some "convective"%string) /\
  (ro_installed (o_radiative (sp_heating s)) = true <-> e_type h = Some "radiative"%string) /\
  (co_installed (o_convective (sp_cooling s)) = true <-> e_type c = Some "convective"%string) /\
  (ro_installed (o_radiative (sp_cooling s)) = true <-> e_type c = Some "radiative"%string).
Proof.
intros rooms ss i r H E; destruct (spaces_row rooms ss H) as [_ N]; destruct (N i r E) as (s & w & S & -> & M & _).
destruct M as (_ & _ & _ & _ & _ & _ & [h [Hh Rh]] & [c [Hc Rc]]); apply read_kind in Rh, Rc.
exists (make_space w), h, c; cbn; do 3 (split; [assumption|]).
destruct (rr_heating w), (rr_cooling w); repeat match goal with H : _ /\ _ |- _ => destruct H end; cbn;
  repeat match goal with H : e_type _ = _ |- _ => rewrite H; clear H end; repeat split; intros; congruence.
Qed.
Print Assumptions C33_equipment.

Example C33_example : exists ss, make_spaces_dict [ex_room ex_cooling] = Ok ss.
Proof.
apply (proj1 (rooms_accepted [ex_room ex_cooling] [0%Z] ["main_occupant_room"%string] eq_refl eq_refl
  (Forall_cons _ (ex_room_complete _ ex_cooling_complete) (Forall_nil _)))), ex_valid.
Qed.
