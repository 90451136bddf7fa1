From Coq Require Import Reals List String Lra.
From Verif Require Import Model.Py Model.Trig Model.BoundaryDict Model.Inclined Model.SolarShading Model.Transmission
  Spec.Sky Spec.Sunlight Lemmas.TrigL Lemmas.SolarL Lemmas.SunlightL.
Import ListNotations.
Local Open Scope R_scope.

(* C28: which parts transmit. *)
Theorem C28_parts : forall b s t, create_transmission b s = Ok t ->
  (t = NotTransmitting <-> ~ (boundary_type b = Some "external_transparent_part"%string /\ is_sun_striked_outside b = Some true)) /\
  (forall d a s' g e, t = SunStrike d a s' g e ->
   s' = s /\ BoundaryDict.direction b = Some d /\ area b = Some a /\ incident_angle_characteristics b = Some g /\ eta_value b = Some e).
Proof. exact create_transmission_ok. Qed.
Print Assumptions C28_parts.

(* Step k of the result belongs to step k of the weather; the heat is not negative and at most 1.003 times eta times
   area times irradiance. *)
Theorem C28_bounds : forall d n area s g eta ws qs k q, In (d, n) compass -> sound_shading s -> 0 <= eta -> 0 <= area ->
  get_qgt (SunStrike d area s g eta) ws = Ok qs -> nth_error qs k = Some (Some q) ->
  exists w, nth_error ws k = Some w /\
  (0 <= i_dn w -> 0 <= i_sky w -> - (PI / 2) <= h_sun w <= PI / 2 -> 0 <= q <= 1003 / 1000 * eta * area * total w n).
Proof.
intros d n area s g eta ws qs k q I S E A Q K; destruct (window_step _ _ _ _ _ _ _ _ _ Q K) as [w [W Q']].
exists w; split; [exact W|]; intros D Sk H; exact (window_range d n area s g eta w q I S E A D Sk H Q').
Qed.
Print Assumptions C28_bounds.

(* Hence for glazing that lets through at most 99.7 % at normal incidence, at most what falls on the window. *)
Theorem C28_incident_partial : forall d n area s g eta w q, In (d, n) compass -> sound_shading s -> 0 <= eta <= 997 / 1000 -> 0 <= area ->
  0 <= i_dn w -> 0 <= i_sky w -> - (PI / 2) <= h_sun w <= PI / 2 ->
  get_qgt_n d area s g eta w = Ok (Some q) -> 0 <= q <= area * total w n.
Proof. exact window_incident. Qed.
Print Assumptions C28_incident_partial.

(* For eta = 1 the bound fails: the transmittance polynomial exceeds 1. *)
Theorem C28_incident_refuted : exists d n area s g eta w q, In (d, n) compass /\ sound_shading s /\ 0 <= eta <= 1 /\ 0 <= area /\
  0 <= i_dn w /\ 0 <= i_sky w /\ - (PI / 2) <= h_sun w <= PI / 2 /\
  get_qgt_n d area s g eta w = Ok (Some q) /\ area * total w n < q.
Proof.
destruct window_bound_refuted as [q [Q L]]; destruct high_roof as [H _].
exists "top"%string, (Build_vec 0 0 1), 1, (Simple 0 0 1 0), "single"%string, 1, high, q.
split; [simpl; tauto|]; split; [simpl; lra|]; split; [lra|]; split; [lra|]; split; [simpl; lra|]; split; [simpl; lra|].
split; [exact H|]; split; [exact Q|]; lra.
Qed.
Print Assumptions C28_incident_refuted.

(* No radiation, no heat. *)
Theorem C28_dark : forall d area s g eta w q, i_dn w = 0 -> i_sky w = 0 -> get_qgt_n d area s g eta w = Ok (Some q) -> q = 0.
Proof. exact qgt_zero. Qed.
Print Assumptions C28_dark.

(* More direct or more sky radiation never means less heat. *)
Theorem C28_monotone : forall d area s g eta w dn sk q q', sound_shading s -> 0 <= eta -> 0 <= area -> h_sun w <= PI / 2 ->
  i_dn w <= dn -> i_sky w <= sk ->
  get_qgt_n d area s g eta w = Ok (Some q) -> get_qgt_n d area s g eta (with_radiation w dn sk) = Ok (Some q') -> q <= q'.
Proof.
intros d area s g eta w dn sk q q' S E A H D K; apply qgt_mono; auto; pose proof PI_RGT_0; lra.
Qed.
Print Assumptions C28_monotone.

(* The result is a number unless the sun lies exactly in the plane of a shaded wall. *)
Theorem C28_defined : forall d n area s g eta w, In (d, n) compass -> sound_shading s -> s <> Detail ->
  (g = "single" \/ g = "multiple")%string -> a_sun w <> None ->
  (forall v z dh de, s = Simple v z dh de -> 0 < h_sun w -> cos (azimuth (a_sun w) - v) <> 0) ->
  exists q, get_qgt_n d area s g eta w = Ok (Some q).
Proof. intros d n area s g eta w I; destruct (directions_ok d n I) as [alpha [beta [E _]]]; exact (qgt_defined d area s g eta w alpha beta E). Qed.
Print Assumptions C28_defined.

Example C28_example : exists q, get_qgt_n "s" 2 (Simple (radians 0) 1 2 0) "multiple" (1 / 2) noon = Ok (Some q) /\
  0 <= q <= 2 * total noon (Build_vec 1 0 0).
Proof.
destruct sin_cos_deg as [_ [_ [_ [_ [_ [E6 _]]]]]].
destruct (C28_defined "s" (Build_vec 1 0 0) 2 (Simple (radians 0) 1 2 0) "multiple" (1 / 2) noon) as [q Q];
  [left; reflexivity|simpl; lra|discriminate|auto|discriminate| |].
- intros v z dh de [= <- _ _ _] _; simpl; rewrite Rminus_0_l, cos_neg, E6; lra.
- exists q; split; [exact Q|]; apply (C28_incident_partial "s" (Build_vec 1 0 0) 2 (Simple (radians 0) 1 2 0) "multiple" (1 / 2) noon q);
    [left; reflexivity|simpl; lra|lra|lra|simpl; lra|simpl; lra|simpl; pose proof PI_RGT_0; lra|exact Q].
Qed.
