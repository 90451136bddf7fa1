From Coq Require Import Reals List String Lra.
From Verif Require Import Model.Py Model.Trig Model.BoundaryDict Model.Inclined Model.OutsideEqvTemp
  Spec.Sky Spec.Sunlight Lemmas.TrigL Lemmas.SolarL Lemmas.SunlightL.
Import ListNotations.
Local Open Scope R_scope.

(* C29: opaque parts. *)
Theorem C29_opaque : forall d n a_s eps r ws, In (d, n) compass -> (forall w, In w ws -> sun_known w) ->
  get_theta_o_sol (OOpaque d a_s eps r) ws =
  Ok (map (fun w => Some (theta_o w + r * (a_s * total w n - eps * night w n))) ws).
Proof. exact opaque_all. Qed.
Print Assumptions C29_opaque.

(* Never below the outdoor temperature by more than the night radiation. *)
Theorem C29_lower : forall d n a_s eps r w th, In (d, n) compass -> - (PI / 2) <= h_sun w <= PI / 2 ->
  0 <= a_s -> 0 <= eps -> 0 <= r -> 0 <= i_dn w -> 0 <= i_sky w -> 0 <= r_n w ->
  theta_opaque d a_s eps r w = Ok (Some th) -> theta_o w - r * eps * r_n w <= th.
Proof. exact opaque_lower. Qed.
Print Assumptions C29_lower.

(* Rises with radiation. *)
Theorem C29_monotone : forall d n a_s eps r w dn sk th th', In (d, n) compass -> - (PI / 2) <= h_sun w <= PI / 2 ->
  0 <= a_s -> 0 <= r -> i_dn w <= dn -> i_sky w <= sk ->
  theta_opaque d a_s eps r w = Ok (Some th) -> theta_opaque d a_s eps r (with_radiation w dn sk) = Ok (Some th') -> th <= th'.
Proof. exact opaque_mono. Qed.
Print Assumptions C29_monotone.

(* Windows: only the night radiation; the sun is counted as transmitted heat (C28). *)
Theorem C29_transparent : forall d n eps r ws, In (d, n) compass ->
  get_theta_o_sol (OTransparent d eps r) ws = Ok (map (fun w => Some (theta_o w - r * (eps * night w n))) ws).
Proof. exact transparent_all. Qed.
Print Assumptions C29_transparent.

(* Parts without sun: the outdoor temperature; parts to the ground: its annual mean, for every step. *)
Theorem C29_no_sun : forall ws,
  get_theta_o_sol ONotSun ws = Ok (map (fun w => Some (theta_o w)) ws) /\
  (ws <> [] -> exists m, get_theta_o_sol OGround ws = Ok (repeat (Some m) (24 * 365 * 4)) /\
   m * INR (List.length ws) = fold_right Rplus 0 (map theta_o ws)).
Proof. exact no_sun_ground. Qed.
Print Assumptions C29_no_sun.

(* Which kind a part of the input file gets. *)
Theorem C29_create : forall b o, create_oet b = Ok o ->
  (o = OInternal <-> boundary_type b = Some "internal"%string) /\
  (o = OGround <-> boundary_type b = Some "ground"%string) /\
  (o = ONotSun -> is_sun_striked_outside b = Some false) /\
  (forall d a e r, o = OOpaque d a e r -> is_sun_striked_outside b = Some true /\ BoundaryDict.direction b = Some d /\
     outside_solar_absorption b = Some a /\ outside_emissivity b = Some e /\ outside_heat_transfer_resistance b = Some r /\
     (boundary_type b = Some "external_general_part" \/ boundary_type b = Some "external_opaque_part")%string) /\
  (forall d e r, o = OTransparent d e r -> is_sun_striked_outside b = Some true /\ BoundaryDict.direction b = Some d /\
     outside_emissivity b = Some e /\ outside_heat_transfer_resistance b = Some r /\
     boundary_type b = Some "external_transparent_part"%string).
Proof. exact create_oet_ok. Qed.
Print Assumptions C29_create.

(* south wall at noon: 30 + 0.04 * (0.8 * (400 + 50 + 0.05 * (800 * sin 60 + 100)) - 0.9 * 25) *)
Example C29_example : sun_known noon /\
  exists th, theta_opaque "s" (8 / 10) (9 / 10) (4 / 100) noon = Ok (Some th) /\ 43 < th < 46.
Proof.
assert (K : sun_known noon) by (split; [simpl; pose proof PI_RGT_0; lra|left; discriminate]).
split; [exact K|]; eexists; split; [apply (opaque_total "s" (Build_vec 1 0 0)); [left; reflexivity|exact K]|].
unfold total, night, direct, sky, reflected, horizontal, sun_of, dot, Sky.direction; simpl; rewrite cos_PI3, cos_0, sin_0.
rewrite (Rmax_right 0 (1 / 2 * 1 * 1 + 1 / 2 * 0 * 0 + sin (PI / 3) * 0)) by lra.
assert (P : 0 <= sin (PI / 3) <= 1) by (split; [apply sin_ge_0; pose proof PI_RGT_0; lra|apply SIN_bound]).
rewrite Rmax_right by lra; lra.
Qed.
