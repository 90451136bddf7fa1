From Coq Require Import Reals List String Lra.
From Verif Require Import Model.Py Model.Trig Model.BoundaryDict Model.Inclined Model.SolarShading Model.Transmission
  Spec.Sky Spec.Sunlight Lemmas.TrigL Lemmas.SolarL Lemmas.SunlightL.
Import ListNotations.
Local Open Scope R_scope.

(* C27: both ratios of every sunshade lie between 0 and 1. *)
Theorem C27_range : forall (s : shading) (h : R) (a : option R) (f_d f_s : R),
  (get_f_ss_d_j_n s h a = Ok (Some f_d) -> 0 <= f_d <= 1) /\
  (sound_shading s -> get_f_ss_s_j s = Ok f_s -> 0 <= f_s <= 1).
Proof. intros s h a f_d f_s; split; [exact (shade_range s h a f_d)|exact (shade_sky_range s f_s)]. Qed.
Print Assumptions C27_range.

(* The shaded height is the part of the window that the shadow of the overhang covers; a wall turned away from the sun
   and the night are left alone. *)
Theorem C27_geometry : forall w z dh de h a f, 0 < dh -> 0 <= de -> 0 <= z -> 0 < h < PI / 2 ->
  get_f_ss_d_j_n (Simple w z dh de) h (Some a) = Ok (Some f) ->
  (0 < dot (Sky.direction h a) (normal w (PI / 2)) ->
   f * dh = Rmin dh (Rmax 0 (shadow z w (Sky.direction h a) - de))) /\
  (dot (Sky.direction h a) (normal w (PI / 2)) < 0 -> f = 0).
Proof. exact shade_geometry. Qed.
Print Assumptions C27_geometry.

Theorem C27_night : forall w z dh de h a, h <= 0 -> get_f_ss_d_j_n (Simple w z dh de) h a = Ok (Some 0).
Proof. exact shade_night. Qed.
Print Assumptions C27_night.

(* A deeper overhang never shades less, neither from the sun nor from the sky. *)
Theorem C27_deeper : forall w z z' dh de h a f f', 0 < dh -> 0 <= de -> 0 <= z <= z' -> h < PI / 2 ->
  get_f_ss_d_j_n (Simple w z dh de) h a = Ok (Some f) -> get_f_ss_d_j_n (Simple w z' dh de) h a = Ok (Some f') -> f <= f'.
Proof. exact shade_mono. Qed.
Print Assumptions C27_deeper.

Theorem C27_deeper_sky : forall w z z' dh de f f', 0 < dh -> 0 <= de -> 0 <= z <= z' ->
  get_f_ss_s_j (Simple w z dh de) = Ok f -> get_f_ss_s_j (Simple w z' dh de) = Ok f' -> f <= f'.
Proof. exact shade_sky_mono. Qed.
Print Assumptions C27_deeper_sky.

(* An overhang hides at most half of the sky. *)
Theorem C27_sky : forall w z dh de, 0 < dh -> 0 <= de -> 0 <= z -> exists f, get_f_ss_s_j (Simple w z dh de) = Ok f /\ 0 <= f <= 1 / 2 /\
  f = (dh + sqrt (de ^ 2 + z ^ 2) - sqrt ((de + dh) ^ 2 + z ^ 2)) / (2 * dh).
Proof. exact shade_sky. Qed.
Print Assumptions C27_sky.

(* The last part of the property is false: a window without sunshade gets less than the same window with one. *)
Theorem C27_no_sunshade_refuted : exists (w : wstep) (s : shading) (q0 q1 : R), sound_shading s /\
  get_qgt_n "s" 1 NotShaded "single" 1 w = Ok (Some q0) /\ get_qgt_n "s" 1 s "single" 1 w = Ok (Some q1) /\ q0 < q1.
Proof.
destruct window_refuted as [q0 [q1 [Q0 [Q1 L]]]]; exists noon, (Simple (radians 0) (1 / 10) 1 1), q0, q1.
split; [simpl; lra|auto].
Qed.
Print Assumptions C27_no_sunshade_refuted.

(* What it does instead: direct radiation is always left out. *)
Theorem C27_no_sunshade_as_coded : forall d n area g eta w q, In (d, n) compass -> - (PI / 2) <= h_sun w <= PI / 2 ->
  get_qgt_n d area NotShaded g eta w = Ok (Some q) ->
  exists c, 0 <= c <= 1 /\ q = eta * c * (sky w n + reflected w n) * area.
Proof. exact window_no_sunshade. Qed.
Print Assumptions C27_no_sunshade_as_coded.

(* Only an existing overhang over a sunlit external part shades. *)
Theorem C27_create : forall b s w z dh de, create_shading b = Ok s -> s = Simple w z dh de ->
  exists p d beta, solar_shading_part b = Some p /\ existence p = true /\ is_sun_striked_outside b = Some true /\
  input_method p = Some "simple"%string /\ depth p = Some z /\ d_h p = Some dh /\ d_e p = Some de /\
  BoundaryDict.direction b = Some d /\ get_w_alpha_j_w_beta_j d = Ok (w, beta).
Proof. exact create_shading_simple. Qed.
Print Assumptions C27_create.

(* an overhang of 1 m, window of 2 m height: the sun at 45 degrees straight in front shades 1 m, half of it *)
Example C27_example : get_f_ss_d_j_n (Simple 0 1 2 0) (PI / 4) (Some 0) = Ok (Some (1 / 2)).
Proof.
rewrite shade_value; [|pose proof PI_RGT_0; lra|rewrite Rminus_0_r, cos_0; lra|lra].
replace (0 - 0) with 0 by ring; rewrite cos_0, sin_PI4, cos_PI4.
replace ((1 * (1 / sqrt 2 / (1 / sqrt 2 * 1)) - 0) / 2) with (1 / 2).
- unfold clip; rewrite Rmax_left by lra; rewrite Rmin_left; [reflexivity|lra].
- assert (0 < sqrt 2) by (apply sqrt_lt_R0; lra); field; lra.
Qed.
