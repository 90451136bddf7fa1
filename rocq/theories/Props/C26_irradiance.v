From Coq Require Import Reals List String Lra.
From Verif Require Import Model.Py Model.Trig Model.BoundaryDict Model.Inclined Spec.Sky Spec.Sunlight Lemmas.TrigL Lemmas.SolarL Lemmas.SunlightL.
Import ListNotations.
Local Open Scope R_scope.

(* C26: for every row of weather data and every surface the three parts are the geometric ones (Spec/Sunlight.v). *)
Theorem C26_parts : forall (w : wstep) (alpha beta : R), sun_known w -> let n := normal alpha beta in
  get_i_is_j_n (i_dn w) (i_sky w) (h_sun w) (a_sun w) alpha beta = (Some (direct w n), sky w n, reflected w n).
Proof. exact parts_total. Qed.
Print Assumptions C26_parts.

(* They are not negative and bounded by what arrives. *)
Theorem C26_bounds : forall (w : wstep) (alpha beta i_d i_s i_r : R), 0 <= i_dn w -> 0 <= i_sky w -> - (PI / 2) <= h_sun w <= PI / 2 ->
  get_i_is_j_n (i_dn w) (i_sky w) (h_sun w) (a_sun w) alpha beta = (Some i_d, i_s, i_r) ->
  0 <= i_d <= i_dn w /\ 0 <= i_s <= i_sky w /\ 0 <= i_r <= 1 / 10 * horizontal w.
Proof.
intros w alpha beta d s r D S H E; destruct (parts_eq _ _ _ _ _ _ H E) as [-> [-> ->]]; exact (parts_range w alpha beta D S).
Qed.
Print Assumptions C26_bounds.

(* View factors. *)
Theorem C26_view : forall beta : R, 0 <= get_f_sky_j beta <= 1 /\ 0 <= get_f_gnd_j (get_f_sky_j beta) <= 1 /\
  get_f_sky_j beta + get_f_gnd_j (get_f_sky_j beta) = 1.
Proof. exact f_sky_range. Qed.
Print Assumptions C26_view.

(* A surface turned away from the sun gets no direct radiation. *)
Theorem C26_turned_away : forall (w : wstep) (alpha beta : R) i_d i_s i_r, - (PI / 2) <= h_sun w <= PI / 2 ->
  dot (sun_of w) (normal alpha beta) <= 0 ->
  get_i_is_j_n (i_dn w) (i_sky w) (h_sun w) (a_sun w) alpha beta = (Some i_d, i_s, i_r) -> i_d = 0.
Proof.
intros w alpha beta d s r H D E; destruct (parts_eq _ _ _ _ _ _ H E) as [-> _]; unfold direct; rewrite Rmax_left by exact D; ring.
Qed.
Print Assumptions C26_turned_away.

(* A horizontal surface facing up gets the horizontal global irradiance. *)
Theorem C26_horizontal : forall (i_dn i_sky h : R) (a : option R), a <> None \/ cos h = 0 -> 0 <= h <= PI / 2 -> 0 <= i_dn -> 0 <= i_sky ->
  exists alpha beta, get_w_alpha_j_w_beta_j "top" = Ok (alpha, beta) /\
  get_i_is_j_n i_dn i_sky h a alpha beta = (Some (i_dn * sin h), i_sky, 0).
Proof. intros i_dn i_sky h a A H D S; exists (radians 0), (radians 0); split; [reflexivity|]; exact (irradiance_top i_dn i_sky h a A H D S). Qed.
Print Assumptions C26_horizontal.

(* The names of directions mean what the compass says, and no others are accepted. *)
Theorem C26_directions : forall d : string,
  (forall n, In (d, n) compass -> exists alpha beta, get_w_alpha_j_w_beta_j d = Ok (alpha, beta) /\ normal alpha beta = n) /\
  (forall alpha beta, get_w_alpha_j_w_beta_j d = Ok (alpha, beta) -> exists n, In (d, n) compass /\ normal alpha beta = n).
Proof. intro d; split; [exact (directions_ok d)|exact (directions_known d)]. Qed.
Print Assumptions C26_directions.

(* sun in the south, 60 degrees high: half of the direct radiation on a south wall, none on a north wall *)
Example C26_example : sun_known noon /\ 0 <= i_dn noon /\ 0 <= i_sky noon /\
  In ("s"%string, Build_vec 1 0 0) compass /\ direct noon (Build_vec 1 0 0) = 400 /\ direct noon (Build_vec (- 1) 0 0) = 0.
Proof.
split; [split; [simpl; pose proof PI_RGT_0; lra|left; discriminate]|].
split; [simpl; lra|split; [simpl; lra|split; [left; reflexivity|]]].
unfold direct, sun_of, dot, Sky.direction; simpl; rewrite cos_PI3, cos_0, sin_0.
split; [rewrite Rmax_right|rewrite Rmax_left]; lra.
Qed.
