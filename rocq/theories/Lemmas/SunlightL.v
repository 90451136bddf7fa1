From Coq Require Import Reals List String Bool Lra Lia.
From Verif Require Import Model.Py Model.Trig Model.BoundaryDict Model.Inclined Model.SolarShading Model.Transmission Model.OutsideEqvTemp
  Spec.Sky Spec.Sunlight Lemmas.PyL Lemmas.TrigL Lemmas.SolarL.
Import ListNotations.
Local Open Scope R_scope.

Lemma up_normal alpha beta : up (normal alpha beta) = cos beta.
Proof. reflexivity. Qed.

Lemma horizontal_eq w : - (PI / 2) <= h_sun w <= PI / 2 -> get_i_hrz_n (i_dn w) (i_sky w) (h_sun w) = horizontal w.
Proof.
intro H; unfold get_i_hrz_n, horizontal, sun_of; simpl.
destruct (Rlt_dec 0 (h_sun w)).
- rewrite Rmax_right; [ring|apply sin_ge_0; lra].
- rewrite Rmax_left; [ring|].
  assert (0 <= sin (- h_sun w)) by (apply sin_ge_0; lra); rewrite sin_neg in *; lra.
Qed.

Lemma parts_eq w alpha beta d s r : - (PI / 2) <= h_sun w <= PI / 2 ->
  get_i_is_j_n (i_dn w) (i_sky w) (h_sun w) (a_sun w) alpha beta = (Some d, s, r) ->
  let n := normal alpha beta in d = direct w n /\ s = sky w n /\ r = reflected w n.
Proof.
intros H I n; unfold get_i_is_j_n in I.
destruct (get_theta_aoi_j_n _ _ alpha beta) as [t|] eqn:Et; [|discriminate]; simpl in I; injection I as <- <- <-.
destruct (aoi_cos _ _ _ _ _ Et) as [_ [_ C]].
unfold direct, sky, reflected, sun_of, get_i_is_sky_j_n, get_i_is_ref_j_n, get_f_gnd_j, get_f_sky_j, get_rho_gnd.
rewrite <- horizontal_eq by exact H; rewrite C; subst n; rewrite up_normal; repeat split; field.
Qed.

Lemma parts_total w alpha beta : sun_known w -> let n := normal alpha beta in
  get_i_is_j_n (i_dn w) (i_sky w) (h_sun w) (a_sun w) alpha beta = (Some (direct w n), sky w n, reflected w n).
Proof.
intros [H A] n; destruct (aoi_any (h_sun w) (a_sun w) alpha beta A) as [t [Et _]].
destruct (get_i_is_j_n (i_dn w) (i_sky w) (h_sun w) (a_sun w) alpha beta) as [[[d|] s] r] eqn:I.
- destruct (parts_eq _ _ _ _ _ _ H I) as [-> [-> ->]]; reflexivity.
- exfalso; revert I; unfold get_i_is_j_n; rewrite Et; discriminate.
Qed.

Lemma parts_range w alpha beta : 0 <= i_dn w -> 0 <= i_sky w -> let n := normal alpha beta in
  0 <= direct w n <= i_dn w /\ 0 <= sky w n <= i_sky w /\ 0 <= reflected w n <= 1 / 10 * horizontal w.
Proof.
intros D S n; unfold direct, sky, reflected.
assert (R1 : 0 <= Rmax 0 (dot (sun_of w) n) <= 1).
{ pose proof (dot_range (h_sun w) (azimuth (a_sun w)) alpha beta) as B; unfold sun_of; fold n in B; split; [apply Rmax_l|apply Rmax_lub; lra]. }
assert (Hz : 0 <= horizontal w) by (unfold horizontal; pose proof (Rmax_l 0 (up (sun_of w))); nra).
pose proof (cos_range beta) as B; subst n; rewrite up_normal in *.
split; [nra|split; [nra|]]; split; [apply Rmult_le_pos; nra|].
assert (X : (1 - cos beta) / 2 <= 1) by lra; assert (Y : 0 <= 1 / 10 * horizontal w) by lra; nra.
Qed.

Lemma known_direction d n alpha beta : In (d, n) compass -> get_w_alpha_j_w_beta_j d = Ok (alpha, beta) -> normal alpha beta = n.
Proof. intros I E; destruct (directions_ok _ _ I) as [a' [b' [E' N]]]; congruence. Qed.

(* windows *)
Lemma window_step d area s g eta ws qs k q : get_qgt (SunStrike d area s g eta) ws = Ok qs -> nth_error qs k = Some q ->
  exists w, nth_error ws k = Some w /\ get_qgt_n d area s g eta w = Ok q.
Proof.
simpl; intros M K; destruct (mapM_ok _ _ _ _ _ M) as [L F].
destruct (nth_error ws k) as [w|] eqn:W.
- exists w; split; [reflexivity|]; destruct (F _ _ W) as [q' [E' Q']]; congruence.
- exfalso; apply nth_error_None in W; assert (nth_error qs k <> None) by congruence; apply nth_error_Some in H; lia.
Qed.

Lemma window_range d n area s g eta w q : In (d, n) compass -> sound_shading s -> 0 <= eta -> 0 <= area ->
  0 <= i_dn w -> 0 <= i_sky w -> - (PI / 2) <= h_sun w <= PI / 2 ->
  get_qgt_n d area s g eta w = Ok (Some q) -> 0 <= q <= 1003 / 1000 * eta * area * total w n.
Proof.
intros I S E A D K H Q; destruct (directions_ok _ _ I) as [alpha [beta [Ab N]]].
destruct (qgt_ok _ _ _ _ _ _ _ Q) as [al [be [t [_ [_ [_ [_ [Ab' [Et _]]]]]]]]].
rewrite Ab in Ab'; injection Ab' as <- <-; destruct (aoi_cos _ _ _ _ _ Et) as [_ [An _]].
assert (P := parts_total w alpha beta (conj H An)); simpl in P; rewrite N in P.
destruct (qgt_bounds _ _ _ _ _ _ _ _ _ _ _ _ S E A D K ltac:(pose proof PI_RGT_0; lra) Q Ab P) as [X Y].
split; [exact X|]; unfold total; lra.
Qed.

Lemma with_radiation_id w : with_radiation w (i_dn w) (i_sky w) = w.
Proof. destruct w; reflexivity. Qed.

Lemma total_range w alpha beta : 0 <= i_dn w -> 0 <= i_sky w -> 0 <= total w (normal alpha beta).
Proof. intros D S; destruct (parts_range w alpha beta D S) as [? [? ?]]; unfold total; lra. Qed.

(* north, south, ... without a sunshade: no direct radiation *)
Lemma window_no_sunshade d n area g eta w q : In (d, n) compass -> - (PI / 2) <= h_sun w <= PI / 2 ->
  get_qgt_n d area NotShaded g eta w = Ok (Some q) ->
  exists c, 0 <= c <= 1 /\ q = eta * c * (sky w n + reflected w n) * area.
Proof.
intros I H Q; destruct (qgt_no_sunshade _ _ _ _ _ _ Q) as [alpha [beta [c [Ab [C E]]]]].
exists c; split; [apply (c_d_range _ _ C)|]; rewrite E, <- (known_direction _ _ _ _ I Ab).
unfold sky, reflected; rewrite up_normal, horizontal_eq by exact H; ring.
Qed.

(* sun in the south, 60 degrees high *)
Definition noon : wstep := {| theta_o := 30; i_dn := 800; i_sky := 100; r_n := 50; h_sun := PI / 3; a_sun := Some 0 |}.

Lemma noon_south : exists t, get_theta_aoi_j_n (PI / 3) (Some 0) (radians 0) (radians 90) = Some t /\ cos t = 1 / 2.
Proof.
destruct (aoi_ok (PI / 3) 0 (radians 0) (radians 90)) as [t [E [C _]]]; exists t; split; [exact E|rewrite C].
destruct sin_cos_deg as [E1 [E2 [_ [_ [E5 [E6 _]]]]]].
unfold dot, Sky.direction, normal; simpl; rewrite cos_PI3, E1, E2, E5, E6, cos_0, sin_0, Rmax_right; lra.
Qed.

Lemma window_refuted : exists q0 q1,
  get_qgt_n "s" 1 NotShaded "single" 1 noon = Ok (Some q0) /\
  get_qgt_n "s" 1 (Simple (radians 0) (1 / 10) 1 1) "single" 1 noon = Ok (Some q1) /\ q0 < q1.
Proof.
destruct noon_south as [t [Et C]].
assert (D : (forall v z dh de, NotShaded = Simple v z dh de -> 0 < h_sun noon -> cos (azimuth (a_sun noon) - v) <> 0)) by discriminate.
destruct (qgt_defined "s" 1 NotShaded "single" 1 noon (radians 0) (radians 90) eq_refl) as [q0 Q0]; [exact I|discriminate|auto|discriminate|exact D|].
destruct sin_cos_deg as [E1 [E2 [_ [_ [E5 [E6 _]]]]]].
destruct (qgt_defined "s" 1 (Simple (radians 0) (1 / 10) 1 1) "single" 1 noon (radians 0) (radians 90) eq_refl) as [q1 Q1];
  [simpl; lra|discriminate|auto|discriminate| |].
{ intros v z dh de [= <- _ _ _] _; unfold noon, azimuth; simpl; rewrite Rminus_0_l, cos_neg, E6; lra. }
exists q0, q1; split; [exact Q0|split; [exact Q1|]].
destruct (qgt_no_sunshade _ _ _ _ _ _ Q0) as [al [be [c [Ab [Ec ->]]]]].
destruct (qgt_ok _ _ _ _ _ _ _ Q1) as [al' [be' [t' [fd [fs [tau [c' [Ab' [Et' [Ed [Es [Etau [Ec' ->]]]]]]]]]]]]].
assert (c' = c) by congruence; assert (be' = be) by congruence; assert (al' = al) by congruence; subst c' be' al'.
injection Ab as <- <-; simpl in Et'; rewrite Et in Et'; injection Et' as <-.
simpl in Ec; injection Ec as <-; simpl in Etau; injection Etau as <-.
rewrite C, E2.
assert (Fd : fd = 0).
{ simpl h_sun in Ed; simpl a_sun in Ed.
  rewrite shade_value in Ed; [|split; pose proof PI_RGT_0; lra|rewrite Rminus_0_l, cos_neg, E6; lra|lra].
  assert (P : sin (PI / 3) / (cos (PI / 3) * cos (0 - radians 0)) <= 2).
  { rewrite cos_PI3, Rminus_0_l, cos_neg, E6; pose proof (SIN_bound (PI / 3)); lra. }
  set (x := sin _ / _) in *; assert (Z : fd = clip ((1 / 10 * x - 1) / 1) 0 1) by congruence; rewrite Z.
  unfold clip; rewrite Rmax_right by lra; rewrite Rmin_left; lra. }
destruct (shade_sky (radians 0) (1 / 10) 1 1 ltac:(lra) ltac:(lra) ltac:(lra)) as [f' [G [B _]]].
assert (fs = f') by congruence; subst f' fd; simpl i_dn; simpl i_sky; simpl h_sun.
assert (T : tau_single (1 / 2) > 8 / 10) by (unfold tau_single; lra).
set (hz := get_i_hrz_n _ _ _); set (T' := tau_single (1 / 2)) in *; nra.
Qed.

(* the sun at an altitude of asin 0.96, straight glass on the roof *)
Definition high : wstep := {| theta_o := 30; i_dn := 800; i_sky := 0; r_n := 50; h_sun := asin (24 / 25); a_sun := Some 0 |}.

Lemma high_roof : - (PI / 2) <= h_sun high <= PI / 2 /\ sin (h_sun high) = 24 / 25 /\ 0 < h_sun high.
Proof.
simpl; split; [apply asin_bound|split; [apply sin_asin; lra|]].
apply Rnot_le_lt; intro N; assert (H : sin (asin (24 / 25)) <= 0).
{ pose proof (asin_bound (24 / 25)); assert (0 <= sin (- asin (24 / 25))) by (apply sin_ge_0; lra); rewrite sin_neg in *; lra. }
rewrite sin_asin in H by lra; lra.
Qed.

Lemma window_bound_refuted : exists q, get_qgt_n "top" 1 (Simple 0 0 1 0) "single" 1 high = Ok (Some q) /\
  total high (Build_vec 0 0 1) < q.
Proof.
destruct high_roof as [H1 [H2 H3]].
destruct (qgt_defined "top" 1 (Simple 0 0 1 0) "single" 1 high (radians 0) (radians 0) eq_refl) as [q Q];
  [simpl; lra|discriminate|auto|discriminate| |].
{ intros v z dh de [= <- _ _ _] _; simpl; rewrite Rminus_0_r, cos_0; lra. }
exists q; split; [exact Q|].
destruct sin_cos_deg as [_ [_ [_ [_ [E5 [E6 _]]]]]].
assert (D : dot (sun_of high) (normal (radians 0) (radians 0)) = 24 / 25).
{ unfold dot, sun_of, Sky.direction, normal; cbn [south west up]; rewrite E5, E6, H2; ring. }
destruct (qgt_ok _ _ _ _ _ _ _ Q) as [al' [be' [t' [fd [fs [tau [c' [Ab' [Et' [Ed [Es [Etau [Ec' ->]]]]]]]]]]]]].
injection Ab' as <- <-; destruct (aoi_cos _ _ _ _ _ Et') as [_ [_ C]].
change (Sky.direction (h_sun high) (azimuth (a_sun high))) with (sun_of high) in C; rewrite D, Rmax_right in C by lra.
simpl in Etau; injection Etau as <-; rewrite C, E6.
assert (Fd : fd = 0).
{ revert Ed; simpl a_sun; intro Ed; unfold get_f_ss_d_j_n in Ed.
  destruct (Rlt_dec 0 (h_sun high)); [|lra]; destruct (Rle_dec (h_sun high) 0); [lra|]; simpl obind in Ed.
  rewrite div_some in Ed by (rewrite Rminus_0_r, cos_0; lra); simpl obind in Ed; rewrite div_some in Ed by lra; simpl obind in Ed.
  set (x := tan _ / _) in *; assert (Z : fd = clip ((0 * x - 0) / 1) 0 1) by congruence; rewrite Z.
  replace ((0 * x - 0) / 1) with 0 by field; unfold clip; rewrite Rmax_left by lra; rewrite Rmin_left; lra. }
rewrite Fd; unfold total, direct, sky, reflected; cbn [up]; simpl i_dn; simpl i_sky.
assert (D' : dot (sun_of high) (Build_vec 0 0 1) = 24 / 25) by (unfold dot, sun_of, Sky.direction; cbn [south west up]; rewrite H2; ring).
rewrite D', Rmax_right by lra; unfold tau_single; lra.
Qed.

(* equivalent temperature *)
Lemma opaque_value d n a_s eps r w th : In (d, n) compass -> - (PI / 2) <= h_sun w <= PI / 2 ->
  theta_opaque d a_s eps r w = Ok (Some th) -> th = theta_o w + r * (a_s * total w n - eps * night w n).
Proof.
intros I H E; destruct (opaque_ok _ _ _ _ _ _ E) as [alpha [beta [e_d [e_s [e_r [Ab [P ->]]]]]]].
destruct (parts_eq _ _ _ _ _ _ H P) as [-> [-> ->]]; rewrite (known_direction _ _ _ _ I Ab).
unfold total, night; rewrite <- (known_direction _ _ _ _ I Ab), up_normal; reflexivity.
Qed.

Lemma opaque_total d n a_s eps r w : In (d, n) compass -> sun_known w ->
  theta_opaque d a_s eps r w = Ok (Some (theta_o w + r * (a_s * total w n - eps * night w n))).
Proof.
intros I [H A]; destruct (directions_ok _ _ I) as [alpha [beta [Ab N]]].
destruct (opaque_defined d a_s eps r w alpha beta Ab A) as [th E]; rewrite E; do 2 f_equal; eapply opaque_value; eauto.
Qed.

Lemma transparent_total d n eps r w : In (d, n) compass -> theta_transparent d eps r w = Ok (Some (theta_o w - r * (eps * night w n))).
Proof.
intro I; destruct (directions_ok _ _ I) as [alpha [beta [Ab N]]]; unfold theta_transparent; rewrite Ab; cbn [bind fst snd].
unfold night, get_r_n_is_j_n, get_f_sky_j; rewrite <- N, up_normal; do 2 f_equal; ring.
Qed.

Lemma window_incident d n area s g eta w q : In (d, n) compass -> sound_shading s -> 0 <= eta <= 997 / 1000 -> 0 <= area ->
  0 <= i_dn w -> 0 <= i_sky w -> - (PI / 2) <= h_sun w <= PI / 2 ->
  get_qgt_n d area s g eta w = Ok (Some q) -> 0 <= q <= area * total w n.
Proof.
intros I S E A D K H Q; destruct (window_range d n area s g eta w q I S ltac:(lra) A D K H Q) as [X Y]; split; [exact X|].
destruct (directions_ok _ _ I) as [alpha [beta [_ N]]]; pose proof (total_range w alpha beta D K) as T; rewrite N in T.
assert (0 <= area * total w n) by nra.
replace (1003 / 1000 * eta * area * total w n) with (1003 / 1000 * eta * (area * total w n)) in Y by ring; nra.
Qed.

Lemma create_transmission_ok b s t : create_transmission b s = Ok t ->
  (t = NotTransmitting <-> ~ (boundary_type b = Some "external_transparent_part"%string /\ is_sun_striked_outside b = Some true)) /\
  (forall d a s' g e, t = SunStrike d a s' g e ->
   s' = s /\ BoundaryDict.direction b = Some d /\ area b = Some a /\ incident_angle_characteristics b = Some g /\ eta_value b = Some e).
Proof.
unfold create_transmission, key.
destruct (boundary_type b) as [bt|]; [|discriminate]; simpl.
destruct (String.eqb_spec bt "external_transparent_part") as [->|N].
- destruct (is_sun_striked_outside b) as [[|]|]; [| |discriminate]; simpl.
  + destruct (BoundaryDict.direction b), (area b), (incident_angle_characteristics b), (eta_value b); simpl; try discriminate.
    intros [= <-]; split; [split; [discriminate|intro X; exfalso; apply X; auto]|].
    intros ? ? ? ? ? [= <- <- <- <- <-]; auto.
  + intros [= <-]; split; [split; [intros _ [_ X]; discriminate|reflexivity]|discriminate].
- intros [= <-]; split; [split; [intros _ [X _]; congruence|reflexivity]|discriminate].
Qed.

Lemma create_shading_simple b s w z dh de : create_shading b = Ok s -> s = Simple w z dh de ->
  exists p d beta, solar_shading_part b = Some p /\ existence p = true /\ is_sun_striked_outside b = Some true /\
  input_method p = Some "simple"%string /\ depth p = Some z /\ d_h p = Some dh /\ d_e p = Some de /\
  BoundaryDict.direction b = Some d /\ get_w_alpha_j_w_beta_j d = Ok (w, beta).
Proof.
unfold create_shading, key; intros H ->.
destruct (solar_shading_part b) as [p|]; [|discriminate]; simpl in H.
destruct (boundary_type b) as [bt|]; [|discriminate]; simpl in H.
apply bind_ok in H; destruct H as [sun [Es H]].
destruct (existence p) eqn:Ep, sun; simpl in H; try discriminate.
assert (Eb : is_sun_striked_outside b = Some true).
{ destruct (is_external bt); [|destruct ((bt =? "internal")%string || (bt =? "ground")%string); discriminate].
  destruct (is_sun_striked_outside b); simpl in Es; congruence. }
destruct (input_method p) as [m|] eqn:Em; [|discriminate]; simpl in H.
destruct (BoundaryDict.direction b) as [d|]; [|discriminate]; simpl in H.
apply bind_ok in H; destruct H as [[al be] [Ed H]].
destruct (String.eqb_spec m "simple") as [->|]; [|destruct (m =? "detail")%string; discriminate].
destruct (depth p) eqn:E1, (d_h p) eqn:E2, (d_e p) eqn:E3; simpl in H; try discriminate; injection H as <- <- <- <-.
exists p, d, be; repeat split; auto.
Qed.

Lemma mapM_map A B (f : A -> res B) g l : (forall x, In x l -> f x = Ok (g x)) -> mapM f l = Ok (map g l).
Proof.
induction l as [|a l IH]; simpl; intro H; [reflexivity|].
rewrite H by auto; simpl; rewrite IH by auto; reflexivity.
Qed.

Lemma opaque_all d n a_s eps r ws : In (d, n) compass -> (forall w, In w ws -> sun_known w) ->
  get_theta_o_sol (OOpaque d a_s eps r) ws =
  Ok (map (fun w => Some (theta_o w + r * (a_s * total w n - eps * night w n))) ws).
Proof.
intros I K; simpl; apply (mapM_map _ _ _ (fun w => Some (theta_o w + r * (a_s * total w n - eps * night w n)))).
intros w W; apply opaque_total; auto.
Qed.

Lemma transparent_all d n eps r ws : In (d, n) compass ->
  get_theta_o_sol (OTransparent d eps r) ws = Ok (map (fun w => Some (theta_o w - r * (eps * night w n))) ws).
Proof.
intros I; simpl; apply (mapM_map _ _ _ (fun w => Some (theta_o w - r * (eps * night w n)))); intros; apply transparent_total; auto.
Qed.

Lemma opaque_lower d n a_s eps r w th : In (d, n) compass -> - (PI / 2) <= h_sun w <= PI / 2 ->
  0 <= a_s -> 0 <= eps -> 0 <= r -> 0 <= i_dn w -> 0 <= i_sky w -> 0 <= r_n w ->
  theta_opaque d a_s eps r w = Ok (Some th) -> theta_o w - r * eps * r_n w <= th.
Proof.
intros I H A E R D S N Q; rewrite (opaque_value _ _ _ _ _ _ _ I H Q).
destruct (directions_ok _ _ I) as [alpha [beta [_ Nn]]]; pose proof (total_range w alpha beta D S) as T; rewrite Nn in T.
unfold night; rewrite <- Nn in *; rewrite up_normal; pose proof (cos_range beta) as B; set (x := total _ _) in *.
assert (V : 0 <= (1 + cos beta) / 2 <= 1) by lra; set (v := (1 + cos beta) / 2) in *.
assert (0 <= a_s * x) by nra; assert (0 <= eps * r_n w) by nra; assert (eps * (v * r_n w) <= eps * r_n w) by (apply Rmult_le_compat_l; nra).
assert (r * (eps * (v * r_n w)) <= r * (eps * r_n w)) by (apply Rmult_le_compat_l; lra).
assert (0 <= r * (a_s * x)) by nra; lra.
Qed.

Lemma opaque_mono d n a_s eps r w dn sk th th' : In (d, n) compass -> - (PI / 2) <= h_sun w <= PI / 2 ->
  0 <= a_s -> 0 <= r -> i_dn w <= dn -> i_sky w <= sk ->
  theta_opaque d a_s eps r w = Ok (Some th) -> theta_opaque d a_s eps r (with_radiation w dn sk) = Ok (Some th') -> th <= th'.
Proof.
intros I H A R D S Q Q'; destruct (opaque_ok _ _ _ _ _ _ Q) as [al [be [d1 [s1 [r1 [Ab [P ->]]]]]]].
destruct (opaque_ok _ _ _ _ _ _ Q') as [al' [be' [d2 [s2 [r2 [Ab' [P' ->]]]]]]]; rewrite Ab in Ab'; injection Ab' as <- <-.
assert (Hp : h_sun w <= PI) by (pose proof PI_RGT_0; lra).
destruct (irr_mono _ _ _ _ _ _ _ _ _ _ _ _ _ _ Hp D S P P') as [L1 [L2 L3]]; simpl theta_o; simpl r_n.
assert (X : a_s * (d1 + s1 + r1) <= a_s * (d2 + s2 + r2)) by (apply Rmult_le_compat_l; lra).
apply Rplus_le_compat_l, Rmult_le_compat_l; lra.
Qed.

Lemma no_sun_ground ws :
  get_theta_o_sol ONotSun ws = Ok (map (fun w => Some (theta_o w)) ws) /\
  (ws <> [] -> exists m, get_theta_o_sol OGround ws = Ok (repeat (Some m) (24 * 365 * 4)) /\
   m * INR (List.length ws) = fold_right Rplus 0 (map theta_o ws)).
Proof.
split; [reflexivity|]; intro N.
assert (L : INR (List.length ws) <> 0) by (destruct ws; [congruence|]; simpl List.length; apply not_0_INR; discriminate).
exists (sum (map theta_o ws) / INR (List.length ws)); split.
- unfold get_theta_o_sol; rewrite div_some by exact L; reflexivity.
- unfold sum; field; exact L.
Qed.

Lemma create_oet_ok b o : create_oet b = Ok o ->
  (o = OInternal <-> boundary_type b = Some "internal"%string) /\
  (o = OGround <-> boundary_type b = Some "ground"%string) /\
  (o = ONotSun -> is_sun_striked_outside b = Some false) /\
  (forall d a e r, o = OOpaque d a e r -> is_sun_striked_outside b = Some true /\ BoundaryDict.direction b = Some d /\
     outside_solar_absorption b = Some a /\ outside_emissivity b = Some e /\ outside_heat_transfer_resistance b = Some r /\
     (boundary_type b = Some "external_general_part" \/ boundary_type b = Some "external_opaque_part")%string) /\
  (forall d e r, o = OTransparent d e r -> is_sun_striked_outside b = Some true /\ BoundaryDict.direction b = Some d /\
     outside_emissivity b = Some e /\ outside_heat_transfer_resistance b = Some r /\
     boundary_type b = Some "external_transparent_part"%string).
Proof.
unfold create_oet, key; destruct (boundary_type b) as [t|]; [|discriminate]; simpl.
destruct (String.eqb_spec t "internal") as [->|N1].
{ intros [= <-]; repeat split; try discriminate; reflexivity. }
destruct (String.eqb_spec t "external_general_part") as [->|N2]; [|destruct (String.eqb_spec t "external_opaque_part") as [->|N3]]; simpl.
1,2: destruct (is_sun_striked_outside b) as [[|]|]; simpl; [| |discriminate];
  [destruct (BoundaryDict.direction b), (outside_solar_absorption b), (outside_emissivity b), (outside_heat_transfer_resistance b); simpl; try discriminate|];
  intros [= <-]; repeat split; try discriminate; intros; try congruence; auto;
  repeat match goal with H : OOpaque _ _ _ _ = OOpaque _ _ _ _ |- _ => injection H as <- <- <- <- end; auto.
destruct (String.eqb_spec t "external_transparent_part") as [->|N4]; simpl.
- destruct (is_sun_striked_outside b) as [[|]|]; simpl; [| |discriminate];
  [destruct (BoundaryDict.direction b), (outside_emissivity b), (outside_heat_transfer_resistance b); simpl; try discriminate|];
  intros [= <-]; repeat split; try discriminate; intros; try congruence; auto.
- destruct (String.eqb_spec t "ground") as [->|N5]; [|discriminate].
  intros [= <-]; repeat split; try discriminate; reflexivity.
Qed.
