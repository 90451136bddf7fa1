From Coq Require Import Reals List String Lra Lia ZArith Psatz.
From Verif Require Import Model.Py Model.Trig Model.Weather Model.SolarPosition Spec.Sky Lemmas.PyL Lemmas.TrigL Lemmas.ScheduleL Lemmas.WeatherL.
Import ListNotations.
Local Open Scope R_scope.

Lemma delta_max_range : 0 < delta_max < PI / 2.
Proof. unfold delta_max, radians; pose proof PI_RGT_0; lra. Qed.

Lemma delta_ok eps v : exists d, get_delta_n eps v = Some d /\ - delta_max <= d <= delta_max /\
  ((0 < cos (v + eps) -> d < 0) /\ (cos (v + eps) < 0 -> 0 < d)).
Proof.
unfold get_delta_n; set (x := cos (v + eps) * _).
assert (X : Rabs x <= sin delta_max).
{ unfold x; replace (radians (- (234393 / 10000))) with (- delta_max) by (unfold delta_max, radians; field).
  pose proof delta_max_range as D; pose proof PI_RGT_0.
  rewrite sin_neg, Rabs_mult, Rabs_Ropp.
  assert (0 <= sin delta_max) by (apply sin_ge_0; lra).
  rewrite (Rabs_pos_eq (sin delta_max)) by lra.
  pose proof (cos_range (v + eps)) as C; assert (Rabs (cos (v + eps)) <= 1) by (apply Rabs_le; lra).
  pose proof (Rabs_pos (cos (v + eps))); nra. }
pose proof (sin_range delta_max) as S; pose proof delta_max_range as D.
destruct (arcsin_some x) as [d [E [-> _]]].
{ unfold Rabs in X; destruct (Rcase_abs x); lra. }
exists (asin x); split; [exact E|split; [apply asin_between; lra|]].
assert (Sx : x = - (cos (v + eps) * sin delta_max)).
{ unfold x; replace (radians (- (234393 / 10000))) with (- delta_max) by (unfold delta_max, radians; field).
  rewrite sin_neg; ring. }
assert (0 < sin delta_max) by (pose proof PI_RGT_0; apply sin_gt_0; lra).
assert (Xr : -1 <= x <= 1) by (unfold Rabs in X; destruct (Rcase_abs x); lra).
pose proof (asin_bound x) as Bx; pose proof (sin_asin x Xr) as Ex.
split; intro C.
- destruct (Rlt_le_dec (asin x) 0) as [G|G]; [exact G|].
  pose proof PI_RGT_0; pose proof (sin_ge_0 (asin x) G); rewrite Ex in *; nra.
- destruct (Rlt_le_dec 0 (asin x)) as [G|G]; [exact G|].
  pose proof PI_RGT_0; pose proof (sin_ge_0 (- asin x)); rewrite sin_neg, Ex in *; nra.
Qed.

Lemma up_range phi delta omega : -1 <= sin phi * sin delta + cos phi * cos delta * cos omega <= 1.
Proof.
pose proof (sc2 phi) as P; pose proof (sc2 delta) as D; pose proof (cos_range omega) as W.
set (a := cos phi) in *; set (b := sin phi) in *; set (c := cos delta) in *; set (d := sin delta) in *; set (w := cos omega) in *.
pose proof (Rle_0_sqr (a - c)); pose proof (Rle_0_sqr (a + c)); pose proof (Rle_0_sqr (b - d)); pose proof (Rle_0_sqr (b + d)).
unfold Rsqr in *.
assert (A : - 1 <= b * d + a * c <= 1) by (split; nra).
assert (B : - 1 <= b * d - a * c <= 1) by (split; nra).
replace (b * d + a * c * w) with ((1 + w) / 2 * (b * d + a * c) + (1 - w) / 2 * (b * d - a * c)) by field.
split; nra.
Qed.

Lemma sun_unit phi delta omega : dot (sun phi delta omega) (sun phi delta omega) = 1.
Proof.
unfold dot, sun; simpl; pose proof (sc2 phi) as P; pose proof (sc2 delta) as D; pose proof (sc2 omega) as W.
set (a := cos phi) in *; set (b := sin phi) in *; set (c := cos delta) in *; set (d := sin delta) in *;
  set (w := cos omega) in *; set (s := sin omega) in *.
transitivity ((a * a + b * b) * (c * c * (w * w) + d * d) + c * c * (s * s)); [ring|].
rewrite P; transitivity (c * c * (w * w + s * s) + d * d); [ring|]; rewrite W; lra.
Qed.

Lemma altitude_ok phi delta omega : exists h, get_h_sun_n phi omega delta = Some h /\ - (PI / 2) <= h <= PI / 2 /\
  sin h = up (sun phi delta omega).
Proof.
destruct (arcsin_some _ (up_range phi delta omega)) as [h [E [_ [S B]]]].
exists h; split; [exact E|split; [exact B|rewrite S; unfold sun; simpl; ring]].
Qed.

(* the azimuth, for a place between the poles and a sun that is neither in the zenith nor in the nadir *)
Lemma azimuth_ok phi delta omega h : get_h_sun_n phi omega delta = Some h -> - (PI / 2) < phi < PI / 2 ->
  h <> PI / 2 -> h <> - (PI / 2) ->
  exists a, get_a_sun_n omega phi delta h = Some a /\ - PI < a <= PI /\ direction h a = sun phi delta omega.
Proof.
intros Eh Hphi H1 H2; destruct (altitude_ok phi delta omega) as [h' [Eh' [B S]]].
assert (h' = h) by congruence; subst h'.
assert (Ch : 0 < cos h) by (apply cos_gt_0; lra).
assert (Cp : 0 < cos phi) by (apply cos_gt_0; lra).
unfold get_a_sun_n; destruct (Req_EM_T h (PI / 2)) as [|_]; [contradiction|].
rewrite !div_some by nra; simpl obind.
set (s := _ / cos h); set (c := _ / (cos h * cos phi)).
assert (Es : cos h * s = west (sun phi delta omega)) by (unfold s; simpl; field; lra).
assert (Ec : cos h * c = south (sun phi delta omega)).
{ unfold c; rewrite S; simpl; pose proof (sc2 phi) as P.
  transitivity ((cos phi * (cos delta * cos omega) * sin phi - (1 - sin phi * sin phi) * sin delta) / cos phi); [field; lra|].
  replace (1 - sin phi * sin phi) with (cos phi * cos phi) by lra; field; lra. }
assert (N : s * s + c * c = 1).
{ pose proof (sun_unit phi delta omega) as U; unfold dot in U; rewrite <- Es, <- Ec, <- S in U; pose proof (sc2 h).
  assert (cos h * cos h * (s * s + c * c - 1) = 0) by nra.
  assert (0 < cos h * cos h) by nra; nra. }
destruct (arctan2_unit s c N) as [C' [S' R']].
exists (arctan2 s c); split; [reflexivity|split; [exact R'|]].
unfold direction; rewrite C', S', Es, Ec, S; reflexivity.
Qed.

Lemma azimuth_zenith phi delta omega : get_a_sun_n omega phi delta (PI / 2) = None.
Proof. unfold get_a_sun_n; destruct (Req_EM_T (PI / 2) (PI / 2)); [reflexivity|congruence]. Qed.

Lemma azimuth_nadir phi delta omega : get_a_sun_n omega phi delta (- (PI / 2)) = None.
Proof.
unfold get_a_sun_n; destruct (Req_EM_T (- (PI / 2)) (PI / 2)); [reflexivity|].
unfold div at 1; rewrite cos_neg, cos_PI2; destruct (Req_EM_T 0 0); [reflexivity|congruence].
Qed.

(* the equation of time *)
Lemma e_t_bound m eps : Rabs (get_e_t_n m eps (get_v_n m)) <= eqt_max.
Proof.
unfold get_e_t_n, eqt_max; set (v := get_v_n m); set (w := 2 * (v + eps)).
assert (A : Rabs (m - v) <= 1934 / 1000 * (PI / 180)).
{ unfold v, get_v_n; replace (m - (m + radians (1914 / 1000 * sin m + 2 / 100 * sin (2 * m))))
    with (- (1914 / 1000 * sin m + 2 / 100 * sin (2 * m)) * (PI / 180)) by (unfold radians; field).
  pose proof PI_RGT_0; rewrite Rabs_mult, (Rabs_pos_eq (PI / 180)) by lra.
  apply Rmult_le_compat_r; [lra|].
  pose proof (sin_range m); pose proof (sin_range (2 * m)); apply Rabs_le; lra. }
assert (B : Rabs (43 / 1000 * sin w / (1 - 43 / 1000 * cos w)) <= 43 / 957).
{ pose proof (sin_range w); pose proof (cos_range w).
  unfold Rdiv; rewrite Rabs_mult, Rabs_inv, (Rabs_pos_eq (1 - _)) by lra.
  assert (Rabs (43 * / 1000 * sin w) <= 43 / 1000) by (apply Rabs_le; lra).
  assert (/ (1 - 43 * / 1000 * cos w) <= / (957 / 1000)) by (apply Rinv_le_contravar; lra).
  replace (43 * / 957) with (43 / 1000 * / (957 / 1000)) by field.
  apply Rmult_le_compat; try assumption; [apply Rabs_pos|].
  apply Rlt_le, Rinv_0_lt_compat; lra. }
eapply Rle_trans; [apply Rabs_triang|]; rewrite Rabs_Ropp.
pose proof (Rabs_atan (43 / 1000 * sin w / (1 - 43 / 1000 * cos w))); lra.
Qed.

(* the ecliptic longitude counted from the winter solstice stays close to that of a uniform motion *)
Lemma longitude_bound d : let m := get_m_n d (get_d_0 get_n) in
  Rabs (get_v_n m + get_epsilon_n m get_n - (98565 / 100000 * d + 96351 / 10000) * (PI / 180)) <=
  (19352 / 10000 + Rabs d * (2 / 100000)) * (PI / 180).
Proof.
cbv zeta; set (m := get_m_n _ _); unfold get_v_n, get_epsilon_n, radians.
change (IZR get_n) with 21.
assert (Em : m = (d - 31616 / 10000) * (3600000 / 3652596) * (PI / 180)).
{ unfold m, get_m_n, get_d_0, get_n; change (IZR (Z.quot (1989 - 1968 + 3) 4)) with 6; change (IZR (1989 - 1968)) with 21; field. }
pose proof PI_RGT_0 as Pi; pose proof (sin_range m) as A; pose proof (sin_range (2 * m)) as B.
assert (Eq : m / (2 * PI) = (d - 31616 / 10000) * (10000 / 3652596)) by (rewrite Em; field; lra).
rewrite Eq; rewrite Em at 1.
set (x := 1914 / 1000 * sin m + 2 / 100 * sin (2 * m)).
assert (X : -1934 / 1000 <= x <= 1934 / 1000) by (unfold x; lra).
match goal with |- Rabs ?t <= _ => replace t with ((x + ((d - 31616 / 10000) * (3600000 / 3652596)
  + (123901 / 10000 + 172 / 10000 * (21 + (d - 31616 / 10000) * (10000 / 3652596))) - (98565 / 100000 * d + 96351 / 10000))) * (PI / 180)) by field end.
rewrite Rabs_mult, (Rabs_pos_eq (PI / 180)) by lra; apply Rmult_le_compat_r; [lra|].
apply Rabs_le; unfold Rabs; destruct (Rcase_abs d); lra.
Qed.

(* declination and equation of time of a day *)
Lemma sun_position_ok d : exists delta e,
  - delta_max <= delta <= delta_max /\ Rabs e <= eqt_max /\
  (1 <= d <= 79 -> delta < 0) /\ (84 <= d <= 262 -> 0 < delta) /\ (267 <= d <= 366 -> delta < 0) /\
  forall phi lambda t, exists h,
  let omega := radians ((t - 12) * 15) + (lambda - radians 135) + e in
  get_h_sun_n phi omega delta = Some h /\
  sun_position phi lambda d t = (Some h, get_a_sun_n omega phi delta h).
Proof.
unfold sun_position; pose proof (longitude_bound d) as Lg; cbv zeta in Lg.
set (m := get_m_n d (get_d_0 get_n)) in *; set (eps := get_epsilon_n m get_n) in *.
destruct (delta_ok eps (get_v_n m)) as [delta [Ed [D S]]].
exists delta, (get_e_t_n m eps (get_v_n m)); rewrite Ed; simpl obind.
set (L := get_v_n m + eps) in *; pose proof PI_RGT_0 as Pi.
assert (Lr : 0 <= d <= 366 -> (98565 / 100000 * d + 769258 / 100000) * (PI / 180) <= L <= (98565 / 100000 * d + 1157763 / 100000) * (PI / 180)).
{ intro Hd; rewrite (Rabs_pos_eq d) in Lg by lra; revert Lg; unfold Rabs; destruct (Rcase_abs _); intro; split; nra. }
split; [exact D|split; [apply e_t_bound|]].
split; [intro Hd; apply S, cos_gt_0; destruct Lr; nra|].
split; [intro Hd; apply S, cos_lt_0; destruct Lr; nra|].
split; [intro Hd; apply S|].
{ replace (cos L) with (cos (L - 2 * PI)) by (rewrite cos_minus, cos_2PI, sin_2PI; ring); apply cos_gt_0; destruct Lr; nra. }
intros phi lambda t; unfold get_omega_n, get_lambda_loc_mer; set (omega := _ + _ + _).
destruct (altitude_ok phi delta omega) as [h [E _]]; exists h.
cbv zeta; rewrite E; simpl; split; reflexivity.
Qed.

Lemma nth_seq k a n : (k < n)%nat -> nth_error (seq a n) k = Some (a + k)%nat.
Proof.
revert k a; induction n as [|n IH]; intros [|k] a H; simpl; try lia; [f_equal; lia|].
rewrite IH by lia; f_equal; lia.
Qed.

Lemma d_ns_ok interval n : get_n_hour interval = Ok n -> exists l, get_d_ns interval = Ok l /\
  List.length l = (365 * (24 * n))%nat /\
  forall d k, (d < 365)%nat -> (k < 24 * n)%nat -> nth_error l (d * (24 * n) + k) = Some (INR d + 1).
Proof.
intro N; unfold get_d_ns; rewrite N; cbn [bind]; eexists; split; [reflexivity|].
set (rows := map (fun d => repeat (INR d + 1) (24 * n)) (seq 0 365)).
destruct (concat_rows (24 * n) rows) as [L W].
{ unfold rows; apply Forall_forall; intros r I; apply in_map_iff in I; destruct I as [d [<- _]]; apply repeat_length. }
split; [rewrite L; unfold rows; rewrite map_length, seq_length; reflexivity|].
intros d k Hd Hk; rewrite (W d (repeat (INR d + 1) (24 * n)) k); [|unfold rows; erewrite map_nth_error; [reflexivity|]; exact (nth_seq d 0 365 Hd)|exact Hk].
apply nth_error_repeat; exact Hk.
Qed.

Lemma t_m_ns_ok interval n : get_n_hour interval = Ok n -> exists l, get_t_m_ns interval = Ok l /\
  List.length l = (365 * (24 * n))%nat /\
  forall d k, (d < 365)%nat -> (k < 24 * n)%nat -> nth_error l (d * (24 * n) + k) = Some (INR k / INR n).
Proof.
intro N; unfold get_t_m_ns; rewrite N; cbn [bind].
assert (I : exists dt, (if (interval =? "1h")%string then Ok 1 else if (interval =? "30m")%string then Ok (1 / 2)
        else if (interval =? "15m")%string then Ok (1 / 4) else Err KeyError) = Ok dt /\ dt = / INR n).
{ destruct (n_hour_ok _ _ N) as [[-> ->]|[[-> ->]|[-> ->]]]; eexists; (split; [reflexivity|simpl; field]). }
destruct I as [dt [-> D]]; cbn [bind]; eexists; split; [reflexivity|].
set (row := map (fun k => INR k * dt) (seq 0 (24 * n))).
destruct (concat_rows (24 * n) (map (fun _ => row) (seq 0 365))) as [L W].
{ apply Forall_forall; intros r I; apply in_map_iff in I; destruct I as [d [<- _]]; unfold row; rewrite map_length; apply seq_length. }
split; [rewrite L, map_length, seq_length; reflexivity|].
intros d k Hd Hk; rewrite (W d row k); [|erewrite map_nth_error; [reflexivity|exact (nth_seq d 0 365 Hd)]|exact Hk].
unfold row; erewrite map_nth_error; [|exact (nth_seq k 0 _ Hk)]; rewrite D; reflexivity.
Qed.

(* every step of the year: day d (from 0), time k/n hours *)
Lemma solar_position_ok phi lambda interval n : get_n_hour interval = Ok n -> exists hs azs,
  calc_solar_position phi lambda interval = Ok (hs, azs) /\
  List.length hs = (365 * (24 * n))%nat /\ List.length azs = (365 * (24 * n))%nat /\
  forall d k, (d < 365)%nat -> (k < 24 * n)%nat ->
  nth_error hs (d * (24 * n) + k) = Some (fst (sun_position phi lambda (INR d + 1) (INR k / INR n))) /\
  nth_error azs (d * (24 * n) + k) = Some (snd (sun_position phi lambda (INR d + 1) (INR k / INR n))).
Proof.
intro N; destruct (d_ns_ok _ _ N) as [ds [Ed [Ld Vd]]]; destruct (t_m_ns_ok _ _ N) as [ts [Et [Lt Vt]]].
unfold calc_solar_position; rewrite Ed, Et; cbn [bind]; eexists; eexists; split; [reflexivity|].
rewrite !map_length, !combine_length, Ld, Lt, Nat.min_id; split; [reflexivity|split; [reflexivity|]].
intros d k Hd Hk.
pose proof (nth_error_combine _ _ _ _ _ _ _ (Vd d k Hd Hk) (Vt d k Hd Hk)) as C.
pose proof (map_nth_error (fun dt => sun_position phi lambda (fst dt) (snd dt)) _ _ C) as C'; cbn [fst snd] in C'.
split; apply (map_nth_error _ _ _ C').
Qed.

Lemma solar_position_rejects phi lambda interval r : calc_solar_position phi lambda interval = Ok r -> exists n, get_n_hour interval = Ok n.
Proof.
unfold calc_solar_position, get_d_ns; destruct (get_n_hour interval) as [n|e]; simpl; [eauto|discriminate].
Qed.

Lemma region_ok region phi lambda : get_phi_loc_and_lambda_loc region = Ok (phi, lambda) ->
  (1 <= region <= 8)%Z /\ delta_max < phi < PI / 2.
Proof.
unfold get_phi_loc_and_lambda_loc, delta_max, radians; pose proof PI_RGT_0.
destruct region as [|p|p]; try discriminate.
do 4 (try destruct p as [p|p|]); simpl; try discriminate; intros [= <- _]; split; try lia; lra.
Qed.

(* outside the tropics the sun is never in the zenith or in the nadir *)
Lemma outside_tropics phi delta omega h : get_h_sun_n phi omega delta = Some h ->
  - delta_max <= delta <= delta_max -> delta_max < phi < PI / 2 -> h <> PI / 2 /\ h <> - (PI / 2).
Proof.
intros E D P; destruct (altitude_ok phi delta omega) as [h' [E' [_ S]]].
assert (h' = h) by congruence; subst h'; pose proof PI_RGT_0; pose proof delta_max_range as M.
assert (A : cos (phi - delta) < 1) by (rewrite <- cos_0; apply cos_decreasing_1; lra).
assert (B : cos (phi + delta) < 1) by (rewrite <- cos_0; apply cos_decreasing_1; lra).
rewrite cos_minus in A; rewrite cos_plus in B; unfold sun in S; simpl in S.
assert (0 < cos phi) by (apply cos_gt_0; lra); assert (0 < cos delta) by (apply cos_gt_0; lra).
assert (0 < cos phi * cos delta) by nra.
pose proof (cos_range omega) as W.
split; intros ->.
- rewrite sin_PI2 in S; nra.
- rewrite sin_neg, sin_PI2 in S; nra.
Qed.

(* every step of the year *)
Lemma sun_position_full d : exists delta e, Rabs delta <= delta_max /\ Rabs e <= eqt_max /\
  (1 <= d <= 79 -> delta < 0) /\ (84 <= d <= 262 -> 0 < delta) /\ (267 <= d <= 366 -> delta < 0) /\
  forall phi lambda t, exists h,
  - (PI / 2) <= h <= PI / 2 /\ fst (sun_position phi lambda d t) = Some h /\
  let v := sun phi delta (radians ((t - 12) * 15) + (lambda - radians 135) + e) in
  sin h = up v /\
  (- (PI / 2) < phi < PI / 2 -> h <> PI / 2 -> h <> - (PI / 2) ->
   exists a, snd (sun_position phi lambda d t) = Some a /\ - PI < a <= PI /\ direction h a = v) /\
  (h = PI / 2 \/ h = - (PI / 2) -> snd (sun_position phi lambda d t) = None) /\
  (delta_max < phi < PI / 2 -> h <> PI / 2 /\ h <> - (PI / 2)).
Proof.
destruct (sun_position_ok d) as [delta [e [D [E [W1 [W2 [W3 F]]]]]]].
exists delta, e; split; [apply Rabs_le; lra|split; [exact E|split; [exact W1|split; [exact W2|split; [exact W3|]]]]].
intros phi lambda t; destruct (F phi lambda t) as [h [Eh Ep]]; exists h; rewrite Ep; cbv zeta in *; cbn [fst snd].
destruct (altitude_ok phi delta (radians ((t - 12) * 15) + (lambda - radians 135) + e)) as [h' [E' [B S]]].
assert (h' = h) by congruence; subst h'.
split; [exact B|split; [reflexivity|split; [exact S|]]].
split; [intros P H1 H2; exact (azimuth_ok _ _ _ _ Eh P H1 H2)|split].
- intros [-> | ->]; [apply azimuth_zenith|apply azimuth_nadir].
- exact (outside_tropics _ _ _ _ Eh D).
Qed.

Lemma region_accepts region : (exists p, get_phi_loc_and_lambda_loc region = Ok p) <-> (1 <= region <= 8)%Z.
Proof.
split; [intros [[phi lambda] E]; exact (proj1 (region_ok _ _ _ E))|intro H].
unfold get_phi_loc_and_lambda_loc.
assert (region = 1 \/ region = 2 \/ region = 3 \/ region = 4 \/ region = 5 \/ region = 6 \/ region = 7 \/ region = 8)%Z as D by lia.
repeat (destruct D as [->|D]; [eexists; reflexivity|]); subst; eexists; reflexivity.
Qed.

Lemma solar_direction (d : nat) : (d < 365)%nat -> exists delta e : R,
  Rabs delta <= delta_max /\ Rabs e <= eqt_max /\
  ((d < 79)%nat -> delta < 0) /\ ((83 <= d < 262)%nat -> 0 < delta) /\ ((266 <= d)%nat -> delta < 0) /\
  forall (phi lambda : R) (interval : string) (n : nat) (hs azs : list (option R)),
  get_n_hour interval = Ok n -> calc_solar_position phi lambda interval = Ok (hs, azs) ->
  List.length hs = (365 * (24 * n))%nat /\ List.length azs = (365 * (24 * n))%nat /\
  forall k, (k < 24 * n)%nat -> exists h,
    - (PI / 2) <= h <= PI / 2 /\ nth_error hs (d * (24 * n) + k) = Some (Some h) /\
    let v := sun phi delta ((INR k / INR n - 12) * 15 * (PI / 180) + (lambda - 135 * (PI / 180)) + e) in
    sin h = up v /\
    (- (PI / 2) < phi < PI / 2 -> h <> PI / 2 -> h <> - (PI / 2) ->
     exists a, nth_error azs (d * (24 * n) + k) = Some (Some a) /\ - PI < a <= PI /\ direction h a = v) /\
    (h = PI / 2 \/ h = - (PI / 2) -> nth_error azs (d * (24 * n) + k) = Some None).
Proof.
intro Hd; destruct (sun_position_full (INR d + 1)) as [delta [e [D [Q [W1 [W2 [W3 F]]]]]]].
exists delta, e; split; [exact D|split; [exact Q|]].
assert (Rd : forall m, (d < m)%nat -> INR d + 1 <= IZR (Z.of_nat m)).
{ intros m Hm; rewrite <- INR_IZR_INZ, <- S_INR; apply le_INR; lia. }
assert (Ld : forall m, (m <= d)%nat -> IZR (Z.of_nat m) <= INR d) by (intros m Hm; rewrite <- INR_IZR_INZ; apply le_INR; lia).
pose proof (pos_INR d) as P0.
split; [intro H; apply W1; pose proof (Rd _ H) as G; simpl Z.of_nat in G; lra|].
split; [intros [H H']; apply W2; pose proof (Rd _ H') as G; pose proof (Ld _ H) as G'; simpl Z.of_nat in G, G'; lra|].
split; [intro H; apply W3; pose proof (Rd _ Hd) as G; pose proof (Ld _ H) as G'; simpl Z.of_nat in G, G'; lra|].
intros phi lambda interval n hs azs N E.
destruct (solar_position_ok phi lambda interval n N) as [hs' [azs' [E' [L1 [L2 V]]]]].
assert (hs' = hs) by congruence; assert (azs' = azs) by congruence; subst hs' azs'.
split; [exact L1|split; [exact L2|intros k Hk]].
destruct (V d k Hd Hk) as [V1 V2]; rewrite V1, V2.
destruct (F phi lambda (INR k / INR n)) as [h [B [H [S [A [U _]]]]]].
exists h; rewrite H; split; [exact B|split; [reflexivity|split; [exact S|]]].
split; [intros P H1 H2; destruct (A P H1 H2) as [a [-> A']]; eauto|intro Z; rewrite (U Z); reflexivity].
Qed.

Lemma solar_regions (region : Z) (phi lambda : R) (interval : string) (n : nat) (hs azs : list (option R)) :
  get_phi_loc_and_lambda_loc region = Ok (phi, lambda) ->
  get_n_hour interval = Ok n -> calc_solar_position phi lambda interval = Ok (hs, azs) ->
  forall d k, (d < 365)%nat -> (k < 24 * n)%nat ->
  exists h a delta omega, nth_error hs (d * (24 * n) + k) = Some (Some h) /\ nth_error azs (d * (24 * n) + k) = Some (Some a) /\
    - (PI / 2) < h < PI / 2 /\ - PI < a <= PI /\ Rabs delta <= delta_max /\ direction h a = sun phi delta omega.
Proof.
intros Rg N E d k Hd Hk.
destruct (solar_position_ok phi lambda interval n N) as [hs' [azs' [E' [L1 [L2 V]]]]].
assert (hs' = hs) by congruence; assert (azs' = azs) by congruence; subst hs' azs'.
destruct (region_ok _ _ _ Rg) as [_ P]; pose proof delta_max_range as M.
destruct (V d k Hd Hk) as [V1 V2]; rewrite V1, V2.
destruct (sun_position_full (INR d + 1)) as [delta [e [D [Q [_ [_ [_ F]]]]]]].
destruct (F phi lambda (INR k / INR n)) as [h [B [H [S [A [_ U]]]]]].
destruct (U P) as [H1 H2]; destruct A as [a [Ea [Ra Da]]]; [lra|exact H1|exact H2|].
exists h, a, delta; eexists; rewrite H, Ea; repeat split; try exact Da; try exact D; try lra.
Qed.
