From Coq Require Import Reals List String ZArith Lra Lia.
From Verif Require Import Model.Py Model.Trig Model.Weather Model.SolarPosition Model.Log Model.WeatherTable
  Spec.Sky Spec.WeatherSpec Spec.LogSpec Spec.WeatherTableSpec
  Lemmas.PyL Lemmas.WeatherL Lemmas.SolarPositionL Lemmas.LogL.
Import ListNotations.
Local Open Scope R_scope.

Lemma place_ok region name lat lon : In (region, (name, lat, lon)) places ->
  get_filename region = Ok name /\ get_phi_loc_and_lambda_loc region = Ok (radians lat, radians lon).
Proof.
unfold places; simpl; intro H.
repeat match goal with [H : _ \/ _ |- _] => destruct H as [H|H] end; try contradiction;
injection H as <- <- <- <-; split; try reflexivity; unfold get_phi_loc_and_lambda_loc; simpl; do 2 f_equal; f_equal; lra.
Qed.

Lemma place_of region name : get_filename region = Ok name -> exists lat lon, In (region, (name, lat, lon)) places.
Proof.
unfold get_filename, places; destruct region as [|p|p]; try discriminate.
do 4 (try match goal with [p : positive |- _] => destruct p as [p|p|]; try discriminate end); intros [= <-]; do 2 eexists; simpl;
repeat (first [left; reflexivity|right]).
Qed.

Lemma interval_ok interval n : In (interval, n) intervals <-> get_n_hour interval = Ok n.
Proof.
split; [unfold intervals; simpl; intros [[= <- <-]|[[= <- <-]|[[= <- <-]|[]]]]; reflexivity|].
intro H; destruct (n_hour_ok _ _ H) as [[-> ->]|[[-> ->]|[-> ->]]]; simpl; auto.
Qed.

Lemma interval_pos interval n : In (interval, n) intervals -> (0 < n)%nat.
Proof. unfold intervals; simpl; intros [[= <- <-]|[[= <- <-]|[[= <- <-]|[]]]]; lia. Qed.

Lemma set_column_ok A rows (l : list A) : List.length l = rows -> set_column rows l = Ok l.
Proof. intros <-; unfold set_column; rewrite Nat.eqb_refl; reflexivity. Qed.
Lemma set_column_inv A rows (l r : list A) : set_column rows l = Ok r -> r = l /\ List.length l = rows.
Proof. unfold set_column; destruct (Nat.eqb_spec (List.length l) rows); [intros [= <-]; auto|discriminate]. Qed.

Lemma interp_total data interval n : In (interval, n) intervals -> exists r, interpolate data interval = Ok r.
Proof. intro I; apply interpolate_accepts; exists n; apply interval_ok, I. Qed.

(* the series of a file with a line for every hour of the year *)
Lemma step_value data interval n r day hour k : In (interval, n) intervals -> interpolate data interval = Ok r ->
  List.length data = (365 * 24)%nat -> (day < 365)%nat -> (hour < 24)%nat -> (k < n)%nat ->
  nth_error r (row n day hour k) = Some (at_step data n day hour k).
Proof.
intros I E L D H K; destruct (interpolate_value _ _ _ _ (proj1 (interval_ok _ _) I) E) as [_ V].
unfold at_step, row; rewrite <- (V (day * 24 + hour)%nat k); [f_equal; lia|rewrite L; lia|exact K].
Qed.

Lemma step_length data interval n r : In (interval, n) intervals -> interpolate data interval = Ok r ->
  List.length data = (365 * 24)%nat -> List.length r = (365 * 24 * n)%nat.
Proof.
intros I E L; destruct (interpolate_value _ _ _ _ (proj1 (interval_ok _ _) I) E) as [V _]; rewrite V, L; reflexivity.
Qed.

Lemma hour_angle n hour k : (0 < n)%nat -> INR (hour * n + k) / INR n = INR hour + INR k / INR n.
Proof. intro P; rewrite plus_INR, mult_INR; field; apply not_0_INR; lia. Qed.

Lemma table_rows files region name lat lon interval n :
  In (region, (name, lat, lon)) places -> In (interval, n) intervals -> List.length (files name) = (365 * 24)%nat ->
  exists d, make_weather files region interval = Ok d /\
    forall day hour k, (day < 365)%nat -> (hour < 24)%nat -> (k < n)%nat ->
    let t := row n day hour k in
    let now column := at_step (map column (files name)) n day hour k in
    (exists T, nth_error (temperature d) t = Some T /\ rounded 3 (now column_2) T) /\
    (exists x, nth_error (absolute_humidity d) t = Some x /\ rounded 6 (now column_6 / 1000) x) /\
    nth_error (normal_direct_solar_radiation d) t = Some (now column_3) /\
    nth_error (horizontal_sky_solar_radiation d) t = Some (now column_4) /\
    nth_error (outward_radiation d) t = Some (now column_5) /\
    (exists h a delta e, nth_error (sun_altitude d) t = Some (Some h) /\ nth_error (sun_azimuth d) t = Some (Some a) /\
       - (PI / 2) < h < PI / 2 /\ - PI < a <= PI /\ Rabs delta <= delta_max /\ Rabs e <= eqt_max /\
       ((day < 79)%nat -> delta < 0) /\ ((83 <= day < 262)%nat -> 0 < delta) /\ ((266 <= day)%nat -> delta < 0) /\
       direction h a = sun (lat * (PI / 180)) delta
         ((INR hour + INR k / INR n - 12) * 15 * (PI / 180) + (lon - 135) * (PI / 180) + e)).
Proof.
intros Hp Hi L; destruct (place_ok _ _ _ _ Hp) as [F G]; assert (N := proj1 (interval_ok _ _) Hi); assert (P := interval_pos _ _ Hi).
destruct (interp_total (map column_2 (files name)) _ _ Hi) as [r2 E2].
destruct (interp_total (map column_3 (files name)) _ _ Hi) as [r3 E3].
destruct (interp_total (map column_4 (files name)) _ _ Hi) as [r4 E4].
destruct (interp_total (map column_5 (files name)) _ _ Hi) as [r5 E5].
destruct (interp_total (map column_6 (files name)) _ _ Hi) as [r6 E6].
assert (Lm : forall c : line -> R, List.length (map c (files name)) = (365 * 24)%nat) by (intro c; rewrite map_length; exact L).
destruct (solar_position_ok (radians lat) (radians lon) interval n N) as [hs [azs [S [L1 [L2 _]]]]].
assert (T : exists d, make_weather files region interval = Ok d /\ d = {| temperature := map (pd_round 3) r2;
  absolute_humidity := map (pd_round 6) (map (fun x => x / 1000) r6); normal_direct_solar_radiation := r3;
  horizontal_sky_solar_radiation := r4; outward_radiation := r5; sun_altitude := hs; sun_azimuth := azs |}).
{ eexists; split; [|reflexivity].
  unfold make_weather, load; rewrite F; cbn [bind]; rewrite E2, E3, E4, E5, E6; cbn [bind]; rewrite G; cbn [bind fst snd].
  rewrite S; cbn [bind]; rewrite N; cbn [bind theta_o_ns x_o_ns i_dn_ns i_sky_ns r_n_ns fst snd].
  rewrite set_column_ok by (rewrite map_length; exact (step_length _ _ _ _ Hi E2 (Lm column_2))); cbn [bind].
  rewrite set_column_ok by (rewrite 2 map_length; exact (step_length _ _ _ _ Hi E6 (Lm column_6))); cbn [bind].
  rewrite set_column_ok by exact (step_length _ _ _ _ Hi E3 (Lm column_3)); cbn [bind].
  rewrite set_column_ok by exact (step_length _ _ _ _ Hi E4 (Lm column_4)); cbn [bind].
  rewrite set_column_ok by exact (step_length _ _ _ _ Hi E5 (Lm column_5)); cbn [bind].
  rewrite set_column_ok by (rewrite L1, <- Nat.mul_assoc; reflexivity); cbn [bind].
  rewrite set_column_ok by (rewrite L2, <- Nat.mul_assoc; reflexivity); reflexivity. }
destruct T as [d [M D]]; exists d; split; [exact M|].
intros day hour k Hd Hh Hk t now; subst d; cbn [temperature absolute_humidity normal_direct_solar_radiation horizontal_sky_solar_radiation outward_radiation sun_altitude sun_azimuth].
assert (V2 := step_value _ _ _ _ day hour k Hi E2 (Lm column_2) Hd Hh Hk).
assert (V3 := step_value _ _ _ _ day hour k Hi E3 (Lm column_3) Hd Hh Hk).
assert (V4 := step_value _ _ _ _ day hour k Hi E4 (Lm column_4) Hd Hh Hk).
assert (V5 := step_value _ _ _ _ day hour k Hi E5 (Lm column_5) Hd Hh Hk).
assert (V6 := step_value _ _ _ _ day hour k Hi E6 (Lm column_6) Hd Hh Hk).
split; [eexists; split; [apply map_nth_error; exact V2|apply pd_round_ok]|].
split; [eexists; split; [apply map_nth_error; apply map_nth_error; exact V6|apply pd_round_ok]|].
split; [exact V3|split; [exact V4|split; [exact V5|]]].
destruct (solar_direction day Hd) as [delta [e [D1 [D2 [W1 [W2 [W3 Q]]]]]]].
destruct (Q _ _ _ _ _ _ N S) as [_ [_ Q']].
assert (K : (hour * n + k < 24 * n)%nat) by nia.
destruct (Q' _ K) as [h [B [H1 [H2 [H3 _]]]]].
destruct (solar_regions _ _ _ _ _ _ _ G N S day _ Hd K) as [h' [a' [_ [_ [X1 [_ [X3 _]]]]]]].
assert (h' = h) by congruence; subst h'.
destruct (region_ok _ _ _ G) as [_ RP]; pose proof delta_max_range as DM.
destruct H3 as [a [A1 [A2 A3]]]; [lra|lra|lra|].
exists h, a, delta, e; unfold t, row; repeat (split; [assumption|]).
rewrite A3, hour_angle by exact P; unfold radians; f_equal; lra.
Qed.

(* hourly data with one decimal: rounding changes nothing *)
Lemma rounded_exact d x y : decimals d x -> rounded d x y -> y = x.
Proof.
intros [z ->] [[w ->] A]; assert (P := ten_pos d).
assert (H : Rabs (IZR w - IZR z) <= 1 / 2).
{ replace (IZR w - IZR z) with ((IZR w / 10 ^ d - IZR z / 10 ^ d) * 10 ^ d) by (field; lra).
  rewrite Rabs_mult, (Rabs_right (10 ^ d)) by lra.
  apply Rle_trans with (/ 10 ^ d / 2 * 10 ^ d); [apply Rmult_le_compat_r; lra|].
  apply Req_le; field; lra. }
assert (w = z); [|subst; reflexivity].
rewrite <- minus_IZR, <- abs_IZR in H.
assert (Z.abs (w - z) < 1)%Z; [apply lt_IZR; lra|lia].
Qed.

Lemma hourly_in (data : list R) h : data <> [] -> In (hourly data h) data.
Proof.
intro N; unfold hourly; apply nth_In; assert (0 < List.length data)%nat by (destruct data; [congruence|simpl; lia]).
assert (0 <= h mod Z.of_nat (List.length data) < Z.of_nat (List.length data))%Z by (apply Z.mod_pos_bound; lia); lia.
Qed.

Lemma step_decimals data interval n day hour k : In (interval, n) intervals -> (k < n)%nat -> data <> [] ->
  (forall x, In x data -> decimals 1 x) -> decimals 3 (at_step data n day hour k).
Proof.
intros I K N D; unfold at_step.
set (h := Z.of_nat (day * 24 + hour)).
destruct (D _ (hourly_in data (h - 1) N)) as [a ->]; destruct (D _ (hourly_in data h N)) as [b ->].
assert (Q : exists q : Z, INR k / INR n = IZR q / 4).
{ destruct I as [[= <- <-]|[[= <- <-]|[[= <- <-]|[]]]].
  - exists 0%Z; replace k with 0%nat by lia; simpl; lra.
  - exists (2 * Z.of_nat k)%Z; rewrite mult_IZR, <- INR_IZR_INZ; simpl; lra.
  - exists (Z.of_nat k); rewrite <- INR_IZR_INZ; simpl; lra. }
destruct Q as [q ->]; exists (25 * ((4 - q) * a + q * b))%Z.
rewrite mult_IZR, plus_IZR, !mult_IZR, minus_IZR; simpl; field.
Qed.

Lemma table_exact files region name lat lon interval n d :
  In (region, (name, lat, lon)) places -> In (interval, n) intervals -> List.length (files name) = (365 * 24)%nat ->
  (forall l, In l (files name) -> decimals 1 (column_2 l) /\ decimals 1 (column_6 l)) ->
  make_weather files region interval = Ok d ->
  forall day hour k, (day < 365)%nat -> (hour < 24)%nat -> (k < n)%nat ->
    nth_error (temperature d) (row n day hour k) = Some (at_step (map column_2 (files name)) n day hour k) /\
    nth_error (absolute_humidity d) (row n day hour k) = Some (at_step (map column_6 (files name)) n day hour k / 1000).
Proof.
intros Hp Hi L Dc M day hour k Hd Hh Hk.
destruct (table_rows _ _ _ _ _ _ _ Hp Hi L) as [d' [M' V]]; assert (d' = d) by congruence; subst d'.
destruct (V day hour k Hd Hh Hk) as [[T [T1 T2]] [[x [X1 X2]] _]].
assert (Ne : forall c : line -> R, map c (files name) <> []).
{ intros c E; apply (f_equal (@List.length R)) in E; rewrite map_length, L in E; discriminate E. }
assert (D2 : decimals 3 (at_step (map column_2 (files name)) n day hour k)).
{ apply (step_decimals _ interval); auto; intros y Y; apply in_map_iff in Y; destruct Y as [l [<- Y]]; apply Dc, Y. }
assert (D6 : decimals 3 (at_step (map column_6 (files name)) n day hour k)).
{ apply (step_decimals _ interval); auto; intros y Y; apply in_map_iff in Y; destruct Y as [l [<- Y]]; apply Dc, Y. }
rewrite T1, X1; split; f_equal; [exact (rounded_exact _ _ _ D2 T2)|].
apply (rounded_exact 6); [|exact X2].
destruct D6 as [z ->]; exists z; simpl; field.
Qed.

Lemma table_length files region interval d : make_weather files region interval = Ok d ->
  exists name lat lon n, In (region, (name, lat, lon)) places /\ In (interval, n) intervals /\
    List.length (files name) = (365 * 24)%nat /\
    List.length (temperature d) = (365 * 24 * n)%nat /\ List.length (absolute_humidity d) = (365 * 24 * n)%nat /\
    List.length (normal_direct_solar_radiation d) = (365 * 24 * n)%nat /\ List.length (horizontal_sky_solar_radiation d) = (365 * 24 * n)%nat /\
    List.length (outward_radiation d) = (365 * 24 * n)%nat /\ List.length (sun_altitude d) = (365 * 24 * n)%nat /\
    List.length (sun_azimuth d) = (365 * 24 * n)%nat.
Proof.
unfold make_weather; intro H.
apply bind_ok in H; destruct H as [s [Ld H]].
apply bind_ok in H; destruct H as [pl [_ H]].
apply bind_ok in H; destruct H as [su [_ H]].
apply bind_ok in H; destruct H as [n [N H]].
apply bind_ok in H; destruct H as [c1 [C1 H]]; apply set_column_inv in C1; destruct C1 as [-> C1].
apply bind_ok in H; destruct H as [c2 [C2 H]]; apply set_column_inv in C2; destruct C2 as [-> C2].
apply bind_ok in H; destruct H as [c3 [C3 H]]; apply set_column_inv in C3; destruct C3 as [-> C3].
apply bind_ok in H; destruct H as [c4 [C4 H]]; apply set_column_inv in C4; destruct C4 as [-> C4].
apply bind_ok in H; destruct H as [c5 [C5 H]]; apply set_column_inv in C5; destruct C5 as [-> C5].
apply bind_ok in H; destruct H as [c6 [C6 H]]; apply set_column_inv in C6; destruct C6 as [-> C6].
apply bind_ok in H; destruct H as [c7 [C7 H]]; apply set_column_inv in C7; destruct C7 as [-> C7].
injection H as <-; unfold load in Ld.
apply bind_ok in Ld; destruct Ld as [name [F Ld]].
apply bind_ok in Ld; destruct Ld as [r2 [E2 Ld]].
do 4 (apply bind_ok in Ld; destruct Ld as [? [_ Ld]]); injection Ld as <-; cbn [theta_o_ns x_o_ns i_dn_ns i_sky_ns r_n_ns] in *.
destruct (place_of _ _ F) as [lat [lon Pl]]; apply interval_ok in N.
exists name, lat, lon, n; split; [exact Pl|split; [exact N|split; [|repeat split; assumption]]].
rewrite map_length in C1; destruct (interpolate_value _ _ _ _ (proj1 (interval_ok _ _) N) E2) as [V _].
rewrite map_length in V; assert (P := interval_pos _ _ N); nia.
Qed.

Lemma nth_error_Some_lt A (l : list A) i x : nth_error l i = Some x -> (i < List.length l)%nat.
Proof. intro H; apply nth_error_Some; congruence. Qed.

Lemma table_accepts files region interval : (exists d, make_weather files region interval = Ok d) <->
  exists name lat lon n, In (region, (name, lat, lon)) places /\ In (interval, n) intervals /\ List.length (files name) = (365 * 24)%nat.
Proof.
split.
- intros [d M]; destruct (table_length _ _ _ _ M) as [name [lat [lon [n [A [B [C _]]]]]]]; eauto 8.
- intros [name [lat [lon [n [A [B C]]]]]]; destruct (table_rows _ _ _ _ _ _ _ A B C) as [d [M _]]; eauto.
Qed.

Lemma step_between data interval n day hour k lo hi : In (interval, n) intervals -> (k < n)%nat -> data <> [] ->
  (forall x, In x data -> lo <= x <= hi) -> lo <= at_step data n day hour k <= hi.
Proof.
intros I K N B; unfold at_step; set (h := Z.of_nat (day * 24 + hour)).
pose proof (B _ (hourly_in data (h - 1) N)) as U; pose proof (B _ (hourly_in data h N)) as V.
assert (P := interval_pos _ _ I); assert (0 < INR n) by (apply lt_0_INR; lia).
assert (0 <= INR k / INR n) by (apply Rmult_le_pos; [apply pos_INR|left; apply Rinv_0_lt_compat; assumption]).
assert (INR k / INR n <= 1).
{ apply Rmult_le_reg_r with (INR n); [assumption|]; unfold Rdiv; rewrite Rmult_assoc, Rinv_l, Rmult_1_r, Rmult_1_l by lra; apply le_INR; lia. }
set (u := hourly data (h - 1)) in *; set (v := hourly data h) in *; set (q := INR k / INR n) in *; clearbody q u v; nra.
Qed.

Lemma rounded_nonneg d x y : 0 <= x -> rounded d x y -> 0 <= y.
Proof.
intros X [[z ->] A]; assert (P := ten_pos d); assert (Q := Rinv_0_lt_compat _ P).
destruct (Z_lt_le_dec z 0) as [Z|Z]; [|apply Rmult_le_pos; [apply IZR_le; exact Z|lra]].
exfalso; assert (IZR z <= -1) by (apply IZR_le; lia).
assert (IZR z / 10 ^ d <= - / 10 ^ d) by (unfold Rdiv; nra).
rewrite Rabs_left1 in A by lra; lra.
Qed.

Lemma table_nonneg files region name lat lon interval n d :
  In (region, (name, lat, lon)) places -> In (interval, n) intervals ->
  (forall l, In l (files name) -> 0 <= column_3 l /\ 0 <= column_4 l /\ 0 <= column_6 l) ->
  make_weather files region interval = Ok d ->
  (forall q, In q (normal_direct_solar_radiation d) -> 0 <= q) /\ (forall q, In q (horizontal_sky_solar_radiation d) -> 0 <= q) /\
  (forall x, In x (absolute_humidity d) -> 0 <= x).
Proof.
intros Hp Hi B M; destruct (table_length _ _ _ _ M) as [name' [lat' [lon' [n' [A [A' [L Ls]]]]]]].
assert (name' = name).
{ pose proof (proj1 (place_ok _ _ _ _ A)) as E; rewrite (proj1 (place_ok _ _ _ _ Hp)) in E; congruence. }
assert (n' = n) by (apply interval_ok in A'; apply interval_ok in Hi; congruence).
subst name' n'; clear A A' lat' lon'.
destruct Ls as [_ [L6 [L3 [L4 _]]]].
assert (P := interval_pos _ _ Hi).
destruct (table_rows _ _ _ _ _ _ _ Hp Hi L) as [d' [M' V]]; assert (d' = d) by congruence; subst d'.
assert (Ne : forall c : line -> R, map c (files name) <> []).
{ intros c E; apply (f_equal (@List.length R)) in E; rewrite map_length, L in E; discriminate E. }
assert (Pos : forall (c : line -> R) day hour k, (k < n)%nat -> (forall l, In l (files name) -> 0 <= c l) -> 0 <= at_step (map c (files name)) n day hour k).
{ intros c day hour k K Bc; pose (m := fold_right Rmax 0 (map c (files name))).
  apply (step_between _ interval n day hour k 0 m Hi K (Ne c)); intros x X; split.
  - apply in_map_iff in X; destruct X as [l [<- X]]; apply Bc, X.
  - unfold m; clear -X; induction (map c (files name)) as [|y r IH]; simpl in *; [contradiction|].
    destruct X as [->|X]; [apply Rmax_l|]; eapply Rle_trans; [apply IH, X|apply Rmax_r]. }
assert (Sp : forall i, (i < 365 * 24 * n)%nat -> exists day hour k, (day < 365 /\ hour < 24 /\ k < n)%nat /\ i = row n day hour k).
{ intros i Hi'; exists (i / (24 * n))%nat, ((i mod (24 * n)) / n)%nat, ((i mod (24 * n)) mod n)%nat.
  assert (n <> 0)%nat by lia; assert (24 * n <> 0)%nat by lia.
  split; [split; [|split]|].
  - apply Nat.div_lt_upper_bound; lia.
  - apply Nat.div_lt_upper_bound; [lia|]; rewrite Nat.mul_comm; apply Nat.mod_upper_bound; lia.
  - apply Nat.mod_upper_bound; lia.
  - unfold row; pose proof (Nat.div_mod i (24 * n) ltac:(lia)) as G1; pose proof (Nat.div_mod (i mod (24 * n)) n ltac:(lia)) as G2.
    rewrite G1 at 1; rewrite G2 at 1; ring. }
split; [|split]; intros q Hq; apply In_nth_error in Hq; destruct Hq as [i Hq];
  assert (I : (i < 365 * 24 * n)%nat) by (apply nth_error_Some_lt in Hq; lia);
  destruct (Sp i I) as [day [hour [k [[K1 [K2 K3]] ->]]]];
  destruct (V day hour k K1 K2 K3) as [_ [[x [X1 X2]] [V3 [V4 _]]]].
- rewrite V3 in Hq; injection Hq as <-; apply Pos; [exact K3|]; intros l Hl; apply B, Hl.
- rewrite V4 in Hq; injection Hq as <-; apply Pos; [exact K3|]; intros l Hl; apply B, Hl.
- rewrite X1 in Hq; injection Hq as <-; apply (rounded_nonneg _ _ _ (Rle_trans _ _ _ (Rle_refl 0) (Rmult_le_pos _ (/ 1000) (Pos column_6 day hour k K3 (fun l Hl => proj2 (proj2 (B l Hl)))) ltac:(lra))) X2).
Qed.
