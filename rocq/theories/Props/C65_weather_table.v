From Coq Require Import Reals List String ZArith Lra.
From Verif Require Import Model.Py Model.WeatherTable Spec.Sky Spec.WeatherSpec Spec.LogSpec Spec.WeatherTableSpec Lemmas.WeatherTableL.
Import ListNotations.
Local Open Scope R_scope.

(* C65: a table is made exactly for the eight regions and the three intervals, from a file with a line for every hour of the year *)
Theorem C65_accepts : forall (files : string -> list line) (region : Z) (interval : string),
  (exists d, make_weather files region interval = Ok d) <->
  exists name lat lon n, In (region, (name, lat, lon)) places /\ In (interval, n) intervals /\ List.length (files name) = (365 * 24)%nat.
Proof. exact table_accepts. Qed.
Print Assumptions C65_accepts.

(* every row: the values of the region's own file interpolated to that instant (temperature rounded to 0.001 degree C, humidity
   in kg/kg rounded to 0.000001), and the direction of the sun at the same instant seen from the region's place *)
Theorem C65_rows : forall (files : string -> list line) region name lat lon interval n,
  In (region, (name, lat, lon)) places -> In (interval, n) intervals -> List.length (files name) = (365 * 24)%nat ->
  exists d, make_weather files region interval = Ok d /\
    forall day hour k, (day < 365)%nat -> (hour < 24)%nat -> (k < n)%nat ->
    let t := row n day hour k in
    let now column := at_step (map column (files name)) n day hour k in
    (exists T, nth_error (temperature d) t = Some T /\ rounded 3 (now column_2) T) /\
    (exists x, nth_error (absolute_humidity d) t = Some x /\ rounded 6 (now column_6 / 1000) x) /\
    nth_error (normal_direct_solar_radiation d) t = Some (now column_3) /\
    nth_error (horizontal_sky_solar_radiation d) t = Some (now column_4) /\
    nth_error (outward_radiation d) t = Some (now column_5) /\
    (exists h a delta e, nth_error (sun_altitude d) t = Some (Some h) /\ nth_error (sun_azimuth d) t = Some (Some a) /\
       - (PI / 2) < h < PI / 2 /\ - PI < a <= PI /\ Rabs delta <= delta_max /\ Rabs e <= eqt_max /\
       ((day < 79)%nat -> delta < 0) /\ ((83 <= day < 262)%nat -> 0 < delta) /\ ((266 <= day)%nat -> delta < 0) /\
       direction h a = sun (lat * (PI / 180)) delta
         ((INR hour + INR k / INR n - 12) * 15 * (PI / 180) + (lon - 135) * (PI / 180) + e)).
Proof. exact table_rows. Qed.
Print Assumptions C65_rows.

(* all columns have 365 * 24 * n rows *)
Theorem C65_length : forall (files : string -> list line) region interval d, make_weather files region interval = Ok d ->
  exists name lat lon n, In (region, (name, lat, lon)) places /\ In (interval, n) intervals /\
    List.length (files name) = (365 * 24)%nat /\
    List.length (temperature d) = (365 * 24 * n)%nat /\ List.length (absolute_humidity d) = (365 * 24 * n)%nat /\
    List.length (normal_direct_solar_radiation d) = (365 * 24 * n)%nat /\ List.length (horizontal_sky_solar_radiation d) = (365 * 24 * n)%nat /\
    List.length (outward_radiation d) = (365 * 24 * n)%nat /\ List.length (sun_altitude d) = (365 * 24 * n)%nat /\
    List.length (sun_azimuth d) = (365 * 24 * n)%nat.
Proof. exact table_length. Qed.
Print Assumptions C65_length.

(* for hourly data with one decimal, like those of all eight files, rounding changes nothing at all *)
Theorem C65_exact : forall (files : string -> list line) region name lat lon interval n d,
  In (region, (name, lat, lon)) places -> In (interval, n) intervals -> List.length (files name) = (365 * 24)%nat ->
  (forall l, In l (files name) -> decimals 1 (column_2 l) /\ decimals 1 (column_6 l)) ->
  make_weather files region interval = Ok d ->
  forall day hour k, (day < 365)%nat -> (hour < 24)%nat -> (k < n)%nat ->
    nth_error (temperature d) (row n day hour k) = Some (at_step (map column_2 (files name)) n day hour k) /\
    nth_error (absolute_humidity d) (row n day hour k) = Some (at_step (map column_6 (files name)) n day hour k / 1000).
Proof. exact table_exact. Qed.
Print Assumptions C65_exact.

(* no radiation or humidity of the table is negative unless the file has negative values *)
Theorem C65_nonneg : forall (files : string -> list line) region name lat lon interval n d,
  In (region, (name, lat, lon)) places -> In (interval, n) intervals ->
  (forall l, In l (files name) -> 0 <= column_3 l /\ 0 <= column_4 l /\ 0 <= column_6 l) ->
  make_weather files region interval = Ok d ->
  (forall q, In q (normal_direct_solar_radiation d) -> 0 <= q) /\ (forall q, In q (horizontal_sky_solar_radiation d) -> 0 <= q) /\
  (forall x, In x (absolute_humidity d) -> 0 <= x).
Proof. exact table_nonneg. Qed.
Print Assumptions C65_nonneg.

(* every file a year of 2.6 and 2.9 degree C in turn *)
Definition ex_line (t : R) : line := {| column_2 := t; column_3 := 0; column_4 := 0; column_5 := 80; column_6 := 33 / 10 |}.
Definition ex_files (_ : string) : list line := List.concat (repeat [ex_line (26 / 10); ex_line (29 / 10)] (365 * 12)).
Example C65_example : In (6%Z, ("06_okayama.csv"%string, 3466 / 100, 13392 / 100)) places /\ In ("15m"%string, 4%nat) intervals /\
  List.length (ex_files "06_okayama.csv") = (365 * 24)%nat /\
  (forall l, In l (ex_files "06_okayama.csv") -> decimals 1 (column_2 l) /\ decimals 1 (column_6 l)) /\
  (forall l, In l (ex_files "06_okayama.csv") -> 0 <= column_3 l /\ 0 <= column_4 l /\ 0 <= column_6 l) /\
  exists d, make_weather ex_files 6 "15m" = Ok d.
Proof.
assert (L : forall m, List.length (List.concat (repeat [ex_line (26 / 10); ex_line (29 / 10)] m)) = (2 * m)%nat).
{ induction m as [|m IH]; [reflexivity|]; cbn [repeat List.concat List.app List.length]; rewrite IH; ring. }
assert (I : forall l, In l (ex_files "06_okayama.csv") -> l = ex_line (26 / 10) \/ l = ex_line (29 / 10)).
{ unfold ex_files; intros l H; apply in_concat in H; destruct H as [x [X H]]; apply repeat_spec in X; subst x; simpl in H; intuition. }
assert (P : In (6%Z, ("06_okayama.csv"%string, 3466 / 100, 13392 / 100)) places) by (simpl; auto 10).
assert (Q : In ("15m"%string, 4%nat) intervals) by (simpl; auto).
assert (N : List.length (ex_files "06_okayama.csv") = (365 * 24)%nat) by (unfold ex_files; rewrite L; reflexivity).
split; [exact P|split; [exact Q|split; [exact N|split; [|split]]]].
- intros l H; destruct (I l H) as [E|E]; rewrite E; simpl; split; [exists 26%Z|exists 33%Z|exists 29%Z|exists 33%Z]; simpl; lra.
- intros l H; destruct (I l H) as [E|E]; rewrite E; simpl; lra.
- apply C65_accepts; eauto 8.
Qed.
