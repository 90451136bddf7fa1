From Coq Require Import Reals List String ZArith Lra.
From Verif Require Import Model.Py Model.Weather Spec.WeatherSpec Lemmas.WeatherL.
Import ListNotations.
Local Open Scope R_scope.

(* C24: n steps per hour; step k of hour h lies k/n of the way from the previous hourly value to this one, so
   the value on the hour is the hourly value before, and hour 0 takes the last value of the year. *)
Theorem C24_value : forall (data : list R) (interval : string) (n : nat) (r : list R),
  get_n_hour interval = Ok n -> interpolate data interval = Ok r ->
  List.length r = (List.length data * n)%nat /\
  forall h k, (h < List.length data)%nat -> (k < n)%nat ->
  nth_error r (h * n + k) = Some ((1 - INR k / INR n) * hourly data (Z.of_nat h - 1) + INR k / INR n * hourly data (Z.of_nat h)).
Proof. exact interpolate_value. Qed.
Print Assumptions C24_value.

Theorem C24_on_the_hour : forall (data : list R) (interval : string) (n : nat) (r : list R),
  get_n_hour interval = Ok n -> interpolate data interval = Ok r ->
  forall h, (h < List.length data)%nat -> nth_error r (h * n) = Some (hourly data (Z.of_nat h - 1)).
Proof. exact interpolate_hour. Qed.
Print Assumptions C24_on_the_hour.

Theorem C24_envelope : forall (data : list R) (interval : string) (n : nat) (r : list R),
  get_n_hour interval = Ok n -> interpolate data interval = Ok r ->
  forall h k v, (h < List.length data)%nat -> (k < n)%nat -> nth_error r (h * n + k) = Some v ->
  Rmin (hourly data (Z.of_nat h - 1)) (hourly data (Z.of_nat h)) <= v <= Rmax (hourly data (Z.of_nat h - 1)) (hourly data (Z.of_nat h)).
Proof. exact interpolate_envelope. Qed.
Print Assumptions C24_envelope.

(* Exactly three intervals are accepted. *)
Theorem C24_intervals : forall (data : list R) (interval : string),
  ((exists r, interpolate data interval = Ok r) <-> (exists n, get_n_hour interval = Ok n)) /\
  ((exists n, get_n_hour interval = Ok n) <-> (interval = "1h" \/ interval = "30m" \/ interval = "15m")%string) /\
  (interval <> "1h"%string -> interval <> "30m"%string -> interval <> "15m"%string ->
   interpolate data interval = Err KeyError /\ get_n_hour interval = Err KeyError).
Proof.
intros data interval; split; [exact (interpolate_accepts data interval)|split; [exact (n_hour_accepts interval)|]].
exact (interpolate_rejects data interval).
Qed.
Print Assumptions C24_intervals.

Example C24_example : exists r, interpolate [0; 4; 8] "15m" = Ok r /\ nth_error r 0 = Some (1 * 8 + (1 - 1) * 0) /\
  get_n_hour "15m" = Ok 4%nat.
Proof. eexists; repeat split; reflexivity. Qed.
