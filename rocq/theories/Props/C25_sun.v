From Coq Require Import Reals List String ZArith Lra Lia.
From Verif Require Import Model.Py Model.Trig Model.Weather Model.SolarPosition Spec.Sky Lemmas.SolarPositionL Lemmas.WeatherL.
Import ListNotations.
Local Open Scope R_scope.

(* C25: altitude and azimuth at step k of day d (from 0; n steps per hour). Every day has a declination of at most 23.44
   degrees, negative in winter and positive in summer, and an equation of time of at most 18.1 minutes such that for
   every place and every time of that day altitude and azimuth describe the direction of the sun. The altitude is always
   defined; the azimuth is undefined exactly in the zenith and the nadir. *)
Theorem C25_direction : forall (d : nat), (d < 365)%nat -> exists delta e : R,
  Rabs delta <= delta_max /\ Rabs e <= eqt_max /\
  ((d < 79)%nat -> delta < 0) /\ ((83 <= d < 262)%nat -> 0 < delta) /\ ((266 <= d)%nat -> delta < 0) /\
  forall (phi lambda : R) (interval : string) (n : nat) (hs azs : list (option R)),
  get_n_hour interval = Ok n -> calc_solar_position phi lambda interval = Ok (hs, azs) ->
  List.length hs = (365 * (24 * n))%nat /\ List.length azs = (365 * (24 * n))%nat /\
  forall k, (k < 24 * n)%nat -> exists h,
    - (PI / 2) <= h <= PI / 2 /\ nth_error hs (d * (24 * n) + k) = Some (Some h) /\
    let v := sun phi delta ((INR k / INR n - 12) * 15 * (PI / 180) + (lambda - 135 * (PI / 180)) + e) in
    sin h = up v /\
    (- (PI / 2) < phi < PI / 2 -> h <> PI / 2 -> h <> - (PI / 2) ->
     exists a, nth_error azs (d * (24 * n) + k) = Some (Some a) /\ - PI < a <= PI /\ direction h a = v) /\
    (h = PI / 2 \/ h = - (PI / 2) -> nth_error azs (d * (24 * n) + k) = Some None).
Proof. exact solar_direction. Qed.
Print Assumptions C25_direction.

(* In all eight climate regions the azimuth is defined at every step. *)
Theorem C25_regions : forall (region : Z) (phi lambda : R) (interval : string) (n : nat) (hs azs : list (option R)),
  get_phi_loc_and_lambda_loc region = Ok (phi, lambda) ->
  get_n_hour interval = Ok n -> calc_solar_position phi lambda interval = Ok (hs, azs) ->
  forall d k, (d < 365)%nat -> (k < 24 * n)%nat ->
  exists h a delta omega, nth_error hs (d * (24 * n) + k) = Some (Some h) /\ nth_error azs (d * (24 * n) + k) = Some (Some a) /\
    - (PI / 2) < h < PI / 2 /\ - PI < a <= PI /\ Rabs delta <= delta_max /\ direction h a = sun phi delta omega.
Proof. exact solar_regions. Qed.
Print Assumptions C25_regions.

(* The places of the regions, in hundredths of a degree north and thousandths of a degree east. *)
Definition place_of (region : Z) : option (R * R) :=
  nth_error [(4382, 143910); (4321, 141790); (3970, 141170); (3666, 138200); (3655, 139870); (3466, 133920); (3194, 131420); (2621, 127685)]
    (Z.to_nat (region - 1)).
Theorem C25_places : forall (region : Z) (phi lambda : R), get_phi_loc_and_lambda_loc region = Ok (phi, lambda) ->
  (1 <= region <= 8)%Z /\ place_of region = Some (phi * 180 / PI * 100, lambda * 180 / PI * 1000).
Proof.
intros region phi lambda E; assert (R8 : (1 <= region <= 8)%Z) by (apply region_accepts; eexists; exact E); split; [exact R8|].
assert (K : forall a, radians a * 180 / PI = a) by (intro a; unfold radians; field; apply PI_neq0).
assert (C : (region = 1 \/ region = 2 \/ region = 3 \/ region = 4 \/ region = 5 \/ region = 6 \/ region = 7 \/ region = 8)%Z) by lia.
repeat (destruct C as [->|C]; [injection E as <- <-; rewrite !K; unfold place_of; simpl; repeat f_equal; lra|]).
subst region; injection E as <- <-; rewrite !K; unfold place_of; simpl; repeat f_equal; lra.
Qed.
Print Assumptions C25_places.

(* Exactly the regions 1 to 8 and the three known intervals are accepted. *)
Theorem C25_accepts : forall (region : Z) (phi lambda : R) (interval : string),
  ((exists p, get_phi_loc_and_lambda_loc region = Ok p) <-> (1 <= region <= 8)%Z) /\
  ((exists r, calc_solar_position phi lambda interval = Ok r) <-> (interval = "1h" \/ interval = "30m" \/ interval = "15m")%string).
Proof.
intros region phi lambda interval; split; [exact (region_accepts region)|].
rewrite <- n_hour_accepts; split; [intros [r E]; exact (solar_position_rejects _ _ _ _ E)|].
intros [n N]; destruct (solar_position_ok phi lambda interval n N) as [hs [azs [E _]]]; eauto.
Qed.
Print Assumptions C25_accepts.

Example C25_example : exists p, get_phi_loc_and_lambda_loc 6 = Ok p /\
  exists r, calc_solar_position (fst p) (snd p) "15m" = Ok r /\ get_n_hour "15m" = Ok 4%nat.
Proof.
eexists; split; [reflexivity|].
destruct (solar_position_ok (radians (3466 / 100)) (radians (13392 / 100)) "15m" 4 eq_refl) as [hs [azs [E _]]].
exists (hs, azs); auto.
Qed.
