(* C50: the hourly digest agrees with the detailed result *)
From Coq Require Import Reals ZArith List String Lia Lra.
From Verif Require Import Model.Py Model.OperationMode Model.Log Spec.LogSpec Lemmas.LogL.
Import ListNotations.
Local Open Scope R_scope.

(* Both frames are produced for every logger whose series cover the main period. *)
Theorem C50_completes : forall lg n_step_hourly n_d_main, (0 <= n_d_main)%Z -> (0 <= n_step_hourly)%Z ->
  covers (Z.to_nat (n_d_main * n_step_hourly * 24)) lg -> exists ds dd, record lg n_step_hourly n_d_main = Ok (ds, dd).
Proof. exact record_ok. Qed.
Print Assumptions C50_completes.

(* A negative number of days is refused. *)
Theorem C50_negative_days : forall lg n_step_hourly n_d_main, (n_d_main < 0)%Z -> (0 < n_step_hourly)%Z ->
  record lg n_step_hourly n_d_main = Err ValueError.
Proof. exact record_negative. Qed.
Print Assumptions C50_negative_days.

(* No column of either frame overwrites another one, whatever the numbers of rooms and boundaries. *)
Theorem C50_columns : forall lg n_step_hourly n_d_main ds dd, record lg n_step_hourly n_d_main = Ok (ds, dd) ->
  NoDup (map fst ds) /\ NoDup (map fst dd).
Proof. exact names_once. Qed.
Print Assumptions C50_columns.

(* The detailed frame holds the steps of the main period of every series of every room, *)
Theorem C50_detail_rooms : forall lg n_step_hourly n_d_main ds dd i r k l, record lg n_step_hourly n_d_main = Ok (ds, dd) ->
  nth_error (lg_rooms lg) i = Some r -> In (k, l) (room_quantities r) ->
  In ("rm" ++ str i ++ k, Num (firstn (Z.to_nat (n_d_main * n_step_hourly * 24)) l))%string dd.
Proof. exact detail_room. Qed.
Print Assumptions C50_detail_rooms.

(* of its operation modes, *)
Theorem C50_detail_modes : forall lg n_step_hourly n_d_main ds dd i r, record lg n_step_hourly n_d_main = Ok (ds, dd) ->
  nth_error (lg_rooms lg) i = Some r ->
  In ("rm" ++ str i ++ "_ac_operate", Modes (firstn (Z.to_nat (n_d_main * n_step_hourly * 24)) (lg_operation_mode r)))%string dd.
Proof. exact detail_mode. Qed.
Print Assumptions C50_detail_modes.

(* of every boundary of the room, numbered within the room, *)
Theorem C50_detail_boundaries : forall lg n_step_hourly n_d_main ds dd i r j b k l, record lg n_step_hourly n_d_main = Ok (ds, dd) ->
  nth_error (lg_rooms lg) i = Some r -> nth_error (filter (belongs i) (lg_bdries lg)) j = Some b -> In (k, l) (bdry_quantities b) ->
  In ("rm" ++ str i ++ "_b" ++ str j ++ k, Num (firstn (Z.to_nat (n_d_main * n_step_hourly * 24)) l))%string dd.
Proof. exact detail_bdry. Qed.
Print Assumptions C50_detail_boundaries.

(* and of the outdoor air. *)
Theorem C50_detail_outdoor : forall lg n_step_hourly n_d_main ds dd, record lg n_step_hourly n_d_main = Ok (ds, dd) ->
  In ("out_temp"%string, Num (firstn (Z.to_nat (n_d_main * n_step_hourly * 24)) (lg_theta_o lg))) dd /\
  In ("out_abs_humid"%string, Num (firstn (Z.to_nat (n_d_main * n_step_hourly * 24)) (lg_x_o lg))) dd.
Proof. exact detail_outdoor. Qed.
Print Assumptions C50_detail_outdoor.

(* With quarter-hour steps the digest has one row per hour of the main period,
   and air temperature, humidity and operative temperature are hourly means, rounded to 2, 4 and 2 decimals. *)
Theorem C50_hourly_means : forall lg n_d_main ds dd i r k d l, record lg 4 n_d_main = Ok (ds, dd) -> nth_error (lg_rooms lg) i = Some r ->
  In (k, d, l) [("_t_r", 2%nat, lg_theta_r r); ("_x_r", 4%nat, lg_x_r r); ("_ot", 2%nat, lg_theta_ot r)]%string ->
  digest_shows ds ("rm" ++ str i ++ k) (Z.to_nat (n_d_main * 24))
    (fun col h => (exists a b c e, quarter_values l h a b c e) /\ shows_mean d l col h).
Proof. exact hourly_means. Qed.
Print Assumptions C50_hourly_means.

(* The loads are sums of the four values of the hour, rounded to integers: four times the mean load in W, not the energy in Wh. *)
Theorem C50_hourly_sums : forall lg n_d_main ds dd i r k l, record lg 4 n_d_main = Ok (ds, dd) -> nth_error (lg_rooms lg) i = Some r ->
  In (k, l) [("_l_s_c", lg_l_cs r); ("_l_s_r", lg_l_rs r); ("_l_l_c", lg_l_cl r)]%string ->
  digest_shows ds ("rm" ++ str i ++ k) (Z.to_nat (n_d_main * 24))
    (fun col h => (exists a b c e, quarter_values l h a b c e) /\ shows_sum 0 l col h).
Proof. exact hourly_sums. Qed.
Print Assumptions C50_hourly_sums.

(* Outdoor temperature and humidity are hourly means with two decimals. *)
Theorem C50_hourly_outdoor : forall lg n_d_main ds dd k l, record lg 4 n_d_main = Ok (ds, dd) ->
  In (k, l) [("out_temp", lg_theta_o lg); ("out_abs_humid", lg_x_o lg)]%string ->
  digest_shows ds k (Z.to_nat (n_d_main * 24)) (fun col h => (exists a b c e, quarter_values l h a b c e) /\ shows_mean 2 l col h).
Proof. exact hourly_outdoor. Qed.
Print Assumptions C50_hourly_outdoor.

(* The operation mode is the one at the beginning of the hour. *)
Theorem C50_hourly_mode : forall lg n_d_main ds dd i r, record lg 4 n_d_main = Ok (ds, dd) -> nth_error (lg_rooms lg) i = Some r ->
  exists col, In ("rm" ++ str i ++ "_ac_operate", DModes col)%string ds /\ List.length col = Z.to_nat (n_d_main * 24) /\
    forall h, (h < Z.to_nat (n_d_main * 24))%nat -> exists m, nth_error (lg_operation_mode r) (4 * h) = Some m /\ nth_error col h = Some (Some m).
Proof. exact hourly_mode. Qed.
Print Assumptions C50_hourly_mode.

(* Two decimals are too few for the humidity in kg/kg: dry air below 5 g/kg is shown as 0. *)
Theorem C50_dry_air_refuted : forall lg n_d_main ds dd, record lg 4 n_d_main = Ok (ds, dd) -> (forall x, In x (lg_x_o lg) -> 0 <= x < 5 / 1000) ->
  digest_shows ds "out_abs_humid" (Z.to_nat (n_d_main * 24)) (fun col h => nth_error col h = Some (Some 0)).
Proof. exact dry_shown. Qed.
Print Assumptions C50_dry_air_refuted.

(* For every interval row h covers the steps 4 h to 4 h + 3, and rows beyond the last step are empty. *)
Theorem C50_any_interval_partial : forall lg n_step_hourly n_d_main ds dd i r k d l, record lg n_step_hourly n_d_main = Ok (ds, dd) ->
  nth_error (lg_rooms lg) i = Some r ->
  In (k, d, l) [("_t_r", 2%nat, lg_theta_r r); ("_x_r", 4%nat, lg_x_r r); ("_ot", 2%nat, lg_theta_ot r)]%string ->
  digest_shows ds ("rm" ++ str i ++ k) (Z.to_nat (n_d_main * 24))
    (fun col h => ((4 * h + 4 <= Z.to_nat (n_d_main * n_step_hourly * 24))%nat -> shows_mean d l col h) /\
                  ((Z.to_nat (n_d_main * n_step_hourly * 24) <= 4 * h)%nat -> nth_error col h = Some None)).
Proof. exact summary_means. Qed.
Print Assumptions C50_any_interval_partial.

(* So other intervals get wrong hours: with five-minute steps the second row shows at most 0.01 degrees although the room has 20 degrees for the whole hour. *)
Theorem C50_intervals_refuted : exists lg ds dd r col, record lg 12 1 = Ok (ds, dd) /\ nth_error (lg_rooms lg) 0 = Some r /\
  In ("rm0_t_r"%string, DNum col) ds /\ (forall x, In x (firstn 12 (skipn 12 (lg_theta_r r))) -> x = 20) /\
  exists y, nth_error col 1 = Some (Some y) /\ y <= 1 / 100.
Proof. exact five_minutes. Qed.
Print Assumptions C50_intervals_refuted.

(* a day of quarter-hour steps at 21 degrees *)
Example C50_example : exists ds dd, record (flat_logger (4 * 24) 21 (repeat 21 (4 * 24))) 4 1 = Ok (ds, dd).
Proof. apply record_ok; [lia|lia|]; apply (flat_covers (4 * 24) 21 (repeat 21 (4 * 24))); reflexivity. Qed.
