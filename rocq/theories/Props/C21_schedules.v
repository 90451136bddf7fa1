From Coq Require Import Reals List String Lra.
From Verif Require Import Model.Py Model.Schedule Spec.HouseholdSpec Lemmas.ScheduleL.
Import ListNotations.
Local Open Scope R_scope.

(* C21: the schedule of a year for n residents: its length, and the value at quarter hour t of day k. *)
Theorem C21_value : forall (d : tables) (room : string) (n : R) (cal : list string) (type : string) (s : list R),
  get_schedule d room n cal type = Ok s -> List.length s = (365 * 96)%nat /\
  forall k day t, nth_error cal k = Some day -> known_day day -> (t < 96)%nat ->
  exists m x y v, (1 <= m <= 3)%nat /\ entry d room type day m t x /\ entry d room type day (S m) t y /\
    nth_error s (k * 96 + t)%nat = Some v /\ between n m x y v.
Proof.
intros d room n cal type s H; split; [exact (proj1 (proj2 (get_schedule_ok d room n cal type s H)))|].
intros k day t Hk Kd Ht; exact (get_schedule_entry d room n cal type s k day t H Hk Kd Ht).
Qed.
Print Assumptions C21_value.

(* Exact at whole numbers of residents. *)
Theorem C21_integer : forall (d : tables) (room : string) (cal : list string) (type : string) (s : list R) k day t m x,
  get_schedule d room (INR m) cal type = Ok s ->
  nth_error cal k = Some day -> known_day day -> (t < 96)%nat -> entry d room type day m t x ->
  nth_error s (k * 96 + t)%nat = Some x.
Proof. exact schedule_integer. Qed.
Print Assumptions C21_integer.

(* Within the range of the tables. *)
Theorem C21_range : forall (d : tables) (room : string) (n : R) (cal : list string) (type : string) (s : list R) k day t lo hi v,
  get_schedule d room n cal type = Ok s -> nth_error cal k = Some day -> known_day day -> (t < 96)%nat ->
  (forall m x, (1 <= m <= 4)%nat -> entry d room type day m t x -> lo <= x <= hi) ->
  nth_error s (k * 96 + t)%nat = Some v -> lo <= v <= hi.
Proof. exact schedule_range. Qed.
Print Assumptions C21_range.

(* Continuous in the number of residents: at most L per resident if neighbouring tables differ by at most L. *)
Theorem C21_continuous : forall (d : tables) (room : string) (n n' : R) (cal : list string) (type : string) (s s' : list R)
    k day t L v v', 0 <= L ->
  get_schedule d room n cal type = Ok s -> get_schedule d room n' cal type = Ok s' ->
  nth_error cal k = Some day -> known_day day -> (t < 96)%nat ->
  (forall m x y, (1 <= m <= 3)%nat -> entry d room type day m t x -> entry d room type day (S m) t y -> Rabs (y - x) <= L) ->
  nth_error s (k * 96 + t)%nat = Some v -> nth_error s' (k * 96 + t)%nat = Some v' -> Rabs (v' - v) <= L * Rabs (n' - n).
Proof. exact schedule_lipschitz. Qed.
Print Assumptions C21_continuous.

(* Accepted exactly for one to four residents. *)
Theorem C21_accepts : forall (d : tables) (room : string) (n : R) (cal : list string) (type : string),
  complete d room type -> List.length cal = 365%nat ->
  ((exists s, get_schedule d room n cal type = Ok s) <-> 1 <= n <= 4) /\
  (~ (1 <= n <= 4) -> get_schedule d room n cal type = Err ValueError).
Proof. exact get_schedule_accepts. Qed.
Print Assumptions C21_accepts.

Example C21_example : complete cook_tables "main_occupant_room" "heat_generation_cooking" /\ List.length cook_calendar = 365%nat /\
  nth_error cook_calendar 200 = Some "平日"%string /\
  entry cook_tables "main_occupant_room" "heat_generation_cooking" "平日" 3 40 100.
Proof.
split; [exact (cook_complete _ _)|split; [apply repeat_length|split; [reflexivity|]]].
eexists; split; reflexivity.
Qed.
