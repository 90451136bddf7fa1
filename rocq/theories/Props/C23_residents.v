From Coq Require Import Reals List String Lra.
From Verif Require Import Model.Py Model.Schedule Model.Residents Spec.HouseholdSpec Lemmas.ScheduleL.
Import ListNotations.
Local Open Scope R_scope.

(* C23: the number of residents for a total floor area a. *)
Theorem C23_range : forall a : R, 1 <= get_total_number_of_residents a <= 4.
Proof. exact residents_range. Qed.
Print Assumptions C23_range.

(* Non-decreasing, and continuous: at most one resident per 30 m2. *)
Theorem C23_monotone : forall a a' : R, a <= a' ->
  0 <= get_total_number_of_residents a' - get_total_number_of_residents a <= (a' - a) / 30.
Proof. exact residents_lipschitz. Qed.
Print Assumptions C23_monotone.

(* Always accepted by the schedules. *)
Theorem C23_accepted : forall (a : R) (d : tables) (room : string) (cal : list string) (type : string),
  complete d room type -> List.length cal = 365%nat ->
  exists s, get_schedule d room (get_total_number_of_residents a) cal type = Ok s.
Proof. intros a d room cal type C L; exact (get_schedule_total d room _ cal type C L (residents_range a)). Qed.
Print Assumptions C23_accepted.

Example C23_example : get_total_number_of_residents 75 = 5 / 2 /\ complete cook_tables "main_occupant_room" "number_of_people".
Proof.
split; [|exact (cook_complete _ _)].
unfold get_total_number_of_residents; destruct (Rlt_dec 75 30); [lra|destruct (Rlt_dec 75 120); lra].
Qed.
