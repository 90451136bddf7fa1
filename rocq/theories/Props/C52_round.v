(* C52: rounding of reported values *)
From Coq Require Import Reals ZArith Lra.
From Verif Require Import Model.RoundNum Lemmas.RoundNumL.
Local Open Scope R_scope.

(* The result is a multiple of the last digit's unit, 10 ^ (- digit). *)
Theorem C52_multiple : forall num digit, exists k : Z, round_num num digit = IZR k * powerRZ 10 (- digit).
Proof. exact round_multiple. Qed.
Print Assumptions C52_multiple.

(* It differs from the number by at most half a unit. *)
Theorem C52_error : forall num digit, Rabs (round_num num digit - num) <= powerRZ 10 (- digit) / 2.
Proof. exact round_error. Qed.
Print Assumptions C52_error.

(* Half a unit is rounded away from zero. *)
Theorem C52_half : forall num digit, Rabs (round_num num digit - num) = powerRZ 10 (- digit) / 2 ->
  Rabs (round_num num digit) = Rabs num + powerRZ 10 (- digit) / 2.
Proof. exact round_tie. Qed.
Print Assumptions C52_half.

(* It is odd, *)
Theorem C52_odd : forall num digit, round_num (- num) digit = - round_num num digit.
Proof. exact round_odd. Qed.
Print Assumptions C52_odd.

(* monotone, *)
Theorem C52_monotone : forall num num' digit, num <= num' -> round_num num digit <= round_num num' digit.
Proof. exact round_mono. Qed.
Print Assumptions C52_monotone.

(* and leaves numbers alone that have no further digits. *)
Theorem C52_fixed : forall (k digit : Z), round_num (IZR k * powerRZ 10 (- digit)) digit = IZR k * powerRZ 10 (- digit).
Proof. exact round_fixed. Qed.
Print Assumptions C52_fixed.

(* -2.735 is rounded to -2.74 *)
Example C52_example : round_num (- (2735 / 1000)) 2 = - (274 / 100).
Proof.
rewrite round_odd, round_nonneg by lra; unfold unit_of; simpl.
rewrite (floor_unique _ 274); lra.
Qed.
