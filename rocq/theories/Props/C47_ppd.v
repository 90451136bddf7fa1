(* C47: predicted percentage dissatisfied *)
From Coq Require Import Reals Lra.
From Verif Require Import Model.Py Model.Iso7730 Lemmas.PyL Lemmas.Iso7730L.
Local Open Scope R_scope.

(* It is at least 5 and below 100. *)
Theorem C47_range : forall pmv, 5 <= get_ppd pmv < 100.
Proof. intro v; exact (conj (ppd_least v) (ppd_below v)). Qed.
Print Assumptions C47_range.

(* It is 5 exactly for a neutral vote. *)
Theorem C47_least : forall pmv, get_ppd pmv = 5 <-> pmv = 0.
Proof.
intro v; split; [intro E; destruct (Req_dec v 0) as [H|N]; [exact H|assert (L := ppd_above v N); lra]|intros ->; exact ppd_zero].
Qed.
Print Assumptions C47_least.

(* Votes of opposite sign give the same percentage. *)
Theorem C47_even : forall pmv, get_ppd (- pmv) = get_ppd pmv.
Proof. exact ppd_even. Qed.
Print Assumptions C47_even.

(* It grows strictly with the distance from the neutral vote. *)
Theorem C47_increasing : forall pmv pmv', Rabs pmv < Rabs pmv' -> get_ppd pmv < get_ppd pmv'.
Proof. exact ppd_incr. Qed.
Print Assumptions C47_increasing.

(* The percentage returned with a vote is the percentage of that vote. *)
Theorem C47_returned : forall newton met p_eff t_a t_r clo v rh r, get_pmv_ppd newton met p_eff t_a t_r clo v rh = Ok r -> snd r = get_ppd (fst r).
Proof.
intros newton met p_eff t_a t_r clo v rh r E; unfold get_pmv_ppd in E.
apply bind_ok in E; destruct E as (p_a & _ & E); apply bind_ok in E; destruct E as (t & _ & E); apply bind_ok in E; destruct E as (h & _ & E).
injection E as <-; reflexivity.
Qed.
Print Assumptions C47_returned.

(* The vote -0.5 is better than 1 *)
Example C47_example : 5 < get_ppd (- (1 / 2)) < get_ppd 1 /\ get_ppd 1 < 100.
Proof.
split; [split; [apply ppd_above; lra|apply ppd_incr]|apply ppd_below].
rewrite Rabs_Ropp, !Rabs_right; lra.
Qed.
