(* Light in a stack of panes, without reference to the formulas of the program. *)
From Coq Require Import Reals List.
From Verif Require Import Model.Glazing.
Local Open Scope R_scope.

(* a pane that does not make light and does not reflect everything *)
Definition real_pane (p : pane) : Prop :=
  0 <= tau_f p /\ 0 <= rho_f p /\ tau_f p + rho_f p <= 1 /\ rho_f p < 1 /\
  0 <= tau_b p /\ 0 <= rho_b p /\ tau_b p + rho_b p <= 1 /\ rho_b p < 1.

(* the light between the panes: f j travels inwards and b j outwards in gap j, which lies in front of pane j
   (gap 0 is outside, gap n inside).  Each pane lets through and reflects its share of what arrives at its sides. *)
Definition light (ss : list pane) (f b : nat -> R) : Prop :=
  forall j p, nth_error ss j = Some p ->
    f (S j) = tau_f p * f j + rho_b p * b (S j) /\ b j = rho_f p * f j + tau_b p * b (S j).

(* what pane j keeps of it *)
Definition kept (p : pane) (f b : nat -> R) (j : nat) : R :=
  (1 - tau_f p - rho_f p) * f j + (1 - tau_b p - rho_b p) * b (S j).

(* sun from outside only *)
Definition sunlight (ss : list pane) (f b : nat -> R) : Prop := light ss f b /\ f 0%nat = 1 /\ b (length ss) = 0.

(* the pane seen from the other side *)
Definition turn (p : pane) : pane := {| tau_f := tau_b p; tau_b := tau_f p; rho_f := rho_b p; rho_b := rho_f p |}.
