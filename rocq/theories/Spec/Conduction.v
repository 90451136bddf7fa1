(* Heat conduction through layers, for one value s of the Laplace variable *)
From Coq Require Import Reals List.
Import ListNotations.
Local Open Scope R_scope.

(* Temperature and heat flow (inwards to outwards) inside a layer with resistance r and capacity c,
   at relative depth x: Fourier's law and the balance of stored heat. *)
Definition conducts (s r c : R) (theta q : R -> R) : Prop :=
  (forall x, 0 <= x <= 1 -> derivable_pt_lim theta x (- r * q x)) /\ (forall x, 0 <= x <= 1 -> derivable_pt_lim q x (- (c * s) * theta x)).

(* Temperature and heat flow at the inner and the outer surface of a wall, layers counted from inside. *)
Fixpoint wall_conducts (s : R) (layers : list (R * R)) (t0 q0 t1 q1 : R) : Prop :=
  match layers with
  | [] => t0 = t1 /\ q0 = q1
  | (r, c) :: rest => exists theta q, conducts s r c theta q /\ theta 0 = t0 /\ q 0 = q0 /\ wall_conducts s rest (theta 1) (q 1) t1 q1
  end.

(* capacities below 0.001 J/m2K are neglected *)
Definition heeded (c : R) : R := if Rlt_dec (Rabs c) (1 / 1000) then 0 else c.
Definition heeded_layers (l : list (R * R)) : list (R * R) := map (fun rc => (fst rc, heeded (snd rc))) l.

(* nothing is negative, and layers with capacity have a resistance *)
Definition layer_ok (rc : R * R) : Prop := 0 <= fst rc /\ 0 <= snd rc /\ (1 / 1000 <= snd rc -> 0 < fst rc).
