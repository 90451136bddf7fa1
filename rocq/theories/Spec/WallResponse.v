(* The response of a wall described by a first term and exponential terms. *)
From Coq Require Import Reals List.
From Verif Require Import Model.Py.
Import ListNotations.
Local Open Scope R_scope.

Definition add_up (l : list R) : R := fold_right Rplus 0 l.

(* sum of x * y over corresponding entries *)
Definition scalar (x y : list R) : R := add_up (map (fun p => fst p * snd p) (combine x y)).

(* the response factor n steps after the excitation: first the initial term, then every exponential term shrinks by its
   ratio from step to step *)
Definition response_at (first : R) (terms ratios : list R) (n : nat) : R :=
  match n with
  | O => first
  | S k => scalar terms (map (fun q => q ^ k) ratios)
  end.

(* the recursion with which the calculation evaluates the response to a constant excitation theta *)
Definition next_terms (terms ratios : list R) (theta : R) (x : list R) : list R :=
  map (fun p => fst (fst p) * theta + snd (fst p) * snd p) (combine (combine terms ratios) x).

Definition apply (m : list (list R)) (v : list R) : list R := map (fun r => scalar r v) m.

Definition square (n : nat) (m : list (list R)) : Prop := length m = n /\ forall r, In r m -> length r = n.

Definition trivial_kernel (n : nat) (m : list (list R)) : Prop :=
  forall v, length v = n -> apply m v = repeat 0 n -> v = repeat 0 n.

(* np.linalg.inv: a matrix that maps nothing but zero to zero gets its inverse *)
Definition inverts (inv : list (list R) -> res (list (list R))) : Prop :=
  forall n m, square n m -> trivial_kernel n m ->
  exists m', inv m = Ok m' /\ square n m' /\ forall v, length v = n -> apply m (apply m' v) = v.

(* sum of the squared deviations of the fit x from the wanted values g *)
Definition misfit (f : list (list R)) (g x : list R) : R :=
  add_up (map (fun p => (fst p - snd p) ^ 2) (combine (apply f x) g)).

Fixpoint iterate (terms ratios : list R) (theta : R) (k : nat) (x : list R) : list R :=
  match k with O => x | S k => iterate terms ratios theta k (next_terms terms ratios theta x) end.

(* pairs of resistance and capacity: no negative values, and a layer with capacity has resistance *)
Definition sound_layers (l : list (R * R)) : Prop := forall r c, In (r, c) l -> 0 <= r /\ 0 <= c /\ (0 < r \/ c = 0).

(* the result of np.linalg.inv has the shape of its argument *)
Definition right_size (inv : list (list R) -> res (list (list R))) : Prop :=
  forall n m m', square n m -> inv m = Ok m' -> square n m'.
