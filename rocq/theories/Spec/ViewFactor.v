(* The view factor of a surface seen from a small sphere, with parameter fbar and area ratio r. *)
From Coq Require Import Reals List.
From Verif Require Import Model.ShapeFactor.
Import ListNotations.
Local Open Scope R_scope.

Definition view_factor (fbar r f : R) : Prop :=
  f <= / 2 /\ fbar * (f * (1 - f)) = r \/
  / 2 <= f /\ fbar * (/ 2 - f * (1 - f)) = r.

(* fbar fits a room whose surfaces have the areas a: the view factors add up to one. *)
Definition fits (a : list R) (fbar : R) : Prop :=
  exists fs, Forall2 (fun x f => view_factor fbar (x / fold_right Rplus 0 a) f) a fs /\ fold_right Rplus 0 fs = 1.

(* The areas of the surfaces of room i; room and a list the room and the area of each boundary. *)
Definition room_areas (i : nat) (room : list nat) (a : list R) : list R :=
  map snd (filter (fun p => Nat.eqb (fst p) i) (combine room a)).

(* Radiative coefficient of a surface with view factor f at 293.15 K, emissivity 0.9, in W/m2K. *)
Definition black : R := 4 * (567 / 10 ^ 10) * (29315 / 100) ^ 3.
Definition radiative (f : R) : R := 9 / 10 * black / (1 - 9 / 10 * f).

(* fsolve found a zero of the function it was given, for each room that has boundaries *)
Definition solved (f_ver : list R -> R) (n : nat) (room : list nat) (a : list R) : Prop :=
  forall i, (i < n)%nat -> room_areas i room a <> [] ->
  let rs := ratios (room_areas i room a) in f_ver rs <> 0 /\ residual rs (f_ver rs) = 0.
