From Coq Require Import Reals List Lra Sorting.Sorted.
From Verif Require Import Model.ShapeFactor Spec.ViewFactor Lemmas.ShapeFactorL.
Import ListNotations.
Local Open Scope R_scope.

(* C14: the equation for the view factors of a room has exactly one positive solution. *)
Theorem C14_equation : forall a : list R, a <> [] -> Forall (fun x => 0 < x) a -> exists! fbar, 0 < fbar /\ fits a fbar.
Proof. intros a ne H; exact (fits_unique a ne H). Qed.
Print Assumptions C14_equation.

(* Any zero the solver may find is that solution, and gives view factors in (0, 1] that add up to one.
   f_ver stands for the solver; residual is the function the code hands to it. *)
Theorem C14_factors : forall (f_ver : list R -> R) (a : list R), a <> [] -> Forall (fun x => 0 < x) a ->
  f_ver (ratios a) <> 0 -> residual (ratios a) (f_ver (ratios a)) = 0 ->
  Forall (fun f => 0 < f <= 1) (f_i_js f_ver a) /\ fold_right Rplus 0 (f_i_js f_ver a) = 1 /\
  fits a (f_ver (ratios a)) /\ 0 < f_ver (ratios a) /\
  Forall2 (fun x f => view_factor (f_ver (ratios a)) (x / fold_right Rplus 0 a) f) a (f_i_js f_ver a).
Proof. intros f_ver a ne H nz E; exact (f_i_js_ok f_ver a ne H nz E). Qed.
Print Assumptions C14_factors.

(* Range of the radiative coefficients, for every order of the boundaries. *)
Theorem C14_bounds : forall (f_ver : list R -> R) (n : nat) (room : list nat) (a : list R),
  Forall (fun x => 0 < x) a -> solved f_ver n room a ->
  Forall (fun h => 9 / 10 * black <= h <= 9 / 10 * black / (1 - 9 / 10)) (h_r_js f_ver n room a).
Proof. intros f_ver n room a P H; exact (bounds_spec f_ver n room a P H). Qed.
Print Assumptions C14_bounds.

(* Each boundary gets the coefficient of its own room and area when the boundaries are listed room by room.
   Missing: other orders, see C14_order_refuted. *)
Theorem C14_own_partial : forall (f_ver : list R -> R) (n : nat) (room : list nat) (a : list R),
  length room = length a -> Forall (fun x => 0 < x) a -> solved f_ver n room a ->
  StronglySorted le room -> Forall (fun k => (k < n)%nat) room ->
  forall j i x, nth_error room j = Some i -> nth_error a j = Some x ->
  exists fbar f, 0 < fbar /\ fits (room_areas i room a) fbar /\
    view_factor fbar (x / fold_right Rplus 0 (room_areas i room a)) f /\
    nth_error (h_r_js f_ver n room a) j = Some (radiative f).
Proof. intros f_ver n room a L P H S B j i x E1 E2; exact (own_spec f_ver n room a L P H S B j i x E1 E2). Qed.
Print Assumptions C14_own_partial.

(* In another order a boundary gets the coefficient of another room. *)
Theorem C14_order_refuted : exists (f_ver : list R -> R) (room : list nat) (a : list R) (i : nat) (x : R),
  length room = length a /\ Forall (fun x => 0 < x) a /\ Forall (fun k => (k < 2)%nat) room /\ solved f_ver 2 room a /\
  nth_error room 0 = Some i /\ nth_error a 0 = Some x /\
  ~ exists fbar f, 0 < fbar /\ fits (room_areas i room a) fbar /\
    view_factor fbar (x / fold_right Rplus 0 (room_areas i room a)) f /\
    nth_error (h_r_js f_ver 2 room a) 0 = Some (radiative f).
Proof.
exists (fun _ => 2), [1; 0; 0]%nat, [1; 1; 1], 1%nat, 1; split; [reflexivity|].
split; [repeat constructor; lra|split; [repeat constructor|exact order_spec]].
Qed.
Print Assumptions C14_order_refuted.

(* Two rooms, listed room by room. *)
Example C14_example : solved (fun _ => 2) 2 [0; 0; 1]%nat [3; 3; 5] /\ StronglySorted le [0; 0; 1]%nat.
Proof. split; [exact solved_ex|repeat constructor]. Qed.
