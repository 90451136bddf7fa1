From Coq Require Import Reals List String Lra.
From Verif Require Import Model.Py Model.BoundaryDict Model.ResponseFactor Spec.WallResponse Lemmas.GaussL Lemmas.ResponseFactorL Lemmas.ResponseFitL.
Import ListNotations.
Local Open Scope R_scope.

(* C55: asking the same object twice for its response factors. True of openings and of directly given factors. *)
Theorem C55_repeat_partial : forall inv f rf f', (match f with Direct _ | Steady _ _ => True | _ => False end) ->
  get_response_factors inv f = Ok (rf, f') -> f' = f /\ get_response_factors inv f' = Ok (rf, f').
Proof. exact repeat_steady. Qed.
Print Assumptions C55_repeat_partial.

(* False of walls: each call appends the outside resistance once more (floors: another 3 m of earth). *)
Theorem C55_repeat_as_coded : forall inv cs rs r_o rf1 f1 rf2 f2, right_size inv ->
  get_response_factors inv (Envelope cs rs r_o) = Ok (rf1, f1) -> get_response_factors inv f1 = Ok (rf2, f2) ->
  exists R1 R2, infinite_sum (response_at (rfa0 rf1) (rfa1 rf1) (row rf1)) R1 /\
    infinite_sum (response_at (rfa0 rf2) (rfa1 rf2) (row rf2)) R2 /\ R2 = R1 + r_o.
Proof. exact repeat_wall. Qed.
Print Assumptions C55_repeat_as_coded.

Theorem C55_repeat_refuted : forall inv, inverts inv -> right_size inv ->
  exists f rf1 f1 rf2 f2, get_response_factors inv f = Ok (rf1, f1) /\ get_response_factors inv f1 = Ok (rf2, f2) /\ rf1 <> rf2.
Proof. exact repeat_refuted. Qed.
Print Assumptions C55_repeat_refuted.

Example C55_example : inverts gauss /\ right_size gauss.
Proof. exact (conj gauss_inverts gauss_size). Qed.
