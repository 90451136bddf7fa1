From Coq Require Import Reals List String Lra.
From Verif Require Import Model.Py Model.BoundaryDict Model.ResponseFactor Spec.WallResponse Lemmas.PyL Lemmas.GaussL Lemmas.ResponseFactorL Lemmas.ResponseFitL
  Lemmas.ResponsePassL.
Import ListNotations.
Local Open Scope R_scope.

(* C73: the walls the response factors describe leak (Spec/Forget.v: lk_phi, lk_total). If the fitted answer of the
   inner surface to a constant heat flow, aa0 + sum aa_j exp(-alpha_j t), only rises and does not start below zero,
   then no term gives back a negative amount, and all terms together hold back less than the surface takes up at once,
   or there are none. aa0 and aa are the numbers of the fit. *)
Theorem C73_walls : forall inv g cs rs rf at0 aa0 at_ aa, right_size inv -> calc_response_factor inv g cs rs = Ok rf ->
  get_step_reps_of_wall inv cs rs (get_laps (get_alpha_m g)) (get_alpha_m g) = Ok (at0, aa0, at_, aa) ->
  (forall x, In x aa -> x <= 0) -> 0 <= aa0 + add_up aa ->
  (forall x, In x (rfa1 rf) -> 0 <= x) /\
  (scalar (rfa1 rf) (map (fun q => / (1 + q)) (row rf)) < rfa0 rf \/ (0 <= rfa0 rf /\ forall x, In x (rfa1 rf) -> x = 0)).
Proof. exact calc_pass. Qed.
Print Assumptions C73_walls.

(* layers without mass *)
Example C73_example_wall : exists rf at0 aa0 at_ aa, right_size gauss /\ calc_response_factor gauss false [0; 0] [1; 2] = Ok rf /\
  get_step_reps_of_wall gauss [0; 0] [1; 2] (get_laps (get_alpha_m false)) (get_alpha_m false) = Ok (at0, aa0, at_, aa) /\
  (forall x, In x aa -> x <= 0) /\ 0 <= aa0 + add_up aa.
Proof.
assert (Sl : sound_layers (combine [1; 2] [0; 0])).
{ intros r c I; simpl in I; destruct I as [[= <- <-]|[[= <- <-]|[]]]; (split; [lra|split; [lra|left; lra]]). }
assert (N : combine [1; 2] [0; 0] <> []) by discriminate.
destruct (calc_ok gauss false [0; 0] [1; 2] gauss_inverts N Sl) as [rf E].
pose proof E as E'; unfold calc_response_factor in E'; apply bind_ok in E'; destruct E' as [[[[at0 aa0] at_] aa] [St _]].
destruct (reps_massless gauss false [0; 0] [1; 2] at0 aa0 at_ aa eq_refl ltac:(discriminate)
  ltac:(intros c [<-|[<-|[]]]; reflexivity) St) as [A Z].
exists rf, at0, aa0, at_, aa; split; [exact gauss_size|split; [exact E|split; [exact St|split]]].
- intros x I; rewrite (Z x I); lra.
- assert (S0 : add_up aa = 0) by (clear -Z; induction aa as [|x l IH]; simpl; [reflexivity|rewrite (Z x), IH; [ring|intros; apply Z; right|left]; auto]).
  rewrite S0, A; simpl; lra.
Qed.
