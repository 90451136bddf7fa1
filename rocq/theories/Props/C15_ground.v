From mathcomp Require Import all_ssreflect ssralg ssrnum zmodp matrix.
From Verif Require Import Model.PreCalc Model.Tick Model.Ground Spec.GroundSpec.
From Verif Require Import Lemmas.GroundL Examples.House2Ex Examples.RunEx.
Set Implicit Arguments. Unset Strict Implicit. Unset Printing Implicit Defensive.
Import Order.TTheory GRing.Theory Num.Theory.
Local Open Scope ring_scope.

(* each boundary of the ground calculation is advanced on its own, by the step of Spec/GroundSpec.v *)
Theorem C15_separate : forall (F : realFieldType) (ng nm : nat) (p : ground_pp F ng nm) (tos : seq F)
    (g : ground_conditions F ng nm) (k : 'I_ng),
  row_state (foldl (fun g to => ground_tick p to g) g tos) k
  = advances (row_ground p k) (g_theta_ave p) tos (row_state g k).
Proof. by move=> F ng nm p tos g k; exact: run_rows. Qed.
Print Assumptions C15_separate.

(* for every constant outdoor temperature there is one steady state; outdoors at the deep ground
   temperature it is: no heat flow, surface at that temperature *)
Theorem C15_steady : forall (F : realFieldType) (nm : nat) (g : ground F nm) (td to : F),
  0 <= hi g -> 0 <= phi0 g -> (forall m, 0 <= phi1 g 0 m) -> (forall m, ratio g 0 m < 1) ->
  (exists s, advance g td to s = s /\ forall s', advance g td to s' = s' -> s' = s) /\
  advance g td td (0, 0) = (0, 0) /\ surface g td td 0 = td.
Proof.
move=> F nm g td to h1 h2 h3 h4; split; last exact: steady_rest.
have [s e] := steady_exists h1 h2 h3 h4 td to; exists s; split=> // s' e'.
exact: (steady_unique h1 h2 h3 h4 e' e).
Qed.
Print Assumptions C15_steady.

(* two start states under the same weather: the difference shrinks geometrically, and the difference of the
   heat flows is bounded by it *)
Theorem C15_contraction : forall (F : realFieldType) (ng nm : nat) (p : ground_pp F ng nm) (rho : F) (k : 'I_ng) (to : F)
    (tos : seq F) (g g' : ground_conditions F ng nm),
  damped rho (row_ground p k) ->
  let w := row_ground p k in
  let run := foldl (fun g to => ground_tick p to g) in
  let a := ground_tick p to g in let b := ground_tick p to g' in
  energy w (row k (g_dsh (run a tos)) - row k (g_dsh (run b tos)))
    <= (rho ^+ 2) ^+ size tos * energy w (row k (g_dsh a) - row k (g_dsh b))
  /\ (g_q (run a tos) k 0 - g_q (run b tos) k 0) ^+ 2
    <= hi w * rho * energy w (row k (g_dsh (run a tos)) - row k (g_dsh (run b tos))).
Proof. by move=> F ng nm p rho k to tos g g'; exact: run_contracts. Qed.
Print Assumptions C15_contraction.

(* every start state tends to the steady state *)
Theorem C15_converges : forall (F : archiFieldType) (ng nm : nat) (p : ground_pp F ng nm) (rho : F) (k : 'I_ng)
    (g : ground_conditions F ng nm) (eps : F),
  damped rho (row_ground p k) -> 0 < eps ->
  exists N, forall n, (N <= n)%N ->
    let g' := foldl (fun g to => ground_tick p to g) g (nseq n (g_theta_ave p)) in
    energy (row_ground p k) (row k (g_dsh g')) < eps /\ g_q g' k 0 ^+ 2 < eps.
Proof. by move=> F ng nm p rho k g eps; exact: run_converges. Qed.
Print Assumptions C15_converges.

Example C15_example (F : realFieldType) : damped (1 / 2%:R : F) (house_ground (hv F) 0).
Proof. exact: damped_ex. Qed.
