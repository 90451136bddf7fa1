(* A whole calculation for the two-room house of House2.v: one day of run-up, one day of results; the
   first boundary is taken as a ground boundary. *)
From Coq Require Import ZArith Lia.
From mathcomp Require Import all_ssreflect ssralg ssrnum zmodp matrix.
From Verif Require Import Model.OperationMode Model.Numpy Model.PreCalc Model.Tick Model.Step Model.OtTarget
  Model.CoreStep Model.Ground Model.Dec Model.Py Model.CoreLoop Model.CoreCalc.
From Verif Require Import Spec.Physical Spec.Run Spec.Simulation Spec.GroundSpec.
From Verif Require Import Lemmas.DecL Lemmas.CoreLoopL Lemmas.StepProps Lemmas.CoreCalcL Lemmas.GroundL
  Examples.House2 Lemmas.TickRefute Examples.House2Ex.
Set Implicit Arguments. Unset Strict Implicit. Unset Printing Implicit Defensive.
Import Order.TTheory GRing.Theory Num.Theory.
Local Open Scope ring_scope.

Section RunEx.
Variable F : realFieldType.

Definition day2 : seq (step_data F 2 4) := nseq 96 (@step2 F).
Definition ground2 : pred 'I_4 := fun j => j == 0.



Lemma dt_four : delta_t F 4 = 900%:R.
Proof.
rewrite /delta_t [z2f _ _]/=.
have -> : 2%:R * (2%:R * 1) = 4%:R :> F by rewrite mulr1 -natrM.
by apply/eqP; rewrite -[X in _ == X]divr1 eqr_div ?pnatr_eq0 ?oner_neq0 // mulr1 -natrM.
Qed.

Lemma in_day2 s : List.In s day2 -> s = @step2 F.
Proof. by move=> H; rewrite (List.repeat_spec 96 (@step2 F) s H). Qed.

Lemma hv_calc_ex (x0 : F) : exists cf log,
  core_calc (1 / 8%:R) (@infil2 F) (@x_sat2 F) x0 (hv F) ground2 day2 4 1 1 1 = Ok (cf, log).
Proof.
have [[b r a hm] _] := hv_phys_ex F.
apply: core_calc_total => //; rewrite ?dt_four //.
- by move=> i; rewrite mxE.
- by move=> i; rewrite mxE.
- by move=> s /in_day2 ->.
- by move=> tr to i; rewrite mxE divr_ge0 ?ler01 ?ler0n.
by left.
Qed.

Lemma damped_ex : damped (1 / 2%:R : F) (house_ground (hv F) 0).
Proof.
split=> /=; rewrite ?mxE ?divr_gt0 ?divr_ge0 ?ler01 ?ltr01 ?ltr0n ?ler0n //.
- by rewrite addr_gt0 ?ltr0n.
- by move=> m; rewrite !mxE divr_gt0 ?ltr01 ?ltr0n.
- by move=> m; rewrite !mxE divr_ge0 ?ler01 ?ler0n /=.
- by rewrite /= ltr_pdivr_mulr ?ltr0n // mul1r ltr1n.
rewrite big_ord_recl big_ord0 !mxE addr0 -!natrD mulrDr mulr1.
apply: ler_paddr.
  by rewrite mulr_ge0 ?divr_ge0 ?ler01 ?ler0n // mulr_ge0 ?divr_ge0 ?ler01 ?ler0n.
by rewrite mulrA mulr1 ler_pdivr_mulr ?ltr0n // mulrAC mul1r ler_pdivl_mulr ?ltr0n // -!natrM ler_nat.
Qed.
End RunEx.
