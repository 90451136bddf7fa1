(* One building step as core.calc sees it: the matrices prepared before the loop
   (core/core.py 62, pre_calc_parameters.py 215-624) and then sequence.run_tick (core/core.py 82, 88).
   None = an exception (singular matrix, or illegal operation mode in ot_target_pmv.py). *)
From mathcomp Require Import all_ssreflect ssralg ssrnum zmodp matrix.
From Verif Require Import Model.OperationMode Model.Numpy Model.PreCalc Model.Tick.
Set Implicit Arguments. Unset Strict Implicit. Unset Printing Implicit Defensive.
Import Order.TTheory GRing.Theory Num.Theory.
Local Open Scope ring_scope.

Section Step.
Variable F : realFieldType.
Variables ni nj nm : nat.
Variable get_ot_target_and_h_hum : ot_fun F ni.
Variable get_infiltration : infil_fun F ni.
Variable x_sat : F -> F.

Definition step (delta_t : F) (h : house F ni nj nm) (s : step_data F ni nj) (c : conditions F ni nj nm)
    : option (conditions F ni nj nm * outputs F ni nj) :=
  if make_pp h delta_t is Some pp
  then run_tick get_ot_target_and_h_hum get_infiltration x_sat delta_t h pp s c
  else None.

Lemma stepP dt h s c c' o : step dt h s c = Some (c', o) ->
  exists q, make_pp h dt = Some q /\
    run_tick get_ot_target_and_h_hum get_infiltration x_sat dt h q s c = Some (c', o).
Proof. by rewrite /step; case: (make_pp h dt) => [q|//] E; exists q. Qed.

Lemma stepI dt h s c q r : make_pp h dt = Some q ->
  run_tick get_ot_target_and_h_hum get_infiltration x_sat dt h q s c = r -> step dt h s c = r.
Proof. by rewrite /step => ->. Qed.

End Step.
