From mathcomp Require Import all_ssreflect ssralg ssrnum zmodp matrix.
From Verif Require Import Model.OperationMode Model.Numpy Model.NextCondition Model.PreCalc Model.Tick
  Model.Step Model.OtTarget Model.CoreStep Spec.Physical Spec.Natural Spec.StepEq Spec.Equil Spec.Coil Spec.Warmer.
From Verif Require Import Lemmas.TickTotal Lemmas.TickEquil Lemmas.TickEnergy Lemmas.NextConditionL Lemmas.StepL
  Lemmas.StepProps Lemmas.CoreStepL Lemmas.LoadRefute Examples.House2 Lemmas.TickRefute Examples.House2Ex.
Set Implicit Arguments. Unset Strict Implicit. Unset Printing Implicit Defensive.
Import Order.TTheory GRing.Theory Num.Theory.
Local Open Scope ring_scope.

(* C06: equipment is used only where asked, and then the set point is reached exactly. "natural" is the
   same step with the equipment off. *)
Theorem C06_load : forall (F : realFieldType) (ni nj nm : nat) (e0 : F) (infil : infil_fun F ni) (x_sat : F -> F)
    (dt : F) (h : house F ni nj nm) (s : step_data F ni nj) (c c' : conditions F ni nj nm) (o : outputs F ni nj),
  core_step e0 infil x_sat dt h s c = Some (c', o) ->
  (forall i, 0 <= cap_h h i 0) -> (forall i, 0 <= cap_c h i 0) ->
  exists c0 o0 hc hr md lo up,
    [/\ step (ot_off (get_ot_target_and_h_hum e0 (ni := ni))) infil x_sat dt h s c = Some (c0, o0)
        /\ o_l_cs o0 = 0 /\ o_l_rs o0 = 0,
        get_ot_target_and_h_hum e0 (x_r c) (operation_mode c) (theta_r c) (theta_mrt_hum c) (ac_demand s)
          = Some (hc, hr, md, lo, up) /\ operation_mode c' = md
      & forall i,
        let natural := o_theta_ot o0 i 0 in
        let a := ac_demand s i 0 in
        let heated := md i = HEATING /\ natural < lo i 0 in
        let cooled := md i = COOLING /\ up i 0 < natural in
        [/\ heated -> o_theta_ot o i 0 = a * lo i 0 + (1 - a) * natural,
            cooled -> o_theta_ot o i 0 = a * up i 0 + (1 - a) * natural,
            ~ heated -> ~ cooled -> o_l_cs o i 0 = 0 /\ o_l_rs o i 0 = 0
          & [/\ heated -> is_rad_h h i = false -> o_l_rs o i 0 = 0,
                cooled -> is_rad_c h i = false -> o_l_rs o i 0 = 0,
                heated -> is_rad_h h i ->
                  o_l_cs o i 0 = 0 \/ o_l_rs o i 0 = cap_h h i 0 \/ o_l_rs o i 0 = - cap_c h i 0
              & cooled -> is_rad_c h i ->
                  o_l_cs o i 0 = 0 \/ o_l_rs o i 0 = cap_h h i 0 \/ o_l_rs o i 0 = - cap_c h i 0]]].
Proof. by move=> F ni nj nm e0 infil x_sat dt h s c c' o Hs; exact: (step_load Hs). Qed.
Print Assumptions C06_load.

(* the linear balance of next_condition.py *)
Theorem C06_linear_balance : forall (F : realFieldType) n (rh rc : 'I_n -> bool) (brc : 'cV[F]_n) (brm brl : 'M[F]_n)
    (lo up caph capc : 'cV[F]_n) (om : 'I_n -> mode) (ac theta lc lr : 'cV[F]_n),
  calc_next_temp_and_load rh rc brc brm brl lo up caph capc om ac = Some (theta, lc, lr) ->
  brm *m theta = lc + brl *m lr + brc.
Proof. by move=> F n rh rc brc brm brl lo up caph capc om ac theta lc lr; exact: calc_balance. Qed.
Print Assumptions C06_linear_balance.

Example C06_example (F : realFieldType) : exists c' o,
  core_step (1 / 8%:R) (@infil2 F) (@x_sat2 F) 900%:R (hx F) (@step2 F) (cond2 HEATING 15%:R) = Some (c', o).
Proof. exact: house2_ex. Qed.
