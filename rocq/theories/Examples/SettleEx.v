(* A house with people, appliances and sun comes to rest. *)
From Coq Require Import ZArith Lia.
From mathcomp Require Import all_ssreflect ssralg ssrnum zmodp matrix.
From Verif Require Import Model.OperationMode Model.Numpy Model.PreCalc Model.Tick Model.Step Model.OtTarget
  Model.CoreStep Model.Ground Model.Dec Model.Py Model.CoreLoop Model.CoreCalc.
From Verif Require Import Spec.Physical Spec.Simulation Spec.StepEq Spec.Forget Spec.Steady Spec.Settle.
From Verif Require Import Lemmas.DecL Lemmas.NumpyL Lemmas.TickL Lemmas.TickBalance Lemmas.TickTotal Lemmas.TickEquil Lemmas.StepL Lemmas.StepProps
  Lemmas.CoreStepL Lemmas.CoreCalcL Lemmas.ForgetL Lemmas.SettleL Examples.House2 Lemmas.TickRefute Examples.House2Ex Examples.RunEx Examples.HumidEx Examples.ForgetEx.
Set Implicit Arguments. Unset Strict Implicit. Unset Printing Implicit Defensive.
Import Order.TTheory GRing.Theory Num.Theory.
Local Open Scope ring_scope.

Section SettleEx.
Variable F : realFieldType.

(* two people, 50 W of appliances and 100 W of sun in each room *)
Definition lived (T : F) : step_data F 2 4 := {|
  theta_o := T; x_o := 4%:R / 1000%:R; v_mec_local := 0; q_gen := const_mx 50%:R; x_gen := 0; n_hum := const_mx 2%:R; ac_demand := 0;
  q_trs_sol := const_mx 100%:R; theta_o_sol := const_mx T |}.
Definition lived_days (T : F) : seq (step_data F 2 4) := nseq 192 (lived T).

Lemma in_lived T s : List.In s (lived_days T) -> s = lived T.
Proof. by move=> H; rewrite (List.repeat_spec 192 _ s H). Qed.

Lemma lived_unattended T : unattended 900%:R (hout F) (1 / 100%:R) (lived T).
Proof.
move=> i; split; rewrite /= !mxE ?addr0 ?ler0n //.
have cp : 120%:R <= cap_air F.
  rewrite /cap_air /c_air /rho_air; apply: le_trans (_ : 1005%:R * 1 <= _); first by rewrite mulr1 ler_nat.
  by rewrite ler_pmul2l ?ltr0n // ler_pdivl_mulr ?ltr0n // mul1r ler_nat.
rewrite -natrM; apply: le_trans (_ : 2%:R * (30%:R * 120%:R / 900%:R) <= _).
  by rewrite -natrM mulrA -natrM ler_pdivl_mulr ?ltr0n // -natrM ler_nat.
by rewrite ler_pmul2l ?ltr0n // ler_pmul2r ?invr_gt0 ?ltr0n // ler_pmul2l ?ltr0n.
Qed.

Lemma lived_air T : physical_air (hout F) (lived T).
Proof. by move=> i; rewrite /= !mxE addr0 !divr_ge0 ?ler01 ?ler0n. Qed.

Lemma hout_unit : unit_response (hout F).
Proof.
have h : 1 - 1 / 2%:R = 1 / 2%:R :> F by apply/eqP; rewrite subr_eq -mulrDl -[1 + 1]/(2%:R) divff ?pnatr_eq0.
split=> [j m|j].
  by rewrite mxE lt_eqF // ltr_pdivr_mulr ?ltr0n // mul1r ltr1n.
rewrite big_ord_recl big_ord0 addr0 !mxE h.
have -> : (20%:R : F) = 10%:R * 2%:R by rewrite -natrM.
have -> : 9%:R / (10%:R * 2%:R) / (1 / 2%:R) = 9%:R / 10%:R :> F.
  by rewrite invfM !mulrA div1r invrK mulfVK ?pnatr_eq0.
by rewrite -mulrDl -(natrD _ 1 9) divff ?pnatr_eq0.
Qed.

Lemma lived_run_from x0 (d : Z) T : (0 <= d <= 2)%Z -> exists g c log,
  simulation (lived_days T) (1 / 8%:R) (@infil2 F) (@moist_sat F) 900%:R (hout F) (theta_o_ave (lived_days T)) (conditions_init 2 4 1 x0)
    96 (d * 4 * 24) (d * 4 * 24) (is_ground := ground2) g c log.
Proof.
move=> Hd.
have [cf [log H]] : exists cf log,
    core_calc (1 / 8%:R) (@infil2 F) (@moist_sat F) x0 (hout F) ground2 (lived_days T) 4 1 d d = Ok (cf, log).
  apply: core_calc_total => //; rewrite ?dt_four ?size_nseq //; try lia.
  - by move=> i; rewrite mxE.
  - by move=> i; rewrite mxE.
  - exact: hout_boundaries.
  - exact: hout_rooms.
  - by move=> s /in_lived ->; exact: lived_air.
  - exact: hout_hum.
  - exact: infil2_ge0.
  by left.
have [g [c [S _]]] := core_calc_run (ltac:(lia) : (0 < 4)%Z) (ltac:(lia) : (0 <= 1)%Z) (ltac:(lia) : (0 <= d)%Z) (ltac:(lia) : (d <= d)%Z) H.
by exists g, c, log; move: S; rewrite dt_four.
Qed.

Lemma lived_run_ex (d : Z) T : (0 <= d <= 2)%Z -> exists g c log,
  simulation (lived_days T) (1 / 8%:R) (@infil2 F) (@moist_sat F) 900%:R (hout F) (theta_o_ave (lived_days T)) (conditions_init 2 4 1 (4%:R / 1000%:R))
    96 (d * 4 * 24) (d * 4 * 24) (is_ground := ground2) g c log.
Proof. exact: lived_run_from. Qed.
End SettleEx.
