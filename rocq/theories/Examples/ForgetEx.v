(* A house without inner walls forgets its start. *)
From Coq Require Import ZArith Lia.
From mathcomp Require Import all_ssreflect ssralg ssrnum zmodp matrix.
From Verif Require Import Model.OperationMode Model.Numpy Model.PreCalc Model.Tick Model.Step Model.OtTarget
  Model.CoreStep Model.Ground Model.Dec Model.Py Model.CoreLoop Model.CoreCalc.
From Verif Require Import Spec.Physical Spec.Simulation Spec.StepEq Spec.Forget.
From Verif Require Import Lemmas.DecL Lemmas.NumpyL Lemmas.TickL Lemmas.TickBalance Lemmas.TickTotal Lemmas.TickEquil Lemmas.StepL Lemmas.StepProps
  Lemmas.CoreStepL Lemmas.CoreCalcL Lemmas.ForgetL Examples.House2 Lemmas.TickRefute Examples.House2Ex Examples.RunEx Examples.HumidEx.
Set Implicit Arguments. Unset Strict Implicit. Unset Printing Implicit Defensive.
Import Order.TTheory GRing.Theory Num.Theory.
Local Open Scope ring_scope.

Section ForgetEx.
Variable F : realFieldType.

(* the house of House2.v with four outer walls *)
Definition hout : house F 2 4 1 := {|
  v_room := const_mx 30%:R; beta := 0; v_vent_ex := const_mx (1 / 100%:R); v_int := 0;
  v_ntrl := const_mx (1 / 10%:R); c_sh := const_mx 1000%:R; g_sh := const_mx 10%:R;
  c_lh := const_mx 16%:R; g_lh := const_mx 1;
  is_rad_h := fun _ => false; cap_h := 0; is_rad_c := fun _ => false; cap_c := 0;
  q_min := const_mx 500%:R; q_max := const_mx 3000%:R; v_min := const_mx 6%:R; v_max := const_mx 11%:R;
  conn := ex_conn; a_srf := const_mx 12%:R;
  phi_a0 := const_mx (1 / 50%:R); phi_a1 := const_mx (1 / 500%:R);
  phi_t0 := const_mx (1 / 10%:R); phi_t1 := const_mx (9%:R / 20%:R); r_ms := const_mx (1 / 2%:R);
  h_c := const_mx 4%:R; h_r := const_mx 5%:R; flr := 0; is_solar_abs := fun j => j == 0;
  f_mrt_hum := const_mx (1 / 2%:R); k_eo := const_mx 1; k_ei := fun _ => None |}.

Lemma hout_boundaries : physical_boundaries hout.
Proof.
split=> //=; try by move=> j; rewrite mxE ?divr_gt0 ?divr_ge0 ?ltr0n ?ler0n ?ltr01 ?ler01.
by case=> [[|[|[|[|]]]]].
Qed.

Lemma hout_rooms : physical_rooms 900%:R hout.
Proof. by have [] := house2_rooms (1 / 50%:R) (1 / 10%:R) (fun _ => 4%:R) (@zero_ge0 F) (@sum0_lt F); split. Qed.

Lemma hout_hum : physical_hum hout.
Proof. by have [] := @house2_hum F 0 (1 / 50%:R) (1 / 10%:R) (fun _ => 4%:R); split. Qed.

Lemma hout_leaky : leaky hout.
Proof.
split=> //=; try by move=> *; rewrite !mxE ?divr_gt0 ?divr_ge0 ?ltr0n ?ler0n ?ltr01 ?ler01.
- by move=> j m; rewrite mxE divr_ge0 ?ler01 ?ler0n //= ltr_pdivr_mulr ?ltr0n // mul1r ltr1n.
- move=> j; left; rewrite big_ord_recl big_ord0 addr0 !mxE.
  apply: le_lt_trans (_ : 1 / 500%:R < _).
    have h0 : 0 <= 1 / 2%:R :> F by rewrite divr_ge0 ?ler01 ?ler0n.
    by rewrite ler_pdivr_mulr ?ltr_paddr ?ltr01 // ler_pemulr ?ler_addl // divr_ge0 ?ler01 ?ler0n.
  by rewrite ltr_pdivr_mulr ?ltr0n // mul1r mulrC ltr_pdivl_mulr ?ltr0n // mul1r ltr_nat.
- by move=> j m; rewrite mxE => /eqP; rewrite mulf_eq0 oner_eq0 invr_eq0 pnatr_eq0.
Qed.

Definition quiet_days (T : F) : seq (step_data F 2 4) := nseq 192 (still (4%:R / 1000%:R) T).

Lemma in_quiet T s : List.In s (quiet_days T) -> s = still (4%:R / 1000%:R) T.
Proof. by move=> H; rewrite (List.repeat_spec 192 _ s H). Qed.

Lemma quiet_unattended T s : List.In s (quiet_days T) -> unattended 900%:R hout (1 / 100%:R) s.
Proof.
move=> /in_quiet -> i.
split; rewrite /= !mxE ?addr0 ?mulr0 //.
have cp : 0 < cap_air F by rewrite mulr_gt0 ?c_air_gt0 ?rho_air_gt0.
by apply: mulr_ge0; rewrite ?ler0n //; apply: divr_ge0; rewrite ?ler0n //; apply: mulr_ge0; rewrite ?ler0n // ltW.
Qed.

Lemma hout_run_ex (d : Z) T : (0 <= d <= 2)%Z -> exists g c log,
  simulation (quiet_days T) (1 / 8%:R) (@infil2 F) (@moist_sat F) 900%:R hout (theta_o_ave (quiet_days T)) (conditions_init 2 4 1 (4%:R / 1000%:R))
    96 (d * 4 * 24) (d * 4 * 24) (is_ground := ground2) g c log.
Proof.
move=> Hd.
have [cf [log H]] : exists cf log,
    core_calc (1 / 8%:R) (@infil2 F) (@moist_sat F) (4%:R / 1000%:R) hout ground2 (quiet_days T) 4 1 d d = Ok (cf, log).
  apply: core_calc_total => //; rewrite ?dt_four ?size_nseq //; try lia.
  - by move=> i; rewrite mxE.
  - by move=> i; rewrite mxE.
  - exact: hout_boundaries.
  - exact: hout_rooms.
  - by move=> s /in_quiet -> i /=; rewrite !mxE addr0 !divr_ge0 ?ler01 ?ler0n.
  - exact: hout_hum.
  - exact: infil2_ge0.
  by left.
have [g [c [S _]]] := core_calc_run (ltac:(lia) : (0 < 4)%Z) (ltac:(lia) : (0 <= 1)%Z) (ltac:(lia) : (0 <= d)%Z) (ltac:(lia) : (d <= d)%Z) H.
by exists g, c, log; move: S; rewrite dt_four.
Qed.
End ForgetEx.
