(* Moist air in the houses of House2Ex.v. *)
From Coq Require Import ZArith Lia.
From mathcomp Require Import all_ssreflect ssralg ssrnum zmodp matrix.
From Verif Require Import Model.OperationMode Model.Numpy Model.PreCalc Model.Tick Model.Step Model.OtTarget
  Model.CoreStep Model.Ground Model.Dec Model.Py Model.CoreLoop Model.CoreCalc.
From Verif Require Import Spec.Physical Spec.Simulation Spec.Coil Spec.Equil.
From Verif Require Import Lemmas.DecL Lemmas.NumpyL Lemmas.TickL Lemmas.TickEquil Lemmas.StepL Lemmas.StepProps
  Lemmas.CoreStepL Lemmas.CoreCalcL Lemmas.HumidityL Examples.House2 Lemmas.TickRefute Examples.House2Ex Examples.RunEx.
Set Implicit Arguments. Unset Strict Implicit. Unset Printing Implicit Defensive.
Import Order.TTheory GRing.Theory Num.Theory.
Local Open Scope ring_scope.

Section HumidEx.
Variable F : realFieldType.

Definition moist_sat : F -> F := fun _ => 5%:R / 1000%:R.
(* nobody at home, nothing switched on, outdoor air of humidity x *)
Definition still (x T : F) : step_data F 2 4 := {|
  theta_o := T; x_o := x; v_mec_local := 0; q_gen := 0; x_gen := 0; n_hum := 0; ac_demand := 0;
  q_trs_sol := 0; theta_o_sol := const_mx T |}.
(* all rooms and furniture at humidity x *)
Definition moist (x T : F) : conditions F 2 4 1 := {|
  operation_mode := fun _ => STOP_CLOSE; theta_r := const_mx T; theta_mrt_hum := const_mx T;
  x_r := const_mx x; theta_dsh_a := 0; theta_dsh_t := 0;
  q_srf := 0; theta_frt := const_mx T; x_frt := const_mx x; theta_ei := const_mx T |}.

Lemma infil2_ge0 : forall tr to i, 0 <= @infil2 F tr to i 0.
Proof. by move=> tr to i; rewrite mxE divr_ge0 ?ler01 ?ler0n. Qed.

Lemma cool_ex : exists c' o,
  core_step (1 / 8%:R) (@infil2 F) moist_sat 900%:R (hv F) (@step2 F) (cond2 COOLING 30%:R) = Some (c', o).
Proof.
have [[b r a hm] _] := hv_phys_ex F.
have ch i : 0 <= cap_h (hv F) i 0 by rewrite mxE.
have cc i : 0 <= cap_c (hv F) i 0 by rewrite mxE.
have om i : 0 < ac_demand (@step2 F) i 0 -> operation_mode (cond2 COOLING (30%:R : F)) i <> HEATING_AND_COOLING by [].
have [|c' [o [H _]]] := step_completes (1 / 8%:R) moist_sat ch cc b r a hm infil2_ge0 om; first by left.
by exists c', o.
Qed.

(* a step with the equipment off, from any state of the house with legal modes *)
Lemma still_ex (V : 'M[F]_2) (x T : F) (c : conditions F 2 4 1) : (forall i, operation_mode c i <> HEATING_AND_COOLING) ->
  (forall i k, 0 <= V i k) -> (forall i, \sum_k V i k < 1 / 30%:R) -> exists c' o,
  core_step (1 / 8%:R) (@infil2 F) (@x_sat2 F) 900%:R (house2 V (1 / 50%:R) (1 / 10%:R) (fun _ => 4%:R)) (still x T) c = Some (c', o)
  /\ (forall i, removed o i <= 1 / 1000%:R) /\ (forall i, o_v_leak o i 0 = 1 / 1000%:R) /\ forall i, o_v_ntrl o i 0 = 0.
Proof.
move=> om v0 v1; have [t0 t1] := tenth F.
have [c' [o Hs]] : exists c' o,
  step (@ot2 F) (@infil2 F) (@x_sat2 F) 900%:R (house2 V (1 / 50%:R) (1 / 10%:R) (fun _ => 4%:R)) (still x T) c = Some (c', o).
  by apply: house2_step => // *; rewrite ?ltr0n // divr_ge0 ?ler01 ?ler0n.
exists c', o; split=> //; have [q [Hq Ht]] := stepP Hs.
have md i : operation_mode c' i = STOP_CLOSE.
  case: (run_tickP Ht) => md lo up ? ? v_out ? ? xot kc kr ? ? ? ? ? ? ? ?.
  by move=> otE -> *; rewrite (ot2_off otE).
have [l _] : o_l_cs o = 0 /\ o_l_rs o = 0 by apply: (tick_all_off Ht) => i; rewrite ?md ?mxE.
split; first by move=> i; rewrite /removed l mxE oppr0 divr_ge0 ?ler01 ?ler0n.
split=> i; last by have [_ ->] := step_windows Hs i; rewrite ?md.
case: (run_tickP Ht) => *.
by match goal with E : o_v_leak o = _ |- _ => rewrite E mxE end.
Qed.

Lemma v10_row : 0 < \sum_k v_int (hv F) 0 k.
Proof. by rewrite !big_ord_recl big_ord0 /= !mxE /= add0r addr0 divr_gt0 ?ltr01 ?ltr0n. Qed.

(* air path from room 1 to room 0: room 0 becomes more humid than everything around *)
Lemma moist_grows (X T : F) : 0 < X -> exists c' o,
  core_step (1 / 8%:R) (@infil2 F) (@x_sat2 F) 900%:R (hv F) (still X T) (moist X T) = Some (c', o) /\ X < x_r c' 0 0.
Proof.
move=> X0; have [c' [o [H [r _]]]] := @still_ex (@v10 F) X T (moist X T) (fun _ => ltac:(done)) (@v10_ge0 F) (@v10_sum F).
exists c', o; split=> //.
have a : physical_air (hv F) (still X T) by exact: house2_air.
suff /(_ 0)[P _] : forall i, (0 < \sum_k v_int (hv F) i k -> X < x_r c' i 0) /\ (\sum_k v_int (hv F) i k = 0 -> x_r c' i 0 = X).
  by apply: P; exact: v10_row.
by apply: (step_air_paths_grow H (hv_rooms F) a infil2_ge0 X0) => // i; rewrite mxE.
Qed.

Lemma hv_run_ex : exists g c log,
  simulation (day2 F) (1 / 8%:R) (@infil2 F) moist_sat 900%:R (hv F) (theta_o_ave (day2 F)) (conditions_init 2 4 1 (4%:R / 1000%:R))
    96 96 96 (is_ground := ground2) g c log.
Proof.
have [[b r a hm] _] := hv_phys_ex F.
have [cf [log H]] : exists cf log,
    core_calc (1 / 8%:R) (@infil2 F) moist_sat (4%:R / 1000%:R) (hv F) ground2 (day2 F) 4 1 1 1 = Ok (cf, log).
  apply: core_calc_total => //; rewrite ?dt_four //.
  - by move=> i; rewrite mxE.
  - by move=> i; rewrite mxE.
  - by move=> s /in_day2 ->.
  - exact: infil2_ge0.
  by left.
have [g [c [S _]]] := core_calc_run (ltac:(lia) : (0 < 4)%Z) (ltac:(lia) : (0 <= 1)%Z) (ltac:(lia) : (0 <= 1)%Z) (ltac:(lia) : (1 <= 1)%Z) H.
by exists g, c, log; move: S; rewrite dt_four.
Qed.
End HumidEx.
