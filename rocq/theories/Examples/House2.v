(* A concrete house: two rooms, each with an outer wall, and an inner wall between them with one
   boundary on either side. Used to show that the hypotheses of the theorems can be met. *)
From mathcomp Require Import all_ssreflect ssralg ssrnum zmodp matrix.
From Verif Require Import Model.OperationMode Model.Numpy Model.NextCondition Model.PreCalc
  Model.HeatExchanger Model.Tick Model.Step Model.OtTarget Spec.Physical.
From Verif Require Import Lemmas.NumpyL Lemmas.MMatrix Lemmas.TickTotal Lemmas.OtTargetL.
Set Implicit Arguments. Unset Strict Implicit. Unset Printing Implicit Defensive.
Import Order.TTheory GRing.Theory Num.Theory.
Local Open Scope ring_scope.

Section House2.
Variable Q : realFieldType.

(* boundaries 0, 2 belong to room 0; boundaries 1, 3 to room 1; 2 and 3 are the two sides of one wall *)
Definition ex_conn (j : 'I_4) : nat := nth 0%N [:: 0; 1; 0; 1]%N j.
Definition ex_k_ei (j : 'I_4) : option ('I_4 * Q) :=
  nth None [:: None; None; Some (inord 3, 1); Some (inord 2, 1)] j.
Definition ex_k_eo (j : 'I_4) : Q := nth 0 [:: 1; 1; 0; 0] j.

Definition house2 (v_int : 'M[Q]_2) (pa pt : Q) (hc : 'I_4 -> Q) : house Q 2 4 1 := {|
  v_room := const_mx 30%:R; beta := 0; v_vent_ex := const_mx (1 / 100%:R); v_int := v_int;
  v_ntrl := const_mx (1 / 10%:R); c_sh := const_mx 1000%:R; g_sh := const_mx 10%:R;
  c_lh := const_mx 16%:R; g_lh := const_mx 1;
  is_rad_h := fun _ => false; cap_h := 0; is_rad_c := fun _ => false; cap_c := 0;
  q_min := const_mx 500%:R; q_max := const_mx 3000%:R; v_min := const_mx 6%:R; v_max := const_mx 11%:R;
  conn := ex_conn; a_srf := const_mx 12%:R;
  phi_a0 := const_mx pa; phi_a1 := const_mx (1 / 500%:R);
  phi_t0 := const_mx pt; phi_t1 := const_mx ((1 - pt) / 2%:R); r_ms := const_mx (1 / 2%:R);
  h_c := \col_j hc j; h_r := const_mx 5%:R; flr := 0; is_solar_abs := fun j => j == 0;
  f_mrt_hum := const_mx (1 / 2%:R); k_eo := \col_j ex_k_eo j; k_ei := ex_k_ei |}.

(* one winter quarter of an hour *)
Definition step2 : step_data Q 2 4 := {|
  theta_o := 5%:R; x_o := 3%:R / 1000%:R; v_mec_local := 0; q_gen := const_mx 100%:R;
  x_gen := const_mx (1 / 100000%:R); n_hum := const_mx 1; ac_demand := const_mx 1;
  q_trs_sol := const_mx 200%:R; theta_o_sol := const_mx 6%:R |}.

(* 0 < e0: any value will do for exp(-0.036 m) here *)
Definition ot2 : ot_fun Q 2 := get_ot_target_and_h_hum (1 / 8%:R : Q) (ni := 2).
Definition infil2 : infil_fun Q 2 := fun _ _ => const_mx (1 / 1000%:R).
Definition x_sat2 : Q -> Q := fun t => (4%:R + t / 2%:R) / 1000%:R.

Definition cond2 (om : mode) (T : Q) : conditions Q 2 4 1 := {|
  operation_mode := fun _ => om; theta_r := const_mx T; theta_mrt_hum := const_mx T;
  x_r := const_mx (6%:R / 1000%:R); theta_dsh_a := 0; theta_dsh_t := const_mx (9%:R / 10%:R * T);
  q_srf := 0; theta_frt := const_mx T; x_frt := const_mx (6%:R / 1000%:R); theta_ei := const_mx T |}.

Section Proofs.
Variables (V : 'M[Q]_2) (pa pt : Q) (hc : 'I_4 -> Q).
Hypothesis pa0 : 0 <= pa.
Hypothesis pt0 : 0 <= pt.
Hypothesis pt1 : pt <= 1.
Hypothesis hc0 : forall j, 0 < hc j.
Local Notation h2 := (house2 V pa pt hc).

Lemma house2_boundaries : physical_boundaries h2.
Proof.
split=> /=; try by move=> j; rewrite mxE ?divr_gt0 ?divr_ge0 ?ltr0n ?ler0n ?ltr01 ?ler01.
  by case=> [[|[|[|[|]]]]].
by case=> [[|[|[|[|//]]]]] //= hj k coef [_ <-]; rewrite mxE mulr1 ler01; split.
Qed.

Lemma house2_rooms : (forall i k, 0 <= V i k) -> (forall i, \sum_k V i k < 1 / 30%:R) ->
  physical_rooms 900%:R h2.
Proof.
move=> v0 v1; split=> //=; try by move=> i; rewrite ?mxE ?divr_gt0 ?divr_ge0 ?ltr0n ?ler0n ?ler01 ?ltr01.
- by rewrite ltr0n.
- move=> i; rewrite mxE; have := v1 i; have -> : 1 / 30%:R = 30%:R / 900%:R :> Q; last by [].
  by apply/eqP; rewrite eqr_div ?pnatr_eq0 // mul1r -natrM.
- by move=> i; rewrite !mxE ler0n ltr_nat.
- by move=> i; rewrite !mxE ler0n ler_nat.
by move=> i; rewrite !mxE -!natrB // -!natrM ler_nat.
Qed.

Lemma house2_hum : physical_hum h2.
Proof.
split=> /=; first by move=> j; rewrite mxE divr_ge0 ?ler01 ?ler0n.
move=> i; rewrite big_mkcond !big_ord_recl big_ord0 !mxE /=.
have -> : forall a b c e : bool, (if a then 1 / 2%:R else 0) + ((if b then 1 / 2%:R else 0) +
   ((if c then 1 / 2%:R else 0) + ((if e then 1 / 2%:R else 0) + 0))) = (a + b + c + e)%:R / 2%:R :> Q.
  move=> a b c e; rewrite !natrD !mulrDl addr0 -!addrA.
  by case: a; case: b; case: c; case: e; rewrite ?mul0r.
by case: i => [[|[|//]]] ? /=; rewrite ler_pdivr_mulr ?ltr0n // mul1r ler_nat.
Qed.

Lemma house2_air (s : step_data Q 2 4) : v_mec_local s = 0 -> physical_air h2 s.
Proof.
move=> vE i; rewrite vE /= !mxE; split.
  by rewrite addr0 divr_ge0 ?ler01 ?ler0n.
by rewrite divr_ge0 ?ler01 ?ler0n.
Qed.

(* the step completes for this house whatever the state, unless the mode is the illegal one *)
Lemma house2_tick (s : step_data Q 2 4) (c : conditions Q 2 4 1) :
  (forall i k, 0 <= V i k) -> (forall i, \sum_k V i k < 1 / 30%:R) -> v_mec_local s = 0 ->
  (forall i, operation_mode c i <> HEATING_AND_COOLING) ->
  exists q c' o, make_pp h2 900%:R = Some q /\
    run_tick ot2 infil2 x_sat2 900%:R h2 q s c = Some (c', o).
Proof.
move=> v0 v1 vE om.
have [q Hq] := make_pp_total 900%:R house2_boundaries.
have [md [lo [up E]]] : exists md lo up,
  ot2 (x_r c) (operation_mode c) (theta_r c) (theta_mrt_hum c) (ac_demand s)
  = Some (\matrix_(i, j) h_hum_c Q, \matrix_(i, j) h_hum_r Q, md, lo, up).
  by apply: ot_total => i _; exact: om.
have [[c' o] H] : exists r, run_tick ot2 infil2 x_sat2 900%:R h2 q s c = Some r.
  apply: (tick_total_conv house2_boundaries (house2_rooms v0 v1) Hq x_sat2 house2_hum (house2_air vE) _ E) => //.
  - by move=> tr to i; rewrite mxE divr_ge0 ?ler01 ?ler0n.
  - by move=> i; rewrite mxE ltW // h_hum_r_gt0.
  - by move=> i; rewrite !mxE h_hum_r_lt_c.
  - by move=> i; rewrite mxE.
  - by move=> i; rewrite mxE.
by exists q, c', o.
Qed.

Lemma house2_step (s : step_data Q 2 4) (c : conditions Q 2 4 1) :
  (forall i k, 0 <= V i k) -> (forall i, \sum_k V i k < 1 / 30%:R) -> v_mec_local s = 0 ->
  (forall i, operation_mode c i <> HEATING_AND_COOLING) ->
  exists c' o, step ot2 infil2 x_sat2 900%:R h2 s c = Some (c', o).
Proof.
move=> v0 v1 vE om; have [q [c' [o [Hq H]]]] := house2_tick v0 v1 vE om.
by exists c', o; rewrite (stepI Hq H).
Qed.

End Proofs.

Lemma sum0_lt : forall i : 'I_2, \sum_k (0 : 'M[Q]_2) i k < 1 / 30%:R.
Proof. by move=> i; rewrite big1 ?divr_gt0 ?ltr01 ?ltr0n // => k _; rewrite mxE. Qed.

(* no air paths between the rooms, ordinary walls *)
Lemma house2_ex om T : om <> HEATING_AND_COOLING ->
  exists c' o, step ot2 infil2 x_sat2 900%:R (house2 0 (1 / 50%:R) (1 / 10%:R) (fun _ => 4%:R))
     step2 (cond2 om T) = Some (c', o).
Proof.
move=> omE; apply: house2_step => //; try by rewrite ?divr_ge0 ?ler01 ?ler0n.
- by rewrite ler_pdivr_mulr ?ltr0n // mul1r ler1n.
- by move=> j; rewrite ltr0n.
- by move=> i k; rewrite mxE.
- exact: sum0_lt.
Qed.

End House2.
