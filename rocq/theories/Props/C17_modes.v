From Coq Require Import ZArith.
From mathcomp Require Import all_ssreflect ssralg ssrnum zmodp matrix.
From Verif Require Import Model.OperationMode Model.Dec Model.PreCalc Model.Tick Model.OtTarget Spec.Automaton.
From Verif Require Import Model.Numpy Model.Step Model.CoreStep Model.Ground Spec.Simulation Model.CoreCalc Examples.House2 Examples.House2Ex Examples.RunEx Examples.HumidEx.
From Verif Require Import Lemmas.RunModeL Lemmas.StepProps Lemmas.DecL Lemmas.OtTargetL Lemmas.AutomatonL Lemmas.ClothingL.
Set Implicit Arguments. Unset Strict Implicit. Unset Printing Implicit Defensive.
Import Order.TTheory GRing.Theory Num.Theory.
Local Open Scope ring_scope.

(* C17: the operation mode is a hysteresis automaton. 7/10 is the PMV threshold. *)

(* every history is accepted from every legal mode, and the modes stay legal *)
Theorem C17_history_accepted : forall (F : realFieldType) (hist : seq (situation F)) (m : mode),
  m <> HEATING_AND_COOLING ->
  exists ms, [/\ modes m hist = Some ms, size ms = size hist & forall k, nth STOP_CLOSE ms k <> HEATING_AND_COOLING].
Proof. exact: history_accepted. Qed.
Print Assumptions C17_history_accepted.

(* what each mode says about the situation that led to it *)
Theorem C17_mode_meaning : forall (F : realFieldType) (hist : seq (situation F)) (m : mode) (ms : seq mode) (s0 : situation F),
  modes m hist = Some ms -> forall k, (k < size hist)%N ->
  let s := nth s0 hist k in let m' := nth STOP_CLOSE ms k in
  [/\ demand s <= 0 -> m' = STOP_CLOSE,
      m' = HEATING -> 0 < demand s /\ pmv_heavy s <= 7%:R / 10%:R,
      m' = COOLING -> 0 < demand s /\ - (7%:R / 10%:R) <= pmv_light s &
      m' = STOP_OPEN -> 0 < demand s /\ 0 <= pmv_middle s].
Proof. exact: mode_meaning. Qed.
Print Assumptions C17_mode_meaning.

(* when the mode changes, under demand: heating and cooling stay on within the threshold on the other side, and are
   entered only beyond the threshold on their own side; between them the windows follow the sign of the PMV *)
Theorem C17_transitions : forall (F : realFieldType) (hist : seq (situation F)) (m : mode) (ms : seq mode) (s0 : situation F),
  modes m hist = Some ms -> forall k, (k < size hist)%N ->
  let s := nth s0 hist k in let m1 := nth STOP_CLOSE (m :: ms) k in let m2 := nth STOP_CLOSE ms k in
  0 < demand s ->
  [/\ m1 = HEATING -> (m2 = HEATING <-> pmv_heavy s <= 7%:R / 10%:R),
      m1 = COOLING -> (m2 = COOLING <-> - (7%:R / 10%:R) <= pmv_light s),
      m1 <> HEATING -> m2 = HEATING -> pmv_heavy s <= - (7%:R / 10%:R) &
      m1 <> COOLING -> m2 = COOLING -> 7%:R / 10%:R <= pmv_light s] /\
  [/\ m1 <> COOLING -> 7%:R / 10%:R < pmv_heavy s -> 7%:R / 10%:R <= pmv_light s -> m2 = COOLING,
      m1 <> HEATING -> pmv_light s < - (7%:R / 10%:R) -> pmv_heavy s <= - (7%:R / 10%:R) -> m2 = HEATING,
      (m1 = STOP_OPEN \/ m1 = STOP_CLOSE) -> (m2 = COOLING <-> 7%:R / 10%:R <= pmv_light s) &
      (m1 = STOP_OPEN \/ m1 = STOP_CLOSE) ->
        (m2 = HEATING <-> pmv_heavy s <= - (7%:R / 10%:R) /\ pmv_light s < 7%:R / 10%:R)] /\
  ((m1 = STOP_OPEN \/ m1 = STOP_CLOSE) -> (m2 = STOP_OPEN \/ m2 = STOP_CLOSE) ->
    (0 < pmv_middle s -> m2 = STOP_OPEN) /\ (pmv_middle s < 0 -> m2 = STOP_CLOSE)).
Proof. exact: mode_transitions. Qed.
Print Assumptions C17_transitions.

(* an illegal previous mode is rejected exactly under demand *)
Theorem C17_illegal_mode : forall (F : realFieldType) (ac : F) m a b c,
  get_operation_mode ac m a b c = None <-> (0 < ac /\ m = HEATING_AND_COOLING).
Proof. exact: op_mode_none. Qed.
Print Assumptions C17_illegal_mode.

(* under constant conditions the mode is constant from the second step on, if lighter clothing feels
   colder and the PMV with medium clothing is not exactly zero *)
Theorem C17_constant_conditions_partial : forall (F : realFieldType) (s : situation F) (m : mode) (n : nat) (ms : seq mode),
  pmv_light s <= pmv_heavy s -> pmv_middle s != 0 -> modes m (nseq n s) = Some ms ->
  forall k, (1 <= k)%N -> (k < n)%N -> nth STOP_CLOSE ms k = nth STOP_CLOSE ms 1.
Proof. exact: constant_conditions. Qed.
Print Assumptions C17_constant_conditions_partial.

(* In a room the premise on the PMV values is not needed: air not below -100 degree C, humidity not negative. *)
Theorem C17_constant_room_partial : forall (F : realFieldType) (e0 : F), 0 <= e0 ->
  forall (ac x_r theta_r theta_mrt : F) (m : mode) (n : nat) (ms : seq mode), 0 <= x_r -> - 100%:R <= theta_r ->
  let s := room_situation e0 ac x_r theta_r theta_mrt in
  pmv_middle s != 0 -> modes m (nseq n s) = Some ms ->
  forall k, (1 <= k)%N -> (k < n)%N -> nth STOP_CLOSE ms k = nth STOP_CLOSE ms 1.
Proof. exact: room_constant. Qed.
Print Assumptions C17_constant_room_partial.

(* The PMV values are ordered as the clothing exactly if the operative temperature is at most that of the skin. *)
Theorem C17_clothing_order : forall (F : realFieldType) (e0 : F), 0 <= e0 -> forall p_a theta_r theta_mrt : F,
  let pmv := get_h_hum_and_pmv e0 p_a theta_r theta_mrt in
  (pmv (clo_light F) <= pmv (clo_middle F) /\ pmv (clo_middle F) <= pmv (clo_heavy F)) <->
  (h_hum_r F * theta_mrt + h_hum_c F * theta_r) / (h_hum_r F + h_hum_c F) <= dec F 340718 4.
Proof. by move=> F e0 e p r m; exact: clothing_iff. Qed.
Print Assumptions C17_clothing_order.

(* at a PMV of exactly zero the windows open and close for ever *)
Theorem C17_constant_conditions_refuted : forall (F : realFieldType),
  exists s : situation F, [/\ pmv_light s <= pmv_middle s, pmv_middle s <= pmv_heavy s &
    forall n, exists ms, modes STOP_CLOSE (nseq n s) = Some ms /\
      forall k, (k < n)%N -> nth HEATING ms k = if odd k then STOP_CLOSE else STOP_OPEN].
Proof. exact: windows_flip. Qed.
Print Assumptions C17_constant_conditions_refuted.

(* One step of a calculation: the mode of every room moves by the automaton, from the state of the room at the start of the
   step, and the windows let in air exactly in the mode with open windows. *)
Theorem C17_step : forall (F : realFieldType) (ni nj nm : nat) (e0 : F) (infil : infil_fun F ni) (x_sat : F -> F) (dt : F)
    (h : house F ni nj nm) (s : step_data F ni nj) (c c' : conditions F ni nj nm) (o : outputs F ni nj),
  core_step e0 infil x_sat dt h s c = Some (c', o) -> forall i,
  modes (operation_mode c i) [:: room_situation e0 (ac_demand s i 0) (x_r c i 0) (theta_r c i 0) (theta_mrt_hum c i 0)]
    = Some [:: operation_mode c' i] /\
  (operation_mode c' i = STOP_OPEN -> o_v_ntrl o i 0 = v_ntrl h i 0) /\
  (operation_mode c' i <> STOP_OPEN -> o_v_ntrl o i 0 = 0).
Proof.
by move=> F ni nj nm e0 infil x_sat dt h s c c' o Hs i; split; [exact: (step_mode i Hs)|exact: (step_windows Hs i)].
Qed.
Print Assumptions C17_step.

(* A whole calculation, run-up included: the modes of a room are the automaton's on the history of what happened in the room,
   beginning with the equipment off and the windows closed. So C17_mode_meaning and C17_transitions speak of every step. *)
Theorem C17_run : forall (F : realFieldType) (ni nj nm : nat) (e0 : F) (infil : infil_fun F ni) (x_sat : F -> F) (dt : F)
    (h : house F ni nj nm) (data : seq (step_data F ni nj)) (is_ground : pred 'I_nj) (td x0 : F) (n_main n_run_up n_build : Z) g c log,
  simulation data e0 infil x_sat dt h (is_ground := is_ground) td (conditions_init ni nj nm x0) n_main n_run_up n_build g c log ->
  forall i, (0 <= n_build)%Z -> (0 <= n_main)%Z -> exists hist, [/\ size hist = Z.to_nat (n_build + n_main),
    (forall k s0, (k < size hist)%N -> exists s, let n := (Z.of_nat k - n_build)%Z in column data n s /\
      nth s0 hist k = room_situation e0 (ac_demand s i 0) (x_r (c n) i 0) (theta_r (c n) i 0) (theta_mrt_hum (c n) i 0))
    & modes STOP_CLOSE hist = Some [seq operation_mode (c (Z.of_nat k.+1 - n_build)%Z) i | k <- iota 0 (size hist)]].
Proof. by move=> F ni nj nm e0 infil x_sat dt h data is_ground td x0 n_main n_run_up n_build g c log S i; exact: (run_modes S). Qed.
Print Assumptions C17_run.

Example C17_example (F : realFieldType) : exists ms,
  modes HEATING (nseq 3 (Situation (1 : F) 0 (- (1 / 2%:R)) (- 1))) = Some ms /\ size ms = 3%N.
Proof. by have [//|ms [H1 H2 _]] := C17_history_accepted (nseq 3 (Situation (1 : F) 0 (- (1 / 2%:R)) (- 1))) (m := HEATING); exists ms. Qed.

Example C17_example_step (F : realFieldType) : exists c' o,
  core_step (1 / 8%:R) (@infil2 F) (@x_sat2 F) 900%:R (hx F) (@step2 F) (cond2 HEATING 15%:R) = Some (c', o).
Proof. exact: house2_ex. Qed.

Example C17_example_run (F : realFieldType) : exists g c log,
  simulation (day2 F) (1 / 8%:R) (@infil2 F) (@moist_sat F) 900%:R (hv F) (theta_o_ave (day2 F))
    (conditions_init 2 4 1 (4%:R / 1000%:R)) 96 96 96 (is_ground := ground2) g c log.
Proof. exact: hv_run_ex. Qed.
