From Coq Require Import ZArith List Lia.
From mathcomp Require Import all_ssreflect ssralg ssrnum zmodp matrix.
From Verif Require Import Model.PreCalc Model.Tick Model.Ground Model.Py Model.CoreLoop Model.CoreCalc Spec.Simulation.
From Verif Require Import Lemmas.CoreLoopL Lemmas.CoreCalcL Examples.House2 Examples.House2Ex Examples.RunEx.
Set Implicit Arguments. Unset Strict Implicit. Unset Printing Implicit Defensive.
Local Open Scope Z_scope.

(* C01: the steps a calculation visits, for every period: ground steps, then building steps, consecutive
   and in order, and column n of the log is written by step n, for exactly the steps of the main period. *)
Theorem C01_visits : forall hourly d_main d_run_up d_build : Z,
  0 < hourly -> 0 <= d_main -> 0 <= d_build -> d_build <= d_run_up ->
  let n_main := d_main * hourly * 24 in
  let n_run_up := d_run_up * hourly * 24 in
  let n_build := d_build * hourly * 24 in
  exists ground building log, visits hourly d_main d_run_up d_build = Ok (ground, building, log)
    /\ (ground ++ building)%list = range (- n_run_up) n_main
    /\ ground = range (- n_run_up) (- n_build)
    /\ log = List.map Some (range 0 n_main).
Proof.
move=> hourly d_main d_run_up d_build h0 m0 b0 bu n_main n_run_up n_build.
by eexists _, _, _; rewrite visits_order //; split; [reflexivity | split; [apply: range_app; nia | split]].
Qed.
Print Assumptions C01_visits.

(* range a b is the increasing list of a, ..., b - 1 *)
Theorem C01_range : forall a b : Z,
  (forall n, List.In n (range a b) <-> a <= n < b) /\
  forall k, (k < Z.to_nat (b - a))%coq_nat -> List.nth_error (range a b) k = Some (a + Z.of_nat k).
Proof. by move=> a b; split=> [n|k]; [exact: in_range | exact: nth_range]. Qed.
Print Assumptions C01_range.

(* C01 for the calculation itself: a completed calculation is a simulation: consecutive ground steps from
   the start of the run-up, hand-over, consecutive building steps; each with the data of its own time step
   (before the year begins: of the end of the year), and the log holds what each main step computed. A step lasts the given
   part of an hour, and the deep ground has the mean outdoor temperature. *)
Theorem C01_simulation : forall (F : realFieldType) (ni nj nm : nat) (e0 : F) (infil : infil_fun F ni) (x_sat : F -> F)
    (x0 : F) (h : house F ni nj nm) (is_ground : pred 'I_nj) (data : seq (step_data F ni nj))
    (hourly d_main d_run_up d_build : Z) (cf : conditions F ni nj nm) (log : seq (option (conditions F ni nj nm * outputs F ni nj))),
  0 < hourly -> 0 <= d_main -> 0 <= d_build -> d_build <= d_run_up ->
  core_calc e0 infil x_sat x0 h is_ground data hourly d_main d_run_up d_build = Ok (cf, log) ->
  exists (sec td : F) g c, [/\ (sec * (Z.to_nat hourly)%:R = 3600%:R)%R, (td * (size data)%:R = \sum_(s <- data) theta_o s)%R,
    simulation data e0 infil x_sat sec h td (conditions_init ni nj nm x0)
      (d_main * hourly * 24) (d_run_up * hourly * 24) (d_build * hourly * 24) (is_ground := is_ground) g c log
    & cf = c (d_main * hourly * 24)].
Proof.
by move=> F ni nj nm e0 infil x_sat x0 h is_ground data hourly d_main d_run_up d_build cf log h0 m0 b0 bu;
   exact: core_calc_spelt.
Qed.
Print Assumptions C01_simulation.

(* periods that make no sense are rejected before any step *)
Theorem C01_rejected : forall hourly d_main d_run_up d_build : Z,
  (d_run_up < d_build -> visits hourly d_main d_run_up d_build = Err ValueError) /\
  (d_build <= d_run_up -> hourly = 0 -> visits hourly d_main d_run_up d_build = Err ZeroDivisionError) /\
  (d_build <= d_run_up -> 0 < hourly -> d_main < 0 -> visits hourly d_main d_run_up d_build = Err ValueError).
Proof.
move=> hourly d_main d_run_up d_build; split; first exact: visits_short.
by split=> [bu ->|bu h0 m0]; [exact: visits_zero | exact: visits_negative_main].
Qed.
Print Assumptions C01_rejected.

(* but a negative length of the building part of the run-up is accepted, and then the ground steps run
   into the main period *)
Theorem C01_negative_run_up_refuted : exists hourly d_main d_run_up d_build ground building log,
  0 < hourly /\ 0 <= d_main /\ 0 <= d_run_up /\
  visits hourly d_main d_run_up d_build = Ok (ground, building, log) /\ List.In 0 ground /\ List.In 0 building.
Proof.
have [g [b [l [E [i j]]]]] := visits_negative_build.
by exists 1, 1, 0, (-1), g, b, l; repeat split.
Qed.
Print Assumptions C01_negative_run_up_refuted.

Example C01_example : visits 1 1 3 2 =
  Ok (range (-72) (-48), range (-48) 24, List.map Some (range 0 24)).
Proof. reflexivity. Qed.

Example C01_simulation_example (F : realFieldType) (x0 : F) : exists cf log,
  core_calc (1 / 8%:R)%R (@infil2 F) (@x_sat2 F) x0 (hv F) ground2 (day2 F) 4 1 1 1 = Ok (cf, log).
Proof. exact: hv_calc_ex. Qed.
