From Coq Require Import ZArith String.
From mathcomp Require Import all_ssreflect ssralg ssrnum zmodp matrix.
From Verif Require Import Model.OperationMode Model.Numpy Model.PreCalc Model.Tick Model.CoreStep Model.Ground Model.Py Model.CoreLoop
  Model.CoreCalc Model.Infiltration Spec.Reorder.
From Verif Require Import Lemmas.ReorderL Lemmas.ReorderRunL Examples.House2 Lemmas.TickRefute Examples.House2Ex Examples.RunEx Examples.ReorderEx.
Set Implicit Arguments. Unset Strict Implicit. Unset Printing Implicit Defensive.
Local Open Scope ring_scope.

(* C64: the results do not depend on the order in which rooms and boundaries are listed. Listing them in another order gives the same
   results in that order, for every step and for the whole calculation, or the same exception. *)
Theorem C64_reordered : forall (F : realFieldType) (ni nj nm : nat) (rho : 'I_ni -> 'I_ni) (tau : 'I_nj -> 'I_nj)
    (h h2 : house F ni nj nm) (e0 : F) (infil infil2 : infil_fun F ni) (x_sat : F -> F) (x0 : F) (ground ground2 : pred 'I_nj)
    (data data2 : seq (step_data F ni nj)) (hourly d_main d_run_up d_build : Z),
  injective rho -> injective tau -> reordered_house rho tau h h2 -> reordered_infil rho infil infil2 ->
  (forall j, ground2 j = ground (tau j)) -> List.Forall2 (reordered_data rho tau) data data2 ->
  same_outcome (reordered_run rho tau) (core_calc e0 infil x_sat x0 h ground data hourly d_main d_run_up d_build)
    (core_calc e0 infil2 x_sat x0 h2 ground2 data2 hourly d_main d_run_up d_build).
Proof. move=> *; exact: core_calcE. Qed.
Print Assumptions C64_reordered.

Theorem C64_step : forall (F : realFieldType) (ni nj nm : nat) (rho : 'I_ni -> 'I_ni) (tau : 'I_nj -> 'I_nj)
    (h h2 : house F ni nj nm) (e0 : F) (infil infil2 : infil_fun F ni) (x_sat : F -> F) (sec : F) s s2 c c2,
  injective rho -> injective tau -> reordered_house rho tau h h2 -> reordered_infil rho infil infil2 ->
  reordered_data rho tau s s2 -> reordered_state rho tau c c2 ->
  opt_rel (reordered_step rho tau) (core_step e0 infil x_sat sec h s c) (core_step e0 infil2 x_sat sec h2 s2 c2).
Proof. move=> *; exact: core_stepE. Qed.
Print Assumptions C64_step.

(* the leakage of a dwelling treats all rooms alike *)
Theorem C64_leakage : forall (F : rcfType) (ni : nat) (rho : 'I_ni -> 'I_ni) (c_value : F) v v2 story pressure t t2 theta_o,
  injective rho -> by_room rho v v2 -> by_room rho t t2 ->
  same_outcome (by_room rho) (infiltration_residential c_value v story pressure t theta_o)
    (infiltration_residential c_value v2 story pressure t2 theta_o).
Proof. move=> *; exact: leakE. Qed.
Print Assumptions C64_leakage.

(* so rooms that cannot be told apart get the same temperatures, humidities and loads *)
Theorem C64_symmetric : forall (F : realFieldType) (ni nj nm : nat) (rho : 'I_ni -> 'I_ni) (tau : 'I_nj -> 'I_nj)
    (h : house F ni nj nm) (e0 : F) (infil : infil_fun F ni) (x_sat : F -> F) (x0 : F) (ground : pred 'I_nj)
    (data : seq (step_data F ni nj)) (hourly d_main d_run_up d_build : Z) cf log,
  injective rho -> injective tau -> reordered_house rho tau h h -> reordered_infil rho infil infil ->
  (forall j, ground (tau j) = ground j) -> List.Forall2 (reordered_data rho tau) data data ->
  core_calc e0 infil x_sat x0 h ground data hourly d_main d_run_up d_build = Ok (cf, log) ->
  forall n c o, List.nth_error log n = Some (Some (c, o)) -> forall i,
  [/\ theta_r c (rho i) 0 = theta_r c i 0, x_r c (rho i) 0 = x_r c i 0, operation_mode c (rho i) = operation_mode c i,
      o_l_cs o (rho i) 0 = o_l_cs o i 0 & o_l_cl o (rho i) 0 = o_l_cl o i 0].
Proof.
move=> F ni nj nm rho tau h e0 infil x_sat x0 ground data hourly dm du db cf log ri ti Hh Hi Hg Hd E n c o En i.
exact: (symmetric_rooms ri ti Hh Hi Hg Hd E En).
Qed.
Print Assumptions C64_symmetric.

(* the two-room house with an air path, listed in the opposite order; a run of it completes *)
Example C64_example : forall (F : realFieldType) (x0 : F), exists cf log,
  [/\ core_calc (1 / 8%:R) (@infil2 F) (@x_sat2 F) x0 (hv F) ground2 (day2 F) 4 1 1 1 = Ok (cf, log),
      reordered_house (@rev_ord 2) (@rev_ord 4) (hv F) (hv_rev F), List.Forall2 (reordered_data (@rev_ord 2) (@rev_ord 4)) (day2 F) (day2 F),
      reordered_infil (@rev_ord 2) (@infil2 F) (@infil2 F) & v_int (hv_rev F) <> v_int (hv F)].
Proof. exact: rev_runs. Qed.

(* a house that looks the same from both of its rooms; a run of it completes *)
Example C64_symmetric_example : forall (F : realFieldType) (x0 : F), exists cf log,
  [/\ core_calc (1 / 8%:R) (@infil2 F) (@x_sat2 F) x0 (hsym F) predT (day2 F) 4 1 1 1 = Ok (cf, log),
      reordered_house (@rev_ord 2) swap4 (hsym F) (hsym F), injective swap4, List.Forall2 (reordered_data (@rev_ord 2) swap4) (day2 F) (day2 F) &
      reordered_infil (@rev_ord 2) (@infil2 F) (@infil2 F)].
Proof. exact: sym_runs. Qed.
