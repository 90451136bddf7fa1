From Coq Require Import ZArith Lia.
From mathcomp Require Import all_ssreflect ssralg ssrnum zmodp matrix.
From Verif Require Import Model.OperationMode Model.Numpy Model.PreCalc Model.Tick Model.CoreStep Model.Ground Model.Py
  Model.CoreLoop Model.CoreCalc Model.LogCore Spec.Physical Spec.LogBalance.
From Verif Require Import Lemmas.CoreCalcL Lemmas.LogCoreL Examples.House2 Lemmas.TickRefute Lemmas.LogRefute
  Examples.House2Ex Examples.RunEx.
Set Implicit Arguments. Unset Strict Implicit. Unset Printing Implicit Defensive.
Import Order.TTheory GRing.Theory Num.Theory.
Local Open Scope ring_scope.

(* C60: in the table of a completed calculation, the recorded flows of a time step explain the change of
   the recorded temperatures and humidities since the previous one: heat and water vapour of the room
   air, heat and moisture of the furniture. *)
Theorem C60_rooms : forall (F : realFieldType) (ni nj nm : nat) (e0 : F) (infil : infil_fun F ni) (x_sat : F -> F)
    (x0 : F) (h : house F ni nj nm) (is_ground : pred 'I_nj) (data : seq (step_data F ni nj))
    (hourly d_main d_run_up d_build : Z) cf log (sec : F),
  (0 < hourly)%Z -> (0 <= d_main)%Z -> (0 <= d_build)%Z -> (d_build <= d_run_up)%Z ->
  core_calc e0 infil x_sat x0 h is_ground data hourly d_main d_run_up d_build = Ok (cf, log) ->
  sec * (Z.to_nat hourly)%:R = 3600%:R -> physical_rooms sec h ->
  forall n k k' s, logged h data log n = Some k -> logged h data log n.+1 = Some k' ->
    List.nth_error data n.+1 = Some s -> forall i : 'I_ni,
  [/\ (forall a, v_int h i a = 0) -> rec_heat_balance sec h (v_mec_local s) k k' i,
      rec_vapour_balance sec h (v_mec_local s) k k' i,
      rec_furniture_heat sec h k k' i & rec_furniture_vapour sec h k k' i].
Proof.
move=> F ni nj nm e0 infil x_sat x0 h g data hourly dm du db cf log sec h0 m0 b0 bu Hc se Hr n k k' s kn kn' ds i.
exact: (logged_rooms h0 m0 b0 bu Hc se i Hr kn kn' ds).
Qed.
Print Assumptions C60_rooms.

(* in every column: radiant exchange between the surfaces of a room sums up to zero, the transmitted sun is
   recorded once, and the total of a surface times its area is the sum of its parts *)
Theorem C60_surfaces : forall (F : realFieldType) (ni nj nm : nat) (e0 : F) (infil : infil_fun F ni) (x_sat : F -> F)
    (x0 : F) (h : house F ni nj nm) (is_ground : pred 'I_nj) (data : seq (step_data F ni nj))
    (hourly d_main d_run_up d_build : Z) cf log,
  (0 < hourly)%Z -> (0 <= d_main)%Z -> (0 <= d_build)%Z -> (d_build <= d_run_up)%Z ->
  core_calc e0 infil x_sat x0 h is_ground data hourly d_main d_run_up d_build = Ok (cf, log) ->
  physical_boundaries h -> forall n k, logged h data log n = Some k -> forall i : 'I_ni,
  [/\ rec_radiant h k i, (exists j, conn h j = i :> nat /\ is_solar_abs h j) -> rec_sun h k i
    & forall j, conn h j = i :> nat -> rec_surface_sum h k (fun q => a_srf h j 0 * q) i j].
Proof.
move=> F ni nj nm e0 infil x_sat x0 h g data hourly dm du db cf log h0 m0 b0 bu Hc Hb n k kn i.
exact: (logged_surfaces h0 m0 b0 bu Hc i Hb kn).
Qed.
Print Assumptions C60_surfaces.

(* the table has a column for every step of the main period the data covers *)
Theorem C60_all_steps : forall (F : realFieldType) (ni nj nm : nat) (e0 : F) (infil : infil_fun F ni) (x_sat : F -> F)
    (x0 : F) (h : house F ni nj nm) (is_ground : pred 'I_nj) (data : seq (step_data F ni nj))
    (hourly d_main d_run_up d_build : Z) cf log,
  (0 < hourly)%Z -> (0 <= d_main)%Z -> (0 <= d_build)%Z -> (d_build <= d_run_up)%Z ->
  core_calc e0 infil x_sat x0 h is_ground data hourly d_main d_run_up d_build = Ok (cf, log) ->
  forall n, (Z.of_nat n < d_main * hourly * 24)%Z -> (n < size data)%N -> exists k, logged h data log n = Some k.
Proof.
move=> F ni nj nm e0 infil x_sat x0 h g data hourly dm du db cf log h0 m0 b0 bu Hc n nm1 nd.
exact: (logged_total h0 m0 b0 bu Hc nm1 nd).
Qed.
Print Assumptions C60_all_steps.

(* but the recorded total itself, labelled in W like its parts, is a flow per square metre: it is not the
   sum of its parts. Two rooms with walls of 12 m2 and warm air at the start. *)
Theorem C60_total_refuted : forall (F : realFieldType) (T : F), T != 0 ->
  exists (h : house F 2 4 1) (s : step_data F 2 4) (c c' : conditions F 2 4 1) (o : outputs F 2 4) (i : 'I_2) (j : 'I_4),
  [/\ physical_boundaries h, physical_rooms 900%:R h,
      core_step (1 / 8%:R) (@infil2 F) (@x_sat2 F) 900%:R h s c = Some (c', o), conn h j = i :> nat
    & ~ rec_surface_sum h (log_column h s (c', o)) id i j].
Proof.
move=> F T T0; have [c' [o [hb hr st bad]]] := total_not_sum T0.
by exists (house2 0 0 0 (fun _ => 4%:R)), (step0 F), (cond0 T), c', o, 0, 0; split.
Qed.
Print Assumptions C60_total_refuted.

(* a day of a house with two rooms: every pair of neighbouring columns exists *)
Example C60_example (F : realFieldType) (x0 : F) : exists cf log,
  core_calc (1 / 8%:R)%R (@infil2 F) (@x_sat2 F) x0 (hv F) ground2 (day2 F) 4 1 1 1 = Ok (cf, log) /\
  900%:R * (Z.to_nat 4)%:R = 3600%:R :> F /\ physical_rooms 900%:R (hv F) /\ physical_boundaries (hv F) /\
  forall n, (n < 96)%N -> exists k, logged (hv F) (day2 F) log n = Some k.
Proof.
have [cf [log H]] := hv_calc_ex x0; exists cf, log; have [[hb hr _ _] _] := hv_phys_ex F.
split=> //; split; first by rewrite -natrM.
do 2!split=> //; move=> n n96; apply: (C60_all_steps _ _ _ _ H) => //.
by move/ssrnat.ltP: n96; lia.
Qed.
