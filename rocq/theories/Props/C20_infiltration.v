From Coq Require Import ZArith String List.
From mathcomp Require Import all_ssreflect ssralg ssrnum zmodp matrix.
From Verif Require Import Model.Numpy Model.Dec Model.Py Model.Infiltration Spec.InfiltrationSpec Lemmas.InfiltrationL.
From Verif Require Import Model.PreCalc Model.Tick Model.Ground Model.CoreLoop Model.CoreCalc Spec.Physical Lemmas.CoreCalcL.
From Verif Require Import Model.CoreStep Lemmas.RunModeL.
Set Implicit Arguments. Unset Strict Implicit. Unset Printing Implicit Defensive.
Import Order.TTheory GRing.Theory Num.Theory.
Local Open Scope ring_scope.

(* C20: infiltration q of the rooms (m3/s) for C value c, volumes v, storeys s, pressure type p,
   room temperatures theta and outdoor temperature o. *)
Theorem C20_bounds : forall (F : rcfType) (ni : nat) (c : F) (v : 'cV[F]_ni) s p (theta : 'cV[F]_ni) (o : F) (q : 'cV[F]_ni),
  (forall i, 0 <= v i 0) -> infiltration_residential c v s p theta o = Ok q ->
  (forall i, 0 <= q i 0) /\
  exists2 q0, infiltration_residential c v s "balanced" theta o = Ok q0 & forall i, q i 0 <= q0 i 0.
Proof. by move=> F ni c v s p theta o q v0 e; split; [exact: infil_ge0 e|exact: infil_le_balanced e]. Qed.
Print Assumptions C20_bounds.

(* Proportional to volume: between the rooms of one house, and for the house as a whole. *)
Theorem C20_volume : forall (F : rcfType) (ni : nat) (c : F) (v : 'cV[F]_ni) s p (theta : 'cV[F]_ni) (o : F) (q : 'cV[F]_ni),
  infiltration_residential c v s p theta o = Ok q ->
  (forall i k, q i 0 * v k 0 = q k 0 * v i 0) /\
  forall k : F, k != 0 -> infiltration_residential c (k *: v) s p theta o = Ok (k *: q).
Proof. by move=> F ni c v s p theta o q e; split; [exact: infil_proportional e|move=> k k0; exact: infil_scale]. Qed.
Print Assumptions C20_volume.

(* Only the size of the difference between mean room temperature and outdoor temperature matters. *)
Theorem C20_symmetric : forall (F : rcfType) (ni : nat) (c : F) (v : 'cV[F]_ni) s p (theta theta' : 'cV[F]_ni) (o o' : F),
  difference v theta' o' = difference v theta o \/ difference v theta' o' = - difference v theta o ->
  infiltration_residential c v s p theta' o' = infiltration_residential c v s p theta o.
Proof. by move=> F ni c v s p theta theta' o o' e; apply: infil_symmetric; case: e => ->; rewrite ?normrN. Qed.
Print Assumptions C20_symmetric.

Theorem C20_monotone : forall (F : rcfType) (ni : nat) (c c' : F) (v : 'cV[F]_ni) s p (theta theta' : 'cV[F]_ni) (o o' : F)
    (q q' : 'cV[F]_ni),
  (forall i, 0 <= v i 0) -> 0 <= c -> c <= c' -> `|difference v theta o| <= `|difference v theta' o'| ->
  infiltration_residential c v s p theta o = Ok q -> infiltration_residential c' v s p theta' o' = Ok q' ->
  forall i, q i 0 <= q' i 0.
Proof. move=> F ni c c' v s p theta theta' o o' q q' v0 c0 cc dd e e'; exact: infil_mono v0 c0 cc dd e e'. Qed.
Print Assumptions C20_monotone.

(* The published formula. *)
Theorem C20_value : forall (F : rcfType) (ni : nat) (c : F) (v : 'cV[F]_ni) s p (theta : 'cV[F]_ni) (o : F) (q : 'cV[F]_ni),
  infiltration_residential c v s p theta o = Ok q ->
  exists a b : F, table s p a b /\
    forall i, q i 0 = Num.max (a * c * Num.sqrt `|difference v theta o| - b) 0 * v i 0 / 3600%:R.
Proof. move=> F ni c v s p theta o q e; exact: infil_value. Qed.
Print Assumptions C20_value.

(* Fails exactly on other storeys and pressure types, with a KeyError; other methods are refused. *)
Theorem C20_accepts : forall (F : rcfType) (ni : nat) (c : F) (v : 'cV[F]_ni) s p (theta : 'cV[F]_ni) (o : F),
  0 < \sum_i v i 0 ->
  ((exists q, infiltration_residential c v s p theta o = Ok q) <-> known_story s /\ known_pressure p) /\
  (~ (known_story s /\ known_pressure p) -> infiltration_residential c v s p theta o = Err KeyError) /\
  forall m, (exists g, make_get_infiltration m c v s p = Ok g) <-> m = "balance_residential"%string.
Proof.
move=> F ni c v s p theta o v0; split; first exact: infil_fails.
split; first by apply: infil_err_story; exact: lt0r_neq0.
by move=> m; split=> [[g /infil_method[]]//|->]; eexists.
Qed.
Print Assumptions C20_accepts.

(* The whole calculation with the infiltration of the house itself (compare C51). *)
Theorem C20_calculation : forall (F : rcfType) (ni nj nm : nat) (e0 c : F) (v : 'cV[F]_ni) (s : Z) (p : string)
    (x_sat : F -> F) (x0 : F) (h : house F ni nj nm) (is_ground : pred 'I_nj) (data : seq (step_data F ni nj))
    (hourly d_main d_run_up d_build : Z),
  0 < \sum_i v i 0 -> (forall i, 0 <= v i 0) -> known_story s -> known_pressure p ->
  exists infil : infil_fun F ni,
  (forall theta o, infiltration_residential c v s p theta o = Ok (infil theta o)) /\
  ((0 < hourly)%Z -> (0 <= d_main)%Z -> (0 <= d_build)%Z -> (d_build <= d_run_up)%Z ->
   (forall i, 0 <= cap_h h i 0) -> (forall i, 0 <= cap_c h i 0) ->
   physical_boundaries h -> physical_rooms (delta_t F hourly) h -> (forall s, List.In s data -> physical_air h s) ->
   physical_hum h ->
   (forall s, List.In s data -> (forall i, is_rad_h h i || is_rad_c h i -> ac_demand s i 0 <= 0) \/
     [/\ physical_radiant h, (forall i k, i != k -> v_int h i k = 0) & exists i, forall k, k != i -> ac_demand s k 0 <= 0]) ->
   (d_main * hourly * 24 <= Z.of_nat (size data))%Z -> (d_run_up * hourly * 24 <= Z.of_nat (size data))%Z ->
   exists cf log, core_calc e0 infil x_sat x0 h is_ground data hourly d_main d_run_up d_build = Ok (cf, log)).
Proof.
move=> F ni nj nm e0 c v s p x_sat x0 h is_ground data hourly d_main d_run_up d_build t0 v0 ks kp.
have [f [fE f0]] := infil_fun_ex c t0 v0 ks kp.
by exists f; split=> // *; exact: core_calc_total.
Qed.
Print Assumptions C20_calculation.

(* In a step of the calculation: the published formula at the air temperatures of the rooms at the start of the step and the
   outdoor temperature of the step. *)
Theorem C20_step : forall (F : rcfType) (ni nj nm : nat) (e0 : F) (infil : infil_fun F ni) (x_sat : F -> F) (dt : F)
    (h : house F ni nj nm) (sd : step_data F ni nj) (cn cn' : conditions F ni nj nm) (o : outputs F ni nj)
    (c : F) (v : 'cV[F]_ni) (s : Z) (p : string),
  (forall theta t, infiltration_residential c v s p theta t = Ok (infil theta t)) ->
  core_step e0 infil x_sat dt h sd cn = Some (cn', o) ->
  exists a b : F, table s p a b /\ forall i,
    o_v_leak o i 0 = Num.max (a * c * Num.sqrt `|difference v (theta_r cn) (theta_o sd)| - b) 0 * v i 0 / 3600%:R.
Proof. by move=> F ni nj nm e0 infil x_sat dt h sd cn cn' o c v s p; exact: step_leakage. Qed.
Print Assumptions C20_step.

(* Two rooms of 36 m3, C value 2, 25 degrees inside, 0 degrees outside: 0.0022 m3/s each. *)
Example C20_example (F : rcfType) :
  infiltration_residential 2%:R (const_mx 36%:R : 'cV[F]_2) 1 "balanced" (const_mx 25%:R) 0 = Ok (const_mx (dec F 22 4)).
Proof. exact: infil_ex. Qed.
