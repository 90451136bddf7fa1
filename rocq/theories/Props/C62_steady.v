From mathcomp Require Import all_ssreflect ssralg ssrnum zmodp matrix.
From Verif Require Import Model.Dec Model.OperationMode Model.Numpy Model.NextCondition Model.PreCalc Model.Tick
  Model.Step Model.OtTarget Model.CoreStep Model.Ground Spec.Physical Spec.StepEq Spec.Equil Spec.Steady.
From Verif Require Import Lemmas.SteadyL Lemmas.SettleL Lemmas.TickRefute Examples.House2 Examples.House2Ex Examples.SteadyEx.
Set Implicit Arguments. Unset Strict Implicit. Unset Printing Implicit Defensive.
Import Order.TTheory GRing.Theory Num.Theory.
Local Open Scope ring_scope.

(* C62, houses without air paths between rooms (C02). A step that changes nothing leaves the house in the textbook steady state
   for the air flows, gains and loads of that step. *)
Theorem C62_steady : forall (F : realFieldType) (ni nj nm : nat) (e0 : F) (infil : infil_fun F ni) (x_sat : F -> F) (dt : F)
    (h : house F ni nj nm) (s : step_data F ni nj) (c c' : conditions F ni nj nm) (o : outputs F ni nj),
  core_step e0 infil x_sat dt h s c = Some (c', o) ->
  physical_boundaries h -> physical_rooms dt h -> unit_response h -> sides_alike h -> (forall i k, v_int h i k = 0) ->
  unchanged c c' ->
  steady_state h s (air_from_outside h s o) (fun i => q_gen s i 0 + o_q_hum o i 0) (fun i => o_l_cs o i 0) (fun i => o_l_rs o i 0) c' (o_theta_s o).
Proof.
by move=> F ni nj nm e0 infil x_sat dt h s c c' o Hs Hb Hr Hw Ha v0; exact: (unchanged_steady Hb Hs Hr Hw Ha v0).
Qed.
Print Assumptions C62_steady.

(* Conversely the textbook steady state for the step's air flows, gains and loads is left as it is, whatever the length of the step. *)
Theorem C62_stays : forall (F : realFieldType) (ni nj nm : nat) (e0 : F) (infil : infil_fun F ni) (x_sat : F -> F) (dt : F)
    (h : house F ni nj nm) (s : step_data F ni nj) (c c' : conditions F ni nj nm) (o : outputs F ni nj) (theta_s : 'cV[F]_nj),
  core_step e0 infil x_sat dt h s c = Some (c', o) ->
  physical_boundaries h -> physical_rooms dt h -> unit_response h -> sides_alike h -> (forall i k, v_int h i k = 0) ->
  (forall i, 0 <= air_from_outside h s o i) ->
  steady_state h s (air_from_outside h s o) (fun i => q_gen s i 0 + o_q_hum o i 0) (fun i => o_l_cs o i 0) (fun i => o_l_rs o i 0) c theta_s ->
  unchanged c c' /\ forall j, o_theta_s o j 0 = theta_s j 0.
Proof.
by move=> F ni nj nm e0 infil x_sat dt h s c c' o ts Hs Hb Hr Hw Ha v0 a0; exact: (steady_unchanged Hb Hs Hr Hw Ha v0 a0).
Qed.
Print Assumptions C62_stays.

(* There is only one steady state for given air flows, gains and loads. *)
Theorem C62_unique : forall (F : realFieldType) (ni nj nm : nat) (h : house F ni nj nm) (s : step_data F ni nj)
    (v_out gains l_c l_r : 'I_ni -> F) (c c2 : conditions F ni nj nm) (theta_s theta_s2 : 'cV[F]_nj),
  physical_boundaries h -> (forall i, 0 < v_out i) -> (forall j, 0 <= resistance h j) ->
  (forall j k coef, k_ei h j = Some (k, coef) -> 0 <= coef <= 1) ->
  steady_state h s v_out gains l_c l_r c theta_s -> steady_state h s v_out gains l_c l_r c2 theta_s2 ->
  [/\ forall i, theta_r c2 i 0 = theta_r c i 0, forall j, theta_s2 j 0 = theta_s j 0, forall j, theta_ei c2 j 0 = theta_ei c j 0
    & forall j, q_srf c2 j 0 = q_srf c j 0].
Proof.
by move=> F ni nj nm h s v g lc lr c c2 ts ts2 Hb v0 R0 k0; exact: (steady_unique Hb v0 R0 k0).
Qed.
Print Assumptions C62_unique.

(* And there is one, for all houses with physical boundaries, and any weather, sun, gains, loads and outdoor air. *)
Theorem C62_exists : forall (F : realFieldType) (ni nj nm : nat) (h : house F ni nj nm) (s : step_data F ni nj) (v_out gains l_c l_r : 'I_ni -> F),
  physical_boundaries h -> (forall i, 0 < v_out i) -> (forall j, 0 <= resistance h j) ->
  (forall j k coef, k_ei h j = Some (k, coef) -> 0 <= coef <= 1) -> (forall i, g_sh h i 0 = 0 -> q_trs_sol s i 0 = 0) ->
  exists c theta_s, steady_state h s v_out gains l_c l_r c theta_s.
Proof.
move=> F ni nj nm h s v g lc lr Hb v0 R0 k0 f0; have [c [ts [S _]]] := steady_exists Hb R0 k0 f0 g lc lr (conditions_init ni nj nm 0) v0.
by exists c, ts.
Qed.
Print Assumptions C62_exists.

(* In it, loads, gains and sun make up for the transmission losses, U-value x area x temperature difference, and the ventilation losses. *)
Theorem C62_textbook : forall (F : realFieldType) (ni nj nm : nat) (h : house F ni nj nm) (s : step_data F ni nj)
    (v_out gains l_c l_r : 'I_ni -> F) (c : conditions F ni nj nm) (theta_s : 'cV[F]_nj) (i : 'I_ni),
  physical_boundaries h -> (forall j, 0 <= resistance h j) -> (exists j, conn h j = i :> nat /\ is_solar_abs h j) ->
  (l_r i != 0 -> \sum_(j | conn h j == i) flr h j 0 = 1) ->
  steady_state h s v_out gains l_c l_r c theta_s -> textbook_balance h s v_out gains l_c l_r c i.
Proof.
by move=> F ni nj nm h s v g lc lr c ts i Hb R0 aj fl S; exact: (steady_textbook Hb S R0 aj fl).
Qed.
Print Assumptions C62_textbook.

(* a house of two rooms that are kept 1.841 degrees warmer than outdoors by 132.4 W each *)
Example C62_example (F : realFieldType) : exists c' o,
  [/\ core_step (1 / 8%:R) (@infil2 F) (@x_sat2 F) 900%:R (hx F) (gain0 F) (warm0 F) = Some (c', o),
      [/\ physical_boundaries (hx F), physical_rooms 900%:R (hx F), unit_response (hx F), sides_alike (hx F) & forall i k, v_int (hx F) i k = 0],
      [/\ forall i, 0 < air_from_outside (hx F) (gain0 F) o i, forall j, 0 <= resistance (hx F) j
        & forall j k coef, k_ei (hx F) j = Some (k, coef) -> 0 <= coef <= 1],
      steady_state (hx F) (gain0 F) (air_from_outside (hx F) (gain0 F) o) (fun i => q_gen (gain0 F) i 0 + o_q_hum o i 0)
        (fun i => o_l_cs o i 0) (fun i => o_l_rs o i 0) (warm0 F) (warm_s F)
    & unchanged (warm0 F) c'].
Proof. exact: warm_ex. Qed.
