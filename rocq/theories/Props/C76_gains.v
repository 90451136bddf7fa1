(* C76: Free heat replaces heating. *)
From mathcomp Require Import all_ssreflect ssralg ssrnum zmodp matrix.
From Verif Require Import Model.OperationMode Model.Numpy Model.PreCalc Model.Tick Model.Step Model.OtTarget Model.CoreStep.
From Verif Require Import Spec.Physical Spec.Natural Spec.Warmer Spec.Damp Spec.Gains.
From Verif Require Import Examples.House2 Examples.House2Ex Lemmas.DehumidRefute Lemmas.GainsL Lemmas.GainsRefute Lemmas.GainsTwin.
Set Implicit Arguments. Unset Strict Implicit. Unset Printing Implicit Defensive.
Import Order.TTheory GRing.Theory Num.Theory.
Local Open Scope ring_scope.

(* Two steps from the same state differ in the internal heat gains of rooms that convective equipment heats or cools in both
   cases. Then every temperature is the same in both, and each watt of gain is a watt of load less (a watt of cooling more).
   Any house: air paths and radiant equipment in other rooms included. *)
Theorem C76_replaces : forall (F : realFieldType) (ni nj nm : nat) (e0 : F) (infil : infil_fun F ni) (x_sat : F -> F)
    (dt : F) (h : house F ni nj nm) (s s2 : step_data F ni nj) (c c' c2 : conditions F ni nj nm) (o o2 : outputs F ni nj),
  core_step e0 infil x_sat dt h s c = Some (c', o) -> core_step e0 infil x_sat dt h s2 c = Some (c2, o2) ->
  (forall i, 0 <= cap_h h i 0) -> (forall i, 0 <= cap_c h i 0) ->
  forall c0 o0 c02 o02 hc hr md lo up, same_but_gains s s2 ->
  step (ot_off (get_ot_target_and_h_hum e0 (ni := ni))) infil x_sat dt h s c = Some (c0, o0) ->
  step (ot_off (get_ot_target_and_h_hum e0 (ni := ni))) infil x_sat dt h s2 c = Some (c02, o02) ->
  get_ot_target_and_h_hum e0 (x_r c) (operation_mode c) (theta_r c) (theta_mrt_hum c) (ac_demand s) = Some (hc, hr, md, lo, up) ->
  (forall i, (heated md lo (o_theta_ot o02) i <-> heated md lo (o_theta_ot o0) i)
    /\ (cooled md up (o_theta_ot o02) i <-> cooled md up (o_theta_ot o0) i)) ->
  (forall i, heated md lo (o_theta_ot o0) i \/ cooled md up (o_theta_ot o0) i ->
    ac_demand s i 0 = 1 \/ o_theta_ot o02 i 0 = o_theta_ot o0 i 0) ->
  (forall i, q_gen s2 i 0 <> q_gen s i 0 ->
    heated md lo (o_theta_ot o0) i /\ is_rad_h h i = false \/ cooled md up (o_theta_ot o0) i /\ is_rad_c h i = false) ->
  [/\ same_heat c' c2, o_theta_ot o2 = o_theta_ot o, o_theta_s o2 = o_theta_s o, o_l_rs o2 = o_l_rs o
    & forall i, o_l_cs o2 i 0 = o_l_cs o i 0 - (q_gen s2 i 0 - q_gen s i 0)].
Proof. by move=> F ni nj nm e0 infil x_sat dt h s s2 c c' c2 o o2 Hs Hs2 ch cc *; apply: (gains_replace Hs Hs2); eassumption. Qed.
Print Assumptions C76_replaces.

(* One conditioned room, no air paths: more gains, more sun or warmer surroundings never raise its load, sensible or
   radiant (a heating load gets smaller, a cooling load larger), and never lower its operative temperature. *)
Theorem C76_less_partial : forall (F : realFieldType) (ni nj nm : nat) (e0 : F) (infil : infil_fun F ni) (x_sat : F -> F)
    (dt : F) (h : house F ni nj nm) (s s2 : step_data F ni nj) (c c' c2 : conditions F ni nj nm) (o o2 : outputs F ni nj),
  core_step e0 infil x_sat dt h s c = Some (c', o) -> core_step e0 infil x_sat dt h s2 c = Some (c2, o2) ->
  (forall i, 0 <= cap_h h i 0) -> (forall i, 0 <= cap_c h i 0) ->
  physical_boundaries h -> physical_rooms dt h -> physical_air h s -> physical_hum h ->
  (forall tr to i, 0 <= infil tr to i 0) -> (forall i k, i != k -> v_int h i k = 0) ->
  (forall j, 0 <= k_eo h j 0 * (phi_t0 h j 0 + \sum_m phi_t1 h j m)) -> warmer s s2 ->
  forall i, 0 <= ac_demand s i 0 <= 1 ->
  (forall k, k != i -> operation_mode c' k <> HEATING /\ operation_mode c' k <> COOLING) ->
  (is_rad_h h i || is_rad_c h i -> physical_radiant h) ->
  [/\ o_l_cs o2 i 0 <= o_l_cs o i 0, o_l_rs o2 i 0 <= o_l_rs o i 0 & o_theta_ot o i 0 <= o_theta_ot o2 i 0].
Proof.
by move=> F ni nj nm e0 infil x_sat dt h s s2 c c' c2 o o2 Hs Hs2 ch cc Hb Hr Ha Hh i0 v0 k0 w i; exact: (gains_less Hs Hs2).
Qed.
Print Assumptions C76_less_partial.

(* Two conditioned rooms, no air paths, no radiant equipment: heat in one room raises the heating load of the other, which
   asks for only a part of its heating, because its temperature without equipment, and with it its target, goes up. *)
Theorem C76_rooms_refuted : forall (F : realFieldType) (e0 : F) (x_sat : F -> F), 0 <= e0 ->
  exists (h : house F 2 4 1) (s s2 : step_data F 2 4) (c c' c2 : conditions F 2 4 1) o o2,
  [/\ [/\ physical_boundaries h, physical_rooms 900%:R h, physical_air h s & physical_hum h],
      (forall i, is_rad_h h i = false /\ is_rad_c h i = false) /\ (forall i k, v_int h i k = 0),
      same_but_gains s s2 /\ (forall i, q_gen s i 0 <= q_gen s2 i 0 /\ 0 < ac_demand s i 0 <= 1),
      core_step e0 (@infil2 F) x_sat 900%:R h s c = Some (c', o)
      /\ core_step e0 (@infil2 F) x_sat 900%:R h s2 c = Some (c2, o2)
    & exists i, 0 < o_l_cs o i 0 < o_l_cs o2 i 0].
Proof. by move=> F e0 x_sat e0_ge0; exact: rooms_refute. Qed.
Print Assumptions C76_rooms_refuted.

(* With an air path between two rooms heat in one of them lowers the cooling load of the other (the sign of C02). *)
Theorem C76_air_paths_refuted : forall (F : realFieldType) (e0 : F) (x_sat : F -> F), 0 <= e0 ->
  exists (h : house F 2 4 1) (s s2 : step_data F 2 4) (c c' c2 : conditions F 2 4 1) o o2,
  [/\ [/\ physical_boundaries h, physical_rooms 900%:R h, physical_air h s & physical_hum h],
      (forall i, is_rad_h h i = false /\ is_rad_c h i = false), same_but_gains s s2 /\ (forall i, q_gen s i 0 <= q_gen s2 i 0),
      core_step e0 (@infil2 F) x_sat 900%:R h s c = Some (c', o)
      /\ core_step e0 (@infil2 F) x_sat 900%:R h s2 c = Some (c2, o2)
    & o_l_cs o 0 0 < o_l_cs o2 0 0 < 0].
Proof. by move=> F e0 x_sat e0_ge0; exact: gains_refute. Qed.
Print Assumptions C76_air_paths_refuted.

(* a cooled house with an air path, both rooms cooled before and after *)
Example C76_example (F : realFieldType) (e0 : F) (x_sat : F -> F) : 0 <= e0 -> exists c' o c2 o2 c0 o0 c02 o02 hc hr md lo up,
  let c := cd (start e0) in let s := sd (ga e0 1) 0 in let s2 := sd (ga e0 2%:R) 0 in
  [/\ core_step e0 (@infil2 F) x_sat 900%:R (hd F) s c = Some (c', o)
      /\ core_step e0 (@infil2 F) x_sat 900%:R (hd F) s2 c = Some (c2, o2),
      step (ot_off (get_ot_target_and_h_hum e0 (ni := 2))) (@infil2 F) x_sat 900%:R (hd F) s c = Some (c0, o0)
      /\ step (ot_off (get_ot_target_and_h_hum e0 (ni := 2))) (@infil2 F) x_sat 900%:R (hd F) s2 c = Some (c02, o02),
      [/\ same_but_gains s s2, (forall i, q_gen s i 0 < q_gen s2 i 0)
          & get_ot_target_and_h_hum e0 (x_r c) (operation_mode c) (theta_r c) (theta_mrt_hum c) (ac_demand s) = Some (hc, hr, md, lo, up)],
      (forall i, cooled md up (o_theta_ot o0) i /\ cooled md up (o_theta_ot o02) i)
    & forall i, is_rad_c (hd F) i = false /\ ac_demand s i 0 = 1].
Proof. by move=> e0_ge0; exact: gains_ex. Qed.

(* only room 0 asks for heating; 200 W more in both rooms *)
Example C76_example_one (F : realFieldType) : exists (T : F) c' o c2 o2,
  [/\ core_step (1 / 8%:R) (@infil2 F) (@x_sat2 F) 900%:R (hx F) (@step_one F) (cond2 HEATING T) = Some (c', o)
      /\ core_step (1 / 8%:R) (@infil2 F) (@x_sat2 F) 900%:R (hx F) (@step_more F) (cond2 HEATING T) = Some (c2, o2),
      [/\ physical_boundaries (hx F), physical_rooms 900%:R (hx F), physical_air (hx F) (@step_one F) & physical_hum (hx F)],
      (forall i k, i != k -> v_int (hx F) i k = 0) /\ (forall j, 0 <= k_eo (hx F) j 0 * (phi_t0 (hx F) j 0 + \sum_m phi_t1 (hx F) j m)),
      warmer (@step_one F) (@step_more F) /\ ac_demand (@step_one F) 0 0 = 1
    & operation_mode c' 0 = HEATING /\ forall k, k != 0 -> operation_mode c' k <> HEATING /\ operation_mode c' k <> COOLING].
Proof. exact: gains_one_ex. Qed.
