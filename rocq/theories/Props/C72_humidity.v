From Coq Require Import ZArith.
From mathcomp Require Import all_ssreflect ssralg ssrnum zmodp matrix.
From Verif Require Import Model.OperationMode Model.Numpy Model.NextCondition Model.PreCalc Model.Tick
  Model.Step Model.OtTarget Model.CoreStep Model.Ground Model.CoreCalc Model.Py Spec.Physical Spec.StepEq Spec.Coil Spec.Simulation.
From Verif Require Import Lemmas.HumidityL Examples.House2 Lemmas.TickRefute Examples.House2Ex Examples.RunEx Examples.HumidEx Lemmas.RunawayL.
Set Implicit Arguments. Unset Strict Implicit. Unset Printing Implicit Defensive.
Import Order.TTheory GRing.Theory Num.Theory.
Local Open Scope ring_scope.

(* C72: no room and no furniture becomes drier than the driest of the rooms, the furniture, the outdoor
   air and the coils at work. In particular (m = 0) humidity is never negative. All houses. *)
Theorem C72_not_drier : forall (F : realFieldType) (ni nj nm : nat) (e0 : F) (infil : infil_fun F ni) (x_sat : F -> F)
    (dt : F) (h : house F ni nj nm) (s : step_data F ni nj) (c c' : conditions F ni nj nm) (o : outputs F ni nj),
  core_step e0 infil x_sat dt h s c = Some (c', o) ->
  physical_rooms dt h -> physical_air h s -> (forall tr to i, 0 <= infil tr to i 0) ->
  forall m, 0 <= m -> m <= x_o s -> (forall i, m <= x_r c i 0) -> (forall i, m <= x_frt c i 0) ->
  (forall i, 0 <= x_gen s i 0) -> (forall i, 0 <= n_hum s i 0) ->
  (forall i, 1 / 1000%:R < removed o i -> m <= coil_humidity x_sat h c' o i) ->
  (forall i, m <= x_r c' i 0) /\ (forall i, m <= x_frt c' i 0).
Proof. by move=> F ni nj nm e0 infil x_sat dt h s c c' o Hs Hr Ha i0 m; exact: (step_not_drier Hs Hr Ha i0). Qed.
Print Assumptions C72_not_drier.

(* C72 over whole calculations, run-up included (C01_simulation: every completed calculation is such a
   simulation). x0 is the humidity at the start. *)
Theorem C72_run_not_drier : forall (F : realFieldType) (ni nj nm : nat) (data : seq (step_data F ni nj)) (e0 : F)
    (infil : infil_fun F ni) (x_sat : F -> F) (dt : F) (h : house F ni nj nm) (is_ground : pred 'I_nj) (td x0 : F)
    (n_main n_run_up n_build : Z) g c log,
  simulation data e0 infil x_sat dt h (is_ground := is_ground) td (conditions_init ni nj nm x0) n_main n_run_up n_build g c log ->
  physical_rooms dt h -> (forall s, List.In s data -> physical_air h s) -> (forall tr to i, 0 <= infil tr to i 0) ->
  forall m, 0 <= m -> m <= x0 ->
  (forall s, List.In s data -> m <= x_o s /\ forall i, 0 <= x_gen s i 0 /\ 0 <= n_hum s i 0) ->
  (forall n i u, (- n_build < n <= n_main)%Z -> u <= theta_r (c n) i 0 -> m <= x_sat u) ->
  forall n i, (- n_build <= n <= n_main)%Z -> m <= x_r (c n) i 0 /\ m <= x_frt (c n) i 0.
Proof.
move=> F ni nj nm data e0 infil x_sat dt h is_ground td x0 n_main n_run_up n_build g c log S Hr Ha i0 m.
exact: (run_not_drier S Hr Ha i0).
Qed.
Print Assumptions C72_run_not_drier.

(* C72, upper bound: without moisture gains and occupants, a room does not become more humid than the most
   humid of itself, its furniture and the outdoor air. Missing: rooms that receive air from other rooms,
   where it is false (C72_no_source_refuted). *)
Theorem C72_no_source_partial : forall (F : realFieldType) (ni nj nm : nat) (e0 : F) (infil : infil_fun F ni) (x_sat : F -> F)
    (dt : F) (h : house F ni nj nm) (s : step_data F ni nj) (c c' : conditions F ni nj nm) (o : outputs F ni nj),
  core_step e0 infil x_sat dt h s c = Some (c', o) ->
  physical_rooms dt h -> physical_air h s -> (forall tr to i, 0 <= infil tr to i 0) ->
  forall i M, (forall k, v_int h i k = 0) -> x_gen s i 0 = 0 -> n_hum s i 0 = 0 ->
  x_o s <= M -> x_r c i 0 <= M -> x_frt c i 0 <= M -> x_r c' i 0 <= M /\ x_frt c' i 0 <= M.
Proof. by move=> F ni nj nm e0 infil x_sat dt h s c c' o Hs Hr Ha i0 i M; exact: (step_not_moister Hs Hr Ha i0). Qed.
Print Assumptions C72_no_source_partial.

Theorem C72_run_no_source_partial : forall (F : realFieldType) (ni nj nm : nat) (data : seq (step_data F ni nj)) (e0 : F)
    (infil : infil_fun F ni) (x_sat : F -> F) (dt : F) (h : house F ni nj nm) (is_ground : pred 'I_nj) (td x0 : F)
    (n_main n_run_up n_build : Z) g c log,
  simulation data e0 infil x_sat dt h (is_ground := is_ground) td (conditions_init ni nj nm x0) n_main n_run_up n_build g c log ->
  physical_rooms dt h -> (forall s, List.In s data -> physical_air h s) -> (forall tr to i, 0 <= infil tr to i 0) ->
  forall M, x0 <= M -> (forall i k, v_int h i k = 0) ->
  (forall s, List.In s data -> x_o s <= M /\ forall i, x_gen s i 0 = 0 /\ n_hum s i 0 = 0) ->
  forall n i, (- n_build <= n <= n_main)%Z -> x_r (c n) i 0 <= M /\ x_frt (c n) i 0 <= M.
Proof.
move=> F ni nj nm data e0 infil x_sat dt h is_ground td x0 n_main n_run_up n_build g c log S Hr Ha i0 M.
exact: (run_not_moister S Hr Ha i0).
Qed.
Print Assumptions C72_run_no_source_partial.

(* The upper bound is false in every house with air paths between rooms: air of the same humidity X
   everywhere, indoors and outdoors, no gains, nobody at home, no cooling, and the rooms that receive air
   from other rooms become more humid than X. The air they receive counts, the air that leaves in its place
   does not. *)
Theorem C72_air_paths : forall (F : realFieldType) (ni nj nm : nat) (e0 : F) (infil : infil_fun F ni) (x_sat : F -> F)
    (dt : F) (h : house F ni nj nm) (s : step_data F ni nj) (c c' : conditions F ni nj nm) (o : outputs F ni nj),
  core_step e0 infil x_sat dt h s c = Some (c', o) ->
  physical_rooms dt h -> physical_air h s -> (forall tr to i, 0 <= infil tr to i 0) ->
  forall X, 0 < X -> x_o s = X -> (forall i, x_r c i 0 = X) -> (forall i, x_frt c i 0 = X) ->
  (forall i, x_gen s i 0 = 0) -> (forall i, n_hum s i 0 = 0) -> (forall i, removed o i <= 1 / 1000%:R) ->
  forall i, (0 < \sum_k v_int h i k -> X < x_r c' i 0) /\ (\sum_k v_int h i k = 0 -> x_r c' i 0 = X).
Proof. by move=> F ni nj nm e0 infil x_sat dt h s c c' o Hs Hr Ha i0 X; exact: (step_air_paths_grow Hs Hr Ha i0). Qed.
Print Assumptions C72_air_paths.

Theorem C72_no_source_refuted : forall (F : realFieldType) (X T : F), 0 < X ->
  exists (h : house F 2 4 1) (s : step_data F 2 4) (c c' : conditions F 2 4 1) (o : outputs F 2 4),
  [/\ core_step (1 / 8%:R) (@infil2 F) (@x_sat2 F) 900%:R h s c = Some (c', o),
      physical_rooms 900%:R h /\ physical_air h s,
      x_gen s = 0 /\ n_hum s = 0,
      [/\ x_o s = X, forall i, x_r c i 0 = X & forall i, x_frt c i 0 = X]
    & X < x_r c' 0 0].
Proof.
move=> F X T X0; have [c' [o [H G]]] := moist_grows T X0.
exists (hv F), (still X T), (moist X T), c', o; split=> //.
- by split; [exact: hv_rooms | exact: house2_air].
- by split=> // i; rewrite mxE.
Qed.
Print Assumptions C72_no_source_refuted.

(* Where two rooms exchange more air than they get from outdoors, the humidity grows without any source and without
   bound: it is multiplied by more than 11/10 in every step of a quarter of an hour, and by more than 4096 in a day.
   x is the humidity of the outdoor air, x0 that of the rooms at the start; no occupants, no moisture gains. *)
Theorem C72_grows_refuted : forall (F : realFieldType) (e0 : F) (x_sat : F -> F) (x T x0 : F) (k : nat) (d b : Z), 0 <= x -> 0 <= x0 -> (0 <= d)%Z -> (0 <= b)%Z ->
  (d * 4 * 24 <= Z.of_nat k)%Z -> (b * 4 * 24 <= Z.of_nat k)%Z ->
  [/\ x_gen (appliance x T) = 0, n_hum (appliance x T) = 0, x_o (appliance x T) = x, physical_rooms 900%:R (twins F)
    & physical_air (twins F) (appliance x T)] /\
  exists cf log,
  [/\ core_calc e0 (@draught F) x_sat x0 (twins F) pred0 (nseq k (appliance x T)) 4 d b b = Ok (cf, log),
      (11%:R / 10%:R) ^+ Z.to_nat ((d + b) * 4 * 24) * (2%:R * x0) <= x_r cf 0 0 + x_r cf 1 0
    & (0 < d + b)%Z -> 4096%:R * (2%:R * x0) <= x_r cf 0 0 + x_r cf 1 0].
Proof.
move=> F e0 x_sat x T x0 k d b xp x0p d0 b0 l1 l2; split; last exact: twins_damp.
split=> //; [exact: twins_rooms | exact: twins_air].
Qed.
Print Assumptions C72_grows_refuted.

(* C72: the humidity of the past is forgotten. Two steps with the same weather, gains and temperatures that
   start from different humidities: without cooling the difference in a room that receives no air from
   other rooms shrinks by a factor below one wherever outdoor air comes in. *)
Theorem C72_forgets : forall (F : realFieldType) (ni nj nm : nat) (e0 : F) (infil : infil_fun F ni) (x_sat : F -> F)
    (dt : F) (h : house F ni nj nm) (s : step_data F ni nj) (c c' c2 c2' : conditions F ni nj nm) (o o2 : outputs F ni nj) (D : F) (i : 'I_ni),
  core_step e0 infil x_sat dt h s c = Some (c', o) -> core_step e0 infil x_sat dt h s c2 = Some (c2', o2) ->
  physical_rooms dt h -> physical_air h s -> (forall tr to k, 0 <= infil tr to k 0) ->
  theta_r c2 i 0 = theta_r c i 0 -> o_v_leak o2 i 0 = o_v_leak o i 0 -> o_v_ntrl o2 i 0 = o_v_ntrl o i 0 ->
  (forall k, v_int h i k = 0) -> removed o i <= 1 / 1000%:R -> removed o2 i <= 1 / 1000%:R ->
  `|x_r c2 i 0 - x_r c i 0| <= D -> `|x_frt c2 i 0 - x_frt c i 0| <= D ->
  let store := rho_air F * v_room h i 0 / dt + c_lh h i 0 * g_lh h i 0 / (c_lh h i 0 + dt * g_lh h i 0) in
  let k := store / (store + rho_air F * air_from_outside h s o i) in
  [/\ `|x_r c2' i 0 - x_r c' i 0| <= k * D,
      `|x_frt c2' i 0 - x_frt c' i 0| <= (c_lh h i 0 + dt * g_lh h i 0 * k) / (c_lh h i 0 + dt * g_lh h i 0) * D
    & 0 < air_from_outside h s o i -> 0 < k < 1].
Proof. by move=> F ni nj nm e0 infil x_sat dt h s c c' c2 c2' o o2 D i; exact: step_forgets. Qed.
Print Assumptions C72_forgets.

(* cooling with occupants and an air path; a whole day and its run-up *)
Example C72_example (F : realFieldType) : exists c' o,
  [/\ core_step (1 / 8%:R) (@infil2 F) (@moist_sat F) 900%:R (hv F) (@step2 F) (cond2 COOLING 30%:R) = Some (c', o),
      physical_rooms 900%:R (hv F) /\ physical_air (hv F) (@step2 F), (forall tr to i, 0 <= @infil2 F tr to i 0),
      (forall i, 0 <= x_gen (@step2 F) i 0) /\ (forall i, 0 <= n_hum (@step2 F) i 0)
    & forall i, 1 / 1000%:R < removed o i -> 3%:R / 1000%:R <= coil_humidity (@moist_sat F) (hv F) c' o i].
Proof.
have [c' [o H]] := cool_ex F; exists c', o; split=> //.
- by split; [exact: hv_rooms | exact: house2_air].
- exact: infil2_ge0.
- by split=> i; rewrite mxE ?ler01 // divr_ge0 ?ler01 ?ler0n.
by move=> i _; rewrite /coil_humidity /moist_sat ler_pmul2r ?invr_gt0 ?ltr0n // ler_nat.
Qed.

Example C72_example_run (F : realFieldType) : exists g c log,
  simulation (day2 F) (1 / 8%:R) (@infil2 F) (@moist_sat F) 900%:R (hv F) (theta_o_ave (day2 F))
    (conditions_init 2 4 1 (4%:R / 1000%:R)) 96 96 96 (is_ground := ground2) g c log.
Proof. exact: hv_run_ex. Qed.

(* no air paths, two start humidities *)
Example C72_example_two (F : realFieldType) (T X Y : F) : exists c' o c2' o2,
  [/\ core_step (1 / 8%:R) (@infil2 F) (@x_sat2 F) 900%:R (hx F) (still X T) (moist X T) = Some (c', o),
      core_step (1 / 8%:R) (@infil2 F) (@x_sat2 F) 900%:R (hx F) (still X T) (moist Y T) = Some (c2', o2),
      forall i, removed o i <= 1 / 1000%:R /\ removed o2 i <= 1 / 1000%:R,
      forall i, o_v_leak o2 i 0 = o_v_leak o i 0 /\ o_v_ntrl o2 i 0 = o_v_ntrl o i 0
    & forall i, 0 < air_from_outside (hx F) (still X T) o i].
Proof.
have [c' [o [H [r [l n]]]]] := @still_ex F 0 X T (moist X T) (fun _ => ltac:(done)) (@zero_ge0 F) (@sum0_lt F).
have [c2 [o2 [H2 [r2 [l2 n2]]]]] := @still_ex F 0 X T (moist Y T) (fun _ => ltac:(done)) (@zero_ge0 F) (@sum0_lt F).
exists c', o, c2, o2; split=> // i; rewrite ?l ?n ?l2 ?n2 //.
rewrite /air_from_outside l n /= !mxE !addr0 addr_gt0 // divr_gt0 ?ltr01 ?ltr0n //.
Qed.
