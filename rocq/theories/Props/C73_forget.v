From Coq Require Import ZArith.
From mathcomp Require Import all_ssreflect ssralg ssrnum zmodp matrix.
From Verif Require Import Model.OperationMode Model.Numpy Model.PreCalc Model.Tick Model.Step Model.OtTarget Model.CoreStep
  Model.Ground Model.CoreCalc Spec.Physical Spec.StepEq Spec.Simulation Spec.Forget.
From Verif Require Import Lemmas.TickL Lemmas.ForgetL Examples.House2 Lemmas.TickRefute Examples.House2Ex Examples.RunEx Examples.HumidEx Examples.ForgetEx.
Set Implicit Arguments. Unset Strict Implicit. Unset Printing Implicit Defensive.
Import Order.TTheory GRing.Theory Num.Theory.
Local Open Scope ring_scope.

(* C73: the calculation forgets the state it started from. The difference between two states is measured by a
   weighted sum of squares over rooms, furniture and walls (Spec/Forget.v: gap). One step from two states under
   the same weather, gains, outdoor air and equipment output shrinks it by sigma^2, and by more where surfaces
   and room air differ. The house has a rate sigma < 1 of its own (C73_free_partial). Missing: boundaries with another room behind them; air paths
   between rooms, where it is false (C73_air_paths_refuted). *)
Theorem C73_step_partial : forall (F : realFieldType) (ni nj nm : nat) (e0 : F) (infil : infil_fun F ni) (x_sat : F -> F)
    (dt : F) (h : house F ni nj nm) (s : step_data F ni nj) (c c' c2 c2' : conditions F ni nj nm) (o o2 : outputs F ni nj) (sigma : F),
  core_step e0 infil x_sat dt h s c = Some (c', o) -> core_step e0 infil x_sat dt h s c2 = Some (c2', o2) ->
  physical_boundaries h -> physical_rooms dt h -> forgetful dt h sigma -> same_idle h c c2 -> same_operation h s o o2 -> aired dt h sigma s o ->
  gap dt h sigma c' c2'
  + sigma * (\sum_(i < ni) \sum_(j | conn h j == i) h_c h j 0 * a_srf h j 0
      * (theta_r c2' i 0 - theta_r c' i 0 - (o_theta_s o2 j 0 - o_theta_s o j 0)) ^+ 2)
  <= sigma ^+ 2 * gap dt h sigma c c2.
Proof.
by move=> F ni nj nm e0 infil x_sat dt h s c c' c2 c2' o o2 sigma H1 H2 Hb Hr Hf Hi Ho Ha; exact: (gap_step H1 H2 Hb Hr Hf Hi Ho Ha).
Qed.
Print Assumptions C73_step_partial.

(* the measure is never negative and bounds the differences of all room and furniture temperatures *)
Theorem C73_measure : forall (F : realFieldType) (ni nj nm : nat) (dt : F) (h : house F ni nj nm) (sigma : F),
  physical_boundaries h -> physical_rooms dt h -> forgetful dt h sigma -> forall (c c2 : conditions F ni nj nm),
  [/\ 0 <= gap dt h sigma c c2,
      forall i, v_room h i 0 * cap_air F / dt * (theta_r c2 i 0 - theta_r c i 0) ^+ 2 <= 2%:R * sigma * gap dt h sigma c c2
    & forall i, c_sh h i 0 / dt * (theta_frt c2 i 0 - theta_frt c i 0) ^+ 2 <= 2%:R * sigma * gap dt h sigma c c2].
Proof.
move=> F ni nj nm dt h sigma Hb Hr Hf c c2; split=> [|i|i]; first exact: (gap_ge0 Hb Hr Hf).
  by case: (gap_room Hb Hr Hf c c2 i).
by case: (gap_room Hb Hr Hf c c2 i).
Qed.
Print Assumptions C73_measure.

(* C73 over whole calculations: two calculations with run-ups of different length and different humidity at the
   start, under the same operation. *)
Theorem C73_run_partial : forall (F : realFieldType) (ni nj nm : nat) (data : seq (step_data F ni nj)) (e0 : F) (infil : infil_fun F ni)
    (x_sat : F -> F) (dt : F) (h : house F ni nj nm) (sigma : F) (is_ground : pred 'I_nj) (td x0 x1 : F)
    (n_main n_run_up n_build n_run_up2 n_build2 : Z) g g2 c c2 log log2,
  physical_boundaries h -> physical_rooms dt h -> forgetful dt h sigma ->
  simulation data e0 infil x_sat dt h (is_ground := is_ground) td (conditions_init ni nj nm x0) n_main n_run_up n_build g c log ->
  simulation data e0 infil x_sat dt h (is_ground := is_ground) td (conditions_init ni nj nm x1) n_main n_run_up2 n_build2 g2 c2 log2 ->
  (n_build <= n_run_up)%Z -> (n_build2 <= n_run_up2)%Z ->
  forall n0, (- n_build <= n0)%Z -> (- n_build2 <= n0)%Z ->
  (forall n s o o2, (n0 <= n < n_main)%Z -> column data n s ->
     core_step e0 infil x_sat dt h s (c n) = Some (c (n + 1)%Z, o) ->
     core_step e0 infil x_sat dt h s (c2 n) = Some (c2 (n + 1)%Z, o2) -> same_operation h s o o2 /\ aired dt h sigma s o) ->
  forall n, (n0 <= n <= n_main)%Z ->
  gap dt h sigma (c n) (c2 n) <= (sigma ^+ 2) ^+ Z.to_nat (n - n0) * gap dt h sigma (c n0) (c2 n0).
Proof.
move=> F ni nj nm data e0 infil x_sat dt h sigma is_ground td x0 x1 n_main n_run_up n_build n_run_up2 n_build2 g g2 c c2 log log2.
move=> Hb Hr Hf S1 S2 l1 l2 n0 a1 a2 same n Hn; exact: (run_gap Hb Hr Hf S1 S2 l1 l2 a1 a2 same Hn).
Qed.
Print Assumptions C73_run_partial.

(* C73 without assumptions about the operation: in a house whose walls and furniture leak and that takes in at
   least v0 > 0 of outdoor air, there is one rate sigma < 1, depending on the house and on v0 only, at which all
   unattended calculations forget. Missing: inner walls, air paths, infiltration that depends on the room
   temperatures, equipment at work. *)
Theorem C73_free_partial : forall (F : realFieldType) (ni nj nm : nat) (dt : F) (h : house F ni nj nm) (v0 : F),
  physical_boundaries h -> physical_rooms dt h -> leaky h -> 0 < v0 ->
  (forall i, 0 <= cap_h h i 0) -> (forall i, 0 <= cap_c h i 0) ->
  exists sigma, 0 < sigma < 1 /\
  forall (data : seq (step_data F ni nj)) (e0 : F) (infil : infil_fun F ni) (x_sat : F -> F) (is_ground : pred 'I_nj) (td x0 x1 : F)
    (n_main n_run_up n_build n_run_up2 n_build2 : Z) g g2 c c2 log log2,
  (forall t t2 to, infil t to = infil t2 to) -> (forall t to i, 0 <= infil t to i 0) ->
  (forall s, List.In s data -> unattended dt h v0 s) ->
  simulation data e0 infil x_sat dt h (is_ground := is_ground) td (conditions_init ni nj nm x0) n_main n_run_up n_build g c log ->
  simulation data e0 infil x_sat dt h (is_ground := is_ground) td (conditions_init ni nj nm x1) n_main n_run_up2 n_build2 g2 c2 log2 ->
  (n_build <= n_run_up)%Z -> (n_build2 <= n_run_up2)%Z ->
  forall n0, (- n_build <= n0)%Z -> (- n_build2 <= n0)%Z -> forall n, (n0 <= n <= n_main)%Z ->
  gap dt h sigma (c n) (c2 n) <= (sigma ^+ 2) ^+ Z.to_nat (n - n0) * gap dt h sigma (c n0) (c2 n0).
Proof.
move=> F ni nj nm dt h v0 Hb Hr Hl v0p ch cc; have [sg [Hf Hv]] := rate_exists Hr Hl v0p.
exists sg; split; first exact: (fo_sigma Hf).
move=> data e0 infil x_sat is_ground td x0 x1 n_main n_run_up n_build n_run_up2 n_build2 g g2 c c2 log log2.
move=> fixed i0 idle S1 S2 l1 l2 n0 a1 a2 n Hn; exact: (free_run Hb Hr Hf Hv ch cc fixed i0 idle S1 S2 l1 l2 a1 a2 Hn).
Qed.
Print Assumptions C73_free_partial.

(* C73: however far apart two such calculations were (B), after K steps all room and furniture temperatures agree
   to within any wanted accuracy. K depends on the house, v0, B and the accuracy, not on the weather and not on
   the length of the calculation. *)
Theorem C73_forgotten_partial : forall (F : archiFieldType) (ni nj nm : nat) (dt : F) (h : house F ni nj nm) (v0 : F),
  physical_boundaries h -> physical_rooms dt h -> leaky h -> 0 < v0 ->
  (forall i, 0 <= cap_h h i 0) -> (forall i, 0 <= cap_c h i 0) ->
  exists sigma, 0 < sigma < 1 /\ forall B eps : F, 0 <= B -> 0 < eps -> exists K : nat,
  forall (data : seq (step_data F ni nj)) (e0 : F) (infil : infil_fun F ni) (x_sat : F -> F) (is_ground : pred 'I_nj) (td x0 x1 : F)
    (n_main n_run_up n_build n_run_up2 n_build2 : Z) g g2 c c2 log log2,
  (forall t t2 to, infil t to = infil t2 to) -> (forall t to i, 0 <= infil t to i 0) ->
  (forall s, List.In s data -> unattended dt h v0 s) ->
  simulation data e0 infil x_sat dt h (is_ground := is_ground) td (conditions_init ni nj nm x0) n_main n_run_up n_build g c log ->
  simulation data e0 infil x_sat dt h (is_ground := is_ground) td (conditions_init ni nj nm x1) n_main n_run_up2 n_build2 g2 c2 log2 ->
  (n_build <= n_run_up)%Z -> (n_build2 <= n_run_up2)%Z ->
  forall n0, (- n_build <= n0)%Z -> (- n_build2 <= n0)%Z -> gap dt h sigma (c n0) (c2 n0) <= B ->
  forall n, (n0 + Z.of_nat K <= n <= n_main)%Z ->
  forall i, (theta_r (c2 n) i 0 - theta_r (c n) i 0) ^+ 2 < eps /\ (theta_frt (c2 n) i 0 - theta_frt (c n) i 0) ^+ 2 < eps.
Proof.
move=> F ni nj nm dt h v0 Hb Hr Hl v0p ch cc; have [sg [Hf Hv]] := rate_exists Hr Hl v0p.
exists sg; split; first exact: (fo_sigma Hf).
move=> B eps B0 e0p; have [K HK] := gap_vanishes Hb Hr Hf B0 e0p.
exists K => data e0 infil x_sat is_ground td x0 x1 n_main n_run_up n_build n_run_up2 n_build2 g g2 c c2 log log2.
move=> fixed i0 idle S1 S2 l1 l2 n0 a1 a2 G n Hn; exact: (free_forgotten Hb Hr Hf Hv ch cc fixed i0 idle S1 S2 l1 l2 a1 a2 B0 HK G Hn).
Qed.
Print Assumptions C73_forgotten_partial.

(* a leaky house; calculations of the same day with no, one and two days of run-up *)
Example C73_example (F : realFieldType) (T : F) :
  [/\ physical_boundaries (hout F), physical_rooms 900%:R (hout F), leaky (hout F), 0 < 1 / 100%:R :> F
    & (forall i, 0 <= cap_h (hout F) i 0) /\ (forall i, 0 <= cap_c (hout F) i 0)] /\
  [/\ (forall t t2 to, @infil2 F t to = infil2 t2 to), (forall t to i, 0 <= @infil2 F t to i 0),
      (forall s, List.In s (quiet_days T) -> unattended 900%:R (hout F) (1 / 100%:R) s)
    & forall d, (0 <= d <= 2)%Z -> exists g c log,
      simulation (quiet_days T) (1 / 8%:R) (@infil2 F) (@moist_sat F) 900%:R (hout F) (theta_o_ave (quiet_days T))
        (conditions_init 2 4 1 (4%:R / 1000%:R)) 96 (d * 4 * 24) (d * 4 * 24) (is_ground := ground2) g c log].
Proof.
split; split=> //.
- exact: hout_boundaries.
- exact: hout_rooms.
- exact: hout_leaky.
- by rewrite divr_gt0 ?ltr01 ?ltr0n.
- by split=> i; rewrite mxE.
- exact: infil2_ge0.
- exact: quiet_unattended.
- by move=> d; exact: hout_run_ex.
Qed.
