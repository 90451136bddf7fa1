From Coq Require Import ZArith.
From mathcomp Require Import all_ssreflect ssralg ssrnum zmodp matrix.
From Verif Require Import Model.OperationMode Model.Numpy Model.PreCalc Model.Tick Model.Step Model.OtTarget Model.CoreStep
  Model.Ground Model.CoreCalc Spec.Physical Spec.StepEq Spec.Simulation Spec.Forget Spec.Steady Spec.Settle.
From Verif Require Import Lemmas.TickL Lemmas.ForgetL Lemmas.SettleL Examples.House2 Lemmas.TickRefute Examples.House2Ex Examples.RunEx Examples.HumidEx
  Examples.ForgetEx Examples.SettleEx.
Set Implicit Arguments. Unset Strict Implicit. Unset Printing Implicit Defensive.
Import Order.TTheory GRing.Theory Num.Theory.
Local Open Scope ring_scope.

(* C74: under constant conditions an unattended house comes to rest. The state of rest is the textbook steady
   state (Spec/Settle.v: at_rest); it exists for any weather, gains, sun and number of people. *)
Theorem C74_exists : forall (F : realFieldType) (ni nj nm : nat) (infil : infil_fun F ni) (h : house F ni nj nm) (s : step_data F ni nj),
  physical_boundaries h -> (forall t t2 to, infil t to = infil t2 to) -> (forall t to i, 0 <= infil t to i 0) ->
  (forall i, 0 < v_vent_ex h i 0 + v_mec_local s i 0) -> (forall i, 0 <= n_hum s i 0) ->
  (forall j, 0 <= resistance h j) -> (forall j k coef, k_ei h j = Some (k, coef) -> 0 <= coef <= 1) ->
  (forall i, g_sh h i 0 = 0 -> q_trs_sol s i 0 = 0) ->
  exists c theta_s, at_rest infil h s c theta_s.
Proof.
move=> F ni nj nm infil h s Hb fixed i0 v0 n0 R0 k0 f0.
have vp i : 0 < infil 0 (theta_o s) i 0 + (v_vent_ex h i 0 + v_mec_local s i 0) by apply: ltr_paddl.
have [c [ts [S _]]] := steady_people Hb R0 k0 f0 (fun i => q_gen s i 0) (fun=> 0) (fun=> 0) (conditions_init ni nj nm 0) vp n0.
by exists c, ts; rewrite /at_rest (fixed (theta_r c) 0).
Qed.
Print Assumptions C74_exists.

(* It is the only one: all temperatures of rooms and surfaces and all heat flows are determined. *)
Theorem C74_unique : forall (F : realFieldType) (ni nj nm : nat) (infil : infil_fun F ni) (h : house F ni nj nm) (s : step_data F ni nj)
    (c c2 : conditions F ni nj nm) (theta_s theta_s2 : 'cV[F]_nj),
  physical_boundaries h -> (forall t t2 to, infil t to = infil t2 to) -> (forall t to i, 0 <= infil t to i 0) ->
  (forall i, 0 < v_vent_ex h i 0 + v_mec_local s i 0) -> (forall i, 0 <= n_hum s i 0) ->
  (forall j, 0 <= resistance h j) -> (forall j k coef, k_ei h j = Some (k, coef) -> 0 <= coef <= 1) ->
  at_rest infil h s c theta_s -> at_rest infil h s c2 theta_s2 ->
  [/\ forall i, theta_r c2 i 0 = theta_r c i 0, forall j, theta_s2 j 0 = theta_s j 0, forall j, theta_ei c2 j 0 = theta_ei c j 0
    & forall j, q_srf c2 j 0 = q_srf c j 0].
Proof. by move=> F ni nj nm infil h s c c2 ts ts2 Hb; exact: rest_unique. Qed.
Print Assumptions C74_unique.

(* In a house whose walls and furniture leak and that takes in at least v0 > 0 of outdoor air, every unattended
   calculation under constant conditions approaches the state of rest: the weighted squares of the differences
   (Spec/Forget.v: gap) shrink by sigma^2 < 1 in every step. sigma depends on the house and on v0 only. Missing:
   inner walls; air paths between rooms; infiltration that depends on the room temperatures; equipment at work. *)
Theorem C74_run_partial : forall (F : realFieldType) (ni nj nm : nat) (dt : F) (h : house F ni nj nm) (v0 : F),
  physical_boundaries h -> physical_rooms dt h -> physical_hum h -> leaky h -> unit_response h -> 0 < v0 ->
  (forall i, 0 <= cap_h h i 0) -> (forall i, 0 <= cap_c h i 0) ->
  exists sigma, 0 < sigma < 1 /\
  forall (infil : infil_fun F ni) (s : step_data F ni nj) (c_rest : conditions F ni nj nm) (theta_s : 'cV[F]_nj),
  (forall t t2 to, infil t to = infil t2 to) -> (forall t to i, 0 <= infil t to i 0) ->
  unattended dt h v0 s -> (forall i, 0 <= v_ntrl h i 0) -> at_rest infil h s c_rest theta_s ->
  forall (data : seq (step_data F ni nj)) (e0 : F) (x_sat : F -> F) (is_ground : pred 'I_nj) (td x0 : F) (n_main n_run_up n_build : Z) g c log,
  (forall s', List.In s' data -> s' = s) ->
  simulation data e0 infil x_sat dt h (is_ground := is_ground) td (conditions_init ni nj nm x0) n_main n_run_up n_build g c log ->
  (n_build <= n_run_up)%Z -> forall n, (- n_build <= n <= n_main)%Z ->
  gap dt h sigma (c n) c_rest <= (sigma ^+ 2) ^+ Z.to_nat (n + n_build) * gap dt h sigma (c (- n_build)%Z) c_rest.
Proof.
move=> F ni nj nm dt h v0 Hb Hr Hh Hl Hw v0p ch cc; have [sg [Hf Hv]] := rate_exists Hr Hl v0p.
exists sg; split; first exact: (fo_sigma Hf).
move=> infil s cs ts fixed i0 un nt S data e0 x_sat is_ground td x0 n_main n_run_up n_build g c log const sim le1 n Hn.
have Ha : physical_air h s by move=> i; split=> //; have [_ /(le_trans (ltW v0p))] := un i.
exact: (settle_run Hb Hr Hh Ha Hw Hf Hv v0p ch cc fixed i0 un S const sim le1 Hn).
Qed.
Print Assumptions C74_run_partial.

(* After K steps all temperatures of rooms, furniture and surfaces agree with those of the state of rest to within any
   wanted accuracy. K depends on the house, v0, the accuracy and how far away the calculation started (B). *)
Theorem C74_settles_partial : forall (F : archiFieldType) (ni nj nm : nat) (dt : F) (h : house F ni nj nm) (v0 : F),
  physical_boundaries h -> physical_rooms dt h -> physical_hum h -> leaky h -> unit_response h -> 0 < v0 ->
  (forall i, 0 <= cap_h h i 0) -> (forall i, 0 <= cap_c h i 0) ->
  exists sigma, 0 < sigma < 1 /\ forall B eps : F, 0 <= B -> 0 < eps -> exists K : nat,
  forall (infil : infil_fun F ni) (s : step_data F ni nj) (c_rest : conditions F ni nj nm) (theta_s : 'cV[F]_nj),
  (forall t t2 to, infil t to = infil t2 to) -> (forall t to i, 0 <= infil t to i 0) ->
  unattended dt h v0 s -> (forall i, 0 <= v_ntrl h i 0) -> at_rest infil h s c_rest theta_s ->
  forall (data : seq (step_data F ni nj)) (e0 : F) (x_sat : F -> F) (is_ground : pred 'I_nj) (td x0 : F) (n_main n_run_up n_build : Z) g c log,
  (forall s', List.In s' data -> s' = s) ->
  simulation data e0 infil x_sat dt h (is_ground := is_ground) td (conditions_init ni nj nm x0) n_main n_run_up n_build g c log ->
  (n_build <= n_run_up)%Z -> gap dt h sigma (c (- n_build)%Z) c_rest <= B ->
  forall n, (Z.of_nat K - n_build <= n < n_main)%Z ->
  forall o, core_step e0 infil x_sat dt h s (c n) = Some (c (n + 1)%Z, o) ->
  [/\ forall i, (theta_r c_rest i 0 - theta_r (c (n + 1)%Z) i 0) ^+ 2 < eps,
      forall i, (theta_frt c_rest i 0 - theta_frt (c (n + 1)%Z) i 0) ^+ 2 < eps
    & forall j, (theta_s j 0 - o_theta_s o j 0) ^+ 2 < eps].
Proof.
move=> F ni nj nm dt h v0 Hb Hr Hh Hl Hw v0p ch cc; have [sg [Hf Hv]] := rate_exists Hr Hl v0p.
exists sg; split; first exact: (fo_sigma Hf).
move=> B eps B0 ep; have e4 : 0 < eps / 4%:R by rewrite divr_gt0 ?ltr0n.
have [K1 H1] := gap_vanishes Hb Hr Hf B0 e4; have [K2 H2] := surface_vanishes Hb Hr Hf B0 e4.
exists (maxn K1 K2) => infil s cs ts fixed i0 un nt S data e0 x_sat is_ground td x0 n_main n_run_up n_build g c log const sim le1 G n Hn o E.
have Ha : physical_air h s by move=> i; split=> //; have [_ /(le_trans (ltW v0p))] := un i.
exact: (settle_limit Hb Hr Hf Hh Ha Hw Hv v0p ch cc fixed i0 un S const sim le1 B0 ep H1 H2 G Hn E).
Qed.
Print Assumptions C74_settles_partial.

(* two people, 50 W and 100 W of sun in each room at constant outdoor temperature, with no, one and two days of run-up *)
Example C74_example (F : realFieldType) (T : F) :
  [/\ [/\ physical_boundaries (hout F), physical_rooms 900%:R (hout F), physical_hum (hout F), leaky (hout F) & unit_response (hout F)],
      0 < 1 / 100%:R :> F, (forall i, 0 <= cap_h (hout F) i 0) /\ (forall i, 0 <= cap_c (hout F) i 0)
    & (forall i, 0 <= v_ntrl (hout F) i 0)] /\
  [/\ (forall t t2 to, @infil2 F t to = infil2 t2 to) /\ (forall t to i, 0 <= @infil2 F t to i 0),
      unattended 900%:R (hout F) (1 / 100%:R) (lived T), exists c theta_s, at_rest (@infil2 F) (hout F) (lived T) c theta_s,
      (forall s', List.In s' (lived_days T) -> s' = lived T)
    & forall d, (0 <= d <= 2)%Z -> exists g c log,
      simulation (lived_days T) (1 / 8%:R) (@infil2 F) (@moist_sat F) 900%:R (hout F) (theta_o_ave (lived_days T))
        (conditions_init 2 4 1 (4%:R / 1000%:R)) 96 (d * 4 * 24) (d * 4 * 24) (is_ground := ground2) g c log].
Proof.
split; split=> //.
- by split; [exact: hout_boundaries | exact: hout_rooms | exact: hout_hum | exact: hout_leaky | exact: hout_unit].
- by rewrite divr_gt0 ?ltr01 ?ltr0n.
- by split=> i; rewrite mxE.
- by move=> i; rewrite mxE divr_ge0 ?ler01 ?ler0n.
- by split=> //; exact: infil2_ge0.
- exact: lived_unattended.
- apply: C74_exists => //; try by move=> *; rewrite ?mxE ?addr0 ?divr_gt0 ?ltr01 ?ltr0n ?ler0n.
  + exact: hout_boundaries.
  + exact: infil2_ge0.
  + by move=> j; apply: leaky_resistance; exact: hout_leaky.
  + by move=> i; rewrite mxE => /eqP; rewrite pnatr_eq0.
- by move=> s' /in_lived.
- by move=> d; exact: lived_run_ex.
Qed.
