From Coq Require Import ZArith.
From mathcomp Require Import all_ssreflect ssralg ssrnum zmodp matrix.
From Verif Require Import Model.OperationMode Model.Numpy Model.PreCalc Model.Tick Model.Step Model.OtTarget Model.CoreStep
  Model.Ground Model.CoreCalc Model.Py Spec.Physical Spec.StepEq Spec.Coil Spec.Simulation Spec.Forget Spec.Steady Spec.Settle Spec.Damp.
From Verif Require Import Lemmas.TickL Lemmas.GroundL Lemmas.ForgetL Lemmas.SettleL Lemmas.DampL Examples.House2 Lemmas.TickRefute
  Examples.House2Ex Examples.RunEx Examples.HumidEx Examples.ForgetEx Examples.SettleEx Examples.DampEx Lemmas.RunawayL.
Set Implicit Arguments. Unset Strict Implicit. Unset Printing Implicit Defensive.
Import Order.TTheory GRing.Theory Num.Theory.
Local Open Scope ring_scope.

(* C75: the humidity at the start is forgotten. One step from two states: the greatest difference of humidity D becomes
   at most q D, and people who feel temperatures that differ by at most T add at most 2 c_air / l_wtr T to it. q < 1
   depends on the house and v0 only. Air paths between rooms are allowed as long as every room takes in v0 > 0 more
   outdoor air than air from other rooms, and cooling coils at work as long as they do the same in both steps and in
   rooms that get no air from other rooms (Spec/Damp.v: coils_alike). Missing: coils at work in rooms that get air from
   other rooms; more air from rooms than from outside, where it is false (C75_air_paths). *)
Theorem C75_step_partial : forall (F : realFieldType) (ni nj nm : nat) (dt : F) (h : house F ni nj nm) (v0 : F),
  physical_rooms dt h -> (forall i, 0 < g_lh h i 0) -> 0 < v0 ->
  exists q, 0 <= q < 1 /\
  forall (e0 : F) (infil : infil_fun F ni) (x_sat : F -> F) (s : step_data F ni nj) (c c' c2 c2' : conditions F ni nj nm)
    (o o2 : outputs F ni nj) (D T : F),
  core_step e0 infil x_sat dt h s c = Some (c', o) -> core_step e0 infil x_sat dt h s c2 = Some (c2', o2) ->
  physical_air h s -> (forall t to i, 0 <= infil t to i 0) -> coils_alike h c' c2' o o2 ->
  (forall i, air_from_outside h s o2 i = air_from_outside h s o i) ->
  (forall i, v0 + \sum_k v_int h i k <= air_from_outside h s o i) ->
  (forall i, 0 <= n_hum s i 0 /\ 4%:R * n_hum s i 0 <= 2%:R * (v_room h i 0 * cap_air F / dt)) ->
  0 <= D -> 0 <= T -> humidity_within D c c2 ->
  (forall i, n_hum s i 0 != 0 -> `|theta_r c2 i 0 - theta_r c i 0| <= T) ->
  humidity_within (q * D + 2%:R * c_air F / l_wtr F * T) c' c2'.
Proof.
move=> F ni nj nm dt h v0 Hr gp v0p; have [q1 [q [Hq q0 ql]]] := damp_rate_exists Hr v0p ltr01 gp.
exists q; split=> [|e0 infil x_sat s c c' c2 c2' o o2 D T E E2 Ha i0 alike same air crowd D0 T0 near warm]; first by rewrite q0.
exact: (two_near Hr E E2 same v0p Hq air D0 T0 crowd near warm Ha i0 alike).
Qed.
Print Assumptions C75_step_partial.

(* Two calculations with different run-up or humidity at the start: from step n0 on, where both take in the same outdoor
   air, the coils do the same and rooms with people in them are equally warm, the greatest difference of humidity
   shrinks by q in every step. Missing: as above. *)
Theorem C75_run_partial : forall (F : realFieldType) (ni nj nm : nat) (dt : F) (h : house F ni nj nm) (v0 : F),
  physical_rooms dt h -> (forall i, 0 < g_lh h i 0) -> 0 < v0 ->
  exists q, 0 <= q < 1 /\
  forall (data : seq (step_data F ni nj)) (e0 : F) (infil : infil_fun F ni) (x_sat : F -> F) (is_ground : pred 'I_nj)
    (td x0 x1 : F) (n_main n_run_up n_build n_run_up2 n_build2 : Z) g c log g2 c2 log2 (n0 : Z) (D : F),
  simulation data e0 infil x_sat dt h (is_ground := is_ground) td (conditions_init ni nj nm x0) n_main n_run_up n_build g c log ->
  simulation data e0 infil x_sat dt h (is_ground := is_ground) td (conditions_init ni nj nm x1) n_main n_run_up2 n_build2 g2 c2 log2 ->
  (forall t to i, 0 <= infil t to i 0) -> (- n_build <= n0)%Z -> (- n_build2 <= n0)%Z ->
  (forall n s o o2, (n0 <= n < n_main)%Z -> column data n s ->
    core_step e0 infil x_sat dt h s (c n) = Some (c (n + 1)%Z, o) -> core_step e0 infil x_sat dt h s (c2 n) = Some (c2 (n + 1)%Z, o2) ->
    [/\ physical_air h s, coils_alike h (c (n + 1)%Z) (c2 (n + 1)%Z) o o2 & forall i,
      [/\ air_from_outside h s o2 i = air_from_outside h s o i, v0 + \sum_k v_int h i k <= air_from_outside h s o i
        & n_hum s i 0 != 0 -> theta_r (c2 n) i 0 = theta_r (c n) i 0]]) ->
  0 <= D -> humidity_within D (c n0) (c2 n0) ->
  forall n, (n0 <= n <= n_main)%Z -> humidity_within (q ^+ Z.to_nat (n - n0) * D) (c n) (c2 n).
Proof.
move=> F ni nj nm dt h v0 Hr gp v0p; have [q1 [q [Hq q0 ql]]] := damp_rate_exists Hr v0p ltr01 gp.
exists q; split=> [|data e0 infil x_sat is_ground td x0 x1 n_main n_run_up n_build n_run_up2 n_build2 g c log g2 c2 log2 n0 D]; first by rewrite q0.
move=> sim sim2 i0 s1 s2 op D0 near n Hn.
exact: (damp_run Hr v0p Hq sim s1 sim2 s2 i0 op D0 near Hn).
Qed.
Print Assumptions C75_run_partial.

(* The humidities of a state reach the temperatures, the loads and the air flows of a step only through what the comfort
   model asks for: from two states that differ in humidity only, with the same targets, the step calculates the same but
   for the humidities and the condensate. *)
Theorem C75_heat : forall (F : realFieldType) (ni nj nm : nat) (e0 : F) (infil : infil_fun F ni) (x_sat : F -> F)
    (dt : F) (h : house F ni nj nm) (s : step_data F ni nj) (c c' c2 c2' : conditions F ni nj nm) (o o2 : outputs F ni nj),
  core_step e0 infil x_sat dt h s c = Some (c', o) -> core_step e0 infil x_sat dt h s c2 = Some (c2', o2) ->
  same_heat c c2 -> same_targets (get_ot_target_and_h_hum e0 (ni := ni)) s c c2 -> same_heat c' c2' /\ same_flows o o2.
Proof. move=> F ni nj nm e0 infil x_sat dt h s c c' c2 c2' o o2; exact: heat_apart. Qed.
Print Assumptions C75_heat.

(* Equipment at work: two calculations whose states at step n0 differ in humidity only and whose targets are the same from
   there on keep the same temperatures, and their humidities approach each other by q in every step. Missing: as above;
   targets that differ with the humidity. *)
Theorem C75_operated_partial : forall (F : realFieldType) (ni nj nm : nat) (dt : F) (h : house F ni nj nm) (v0 : F),
  physical_rooms dt h -> (forall i, 0 < g_lh h i 0) -> 0 < v0 ->
  exists q, 0 <= q < 1 /\
  forall (data : seq (step_data F ni nj)) (e0 : F) (infil : infil_fun F ni) (x_sat : F -> F) (is_ground : pred 'I_nj)
    (td x0 x1 : F) (n_main n_run_up n_build n_run_up2 n_build2 : Z) g c log g2 c2 log2 (n0 : Z) (D : F),
  simulation data e0 infil x_sat dt h (is_ground := is_ground) td (conditions_init ni nj nm x0) n_main n_run_up n_build g c log ->
  simulation data e0 infil x_sat dt h (is_ground := is_ground) td (conditions_init ni nj nm x1) n_main n_run_up2 n_build2 g2 c2 log2 ->
  (forall t to i, 0 <= infil t to i 0) -> (- n_build <= n0)%Z -> (- n_build2 <= n0)%Z ->
  (forall n s o, (n0 <= n < n_main)%Z -> column data n s -> core_step e0 infil x_sat dt h s (c n) = Some (c (n + 1)%Z, o) ->
    [/\ physical_air h s, same_targets (get_ot_target_and_h_hum e0 (ni := ni)) s (c n) (c2 n)
      & forall i, v0 + \sum_k v_int h i k <= air_from_outside h s o i
        /\ (removed o i <= 1 / 1000%:R \/ forall k, i != k -> v_int h i k = 0)]) ->
  0 <= D -> same_heat (c n0) (c2 n0) -> humidity_within D (c n0) (c2 n0) ->
  forall n, (n0 <= n <= n_main)%Z -> same_heat (c n) (c2 n) /\ humidity_within (q ^+ Z.to_nat (n - n0) * D) (c n) (c2 n).
Proof.
move=> F ni nj nm dt h v0 Hr gp v0p; have [q1 [q [Hq q0 ql]]] := damp_rate_exists Hr v0p ltr01 gp.
exists q; split=> [|data e0 infil x_sat is_ground td x0 x1 n_main n_run_up n_build n_run_up2 n_build2 g c log g2 c2 log2 n0 D]; first by rewrite q0.
move=> sim sim2 i0 s1 s2 op D0 S near n Hn.
exact: (damp_operated Hr v0p Hq sim s1 sim2 s2 i0 op D0 S near Hn).
Qed.
Print Assumptions C75_operated_partial.

(* Unattended houses whose walls and furniture leak (C73), people at home included: the humidities of two calculations
   over the same conditions approach each other, whatever the temperatures and humidities of each at step n0. T bounds
   the difference of temperatures (Spec/Forget.v: gap). Missing: as for C73, inner walls, air paths, infiltration that
   depends on the room temperatures, equipment at work. *)
Theorem C75_free_partial : forall (F : realFieldType) (ni nj nm : nat) (dt : F) (h : house F ni nj nm) (v0 : F),
  physical_boundaries h -> physical_rooms dt h -> leaky h -> (forall i, 0 < g_lh h i 0) -> 0 < v0 ->
  (forall i, 0 <= cap_h h i 0) -> (forall i, 0 <= cap_c h i 0) ->
  exists sigma tau kappa, [/\ 0 < sigma < 1, 0 <= tau < 1, 0 <= kappa &
  forall (infil : infil_fun F ni) (data : seq (step_data F ni nj)) (e0 : F) (x_sat : F -> F) (is_ground : pred 'I_nj)
    (td x0 x1 : F) (n_main n_run_up n_build n_run_up2 n_build2 : Z) g c log g2 c2 log2 (n0 : Z) (D T : F),
  (forall t t2 to, infil t to = infil t2 to) -> (forall t to i, 0 <= infil t to i 0) ->
  (forall s, List.In s data -> unattended dt h v0 s) ->
  simulation data e0 infil x_sat dt h (is_ground := is_ground) td (conditions_init ni nj nm x0) n_main n_run_up n_build g c log ->
  simulation data e0 infil x_sat dt h (is_ground := is_ground) td (conditions_init ni nj nm x1) n_main n_run_up2 n_build2 g2 c2 log2 ->
  (n_build <= n_run_up)%Z -> (n_build2 <= n_run_up2)%Z -> (- n_build <= n0)%Z -> (- n_build2 <= n0)%Z ->
  0 <= D -> 0 <= T -> humidity_within D (c n0) (c2 n0) -> gap dt h sigma (c n0) (c2 n0) <= T ^+ 2 ->
  forall n, (n0 <= n <= n_main)%Z -> humidity_within (tau ^+ Z.to_nat (n - n0) * (D + kappa * T)) (c n) (c2 n)].
Proof.
move=> F ni nj nm dt h v0 Hb Hr Hl gp v0p ch cc; have [sg [Hf Hv]] := rate_exists Hr Hl v0p.
have /andP[s0 s1] := fo_sigma Hf; have [q1 [q [Hq sq ql]]] := damp_rate_exists Hr v0p s1 gp.
have [qt t1] := midf_lt ql; have st := le_trans sq (ltW qt).
exists sg, ((q + 1) / 2%:R), (2%:R * c_air F / l_wtr F * warmth dt h / ((q + 1) / 2%:R - q)); split=> //; try by rewrite s0.
- by rewrite t1 andbT (le_trans (ltW s0)).
- by rewrite divr_ge0 ?kp_ge0 ?subr_ge0 // ltW.
move=> infil data e0 x_sat is_ground td x0 x1 n_main n_run_up n_build n_run_up2 n_build2 g c log g2 c2 log2 n0 D T fixed i0 un sim sim2
  le1 le2 b1 b2 D0 T0 near G n Hn.
exact: (damp_free Hr v0p Hq sim b1 sim2 b2 Hb Hf Hv ch cc fixed i0 un le1 le2 qt st D0 T0 near G Hn).
Qed.
Print Assumptions C75_free_partial.

(* Under constant conditions every such calculation settles at the humidity of the outdoor air plus what the sources and
   the people give off divided by the mass flow of outdoor air (Spec/Damp.v: damp_at_rest). Such a state exists. *)
Theorem C75_exists : forall (F : realFieldType) (ni nj nm : nat) (infil : infil_fun F ni) (h : house F ni nj nm) (s : step_data F ni nj)
    (c : conditions F ni nj nm) (theta_s : 'cV[F]_nj),
  at_rest infil h s c theta_s -> exists c2, [/\ at_rest infil h s c2 theta_s, damp_at_rest infil h s c2 & theta_r c2 = theta_r c].
Proof.
move=> F ni nj nm infil h s c ts S.
pose x : 'cV[F]_ni := \col_i (x_o s + (x_gen s i 0 + person_vapour (theta_r c i 0) * n_hum s i 0)
                        / (rho_air F * (infil (theta_r c) (theta_o s) i 0 + (v_vent_ex h i 0 + v_mec_local s i 0)))).
exists (Conditions (operation_mode c) (theta_r c) (theta_mrt_hum c) x (theta_dsh_a c) (theta_dsh_t c) (q_srf c) (theta_frt c) x (theta_ei c)).
by split=> // [|i]; [case: S | rewrite /= mxE].
Qed.
Print Assumptions C75_exists.

Theorem C75_settles_partial : forall (F : realFieldType) (ni nj nm : nat) (dt : F) (h : house F ni nj nm) (v0 : F),
  physical_boundaries h -> physical_rooms dt h -> physical_hum h -> leaky h -> unit_response h -> (forall i, 0 < g_lh h i 0) -> 0 < v0 ->
  (forall i, 0 <= cap_h h i 0) -> (forall i, 0 <= cap_c h i 0) ->
  exists sigma tau kappa, [/\ 0 < sigma < 1, 0 <= tau < 1, 0 <= kappa &
  forall (infil : infil_fun F ni) (s : step_data F ni nj) (c_rest : conditions F ni nj nm) (theta_s : 'cV[F]_nj),
  (forall t t2 to, infil t to = infil t2 to) -> (forall t to i, 0 <= infil t to i 0) ->
  unattended dt h v0 s -> (forall i, 0 <= v_ntrl h i 0) -> at_rest infil h s c_rest theta_s -> damp_at_rest infil h s c_rest ->
  forall (data : seq (step_data F ni nj)) (e0 : F) (x_sat : F -> F) (is_ground : pred 'I_nj) (td x0 : F) (n_main n_run_up n_build : Z) g c log
    (D T : F),
  (forall s', List.In s' data -> s' = s) ->
  simulation data e0 infil x_sat dt h (is_ground := is_ground) td (conditions_init ni nj nm x0) n_main n_run_up n_build g c log ->
  (n_build <= n_run_up)%Z -> 0 <= D -> 0 <= T ->
  humidity_within D (c (- n_build)%Z) c_rest -> gap dt h sigma (c (- n_build)%Z) c_rest <= T ^+ 2 ->
  forall n, (- n_build <= n <= n_main)%Z -> humidity_within (tau ^+ Z.to_nat (n + n_build) * (D + kappa * T)) (c n) c_rest].
Proof.
move=> F ni nj nm dt h v0 Hb Hr Hh Hl Hw gp v0p ch cc; have [sg [Hf Hv]] := rate_exists Hr Hl v0p.
have /andP[s0 s1] := fo_sigma Hf; have [q1 [q [Hq sq ql]]] := damp_rate_exists Hr v0p s1 gp.
have [qt t1] := midf_lt ql; have st := le_trans sq (ltW qt).
exists sg, ((q + 1) / 2%:R), (2%:R * c_air F / l_wtr F * warmth dt h / ((q + 1) / 2%:R - q)); split=> //; try by rewrite s0.
- by rewrite t1 andbT (le_trans (ltW s0)).
- by rewrite divr_ge0 ?kp_ge0 ?subr_ge0 // ltW.
move=> infil s cs ts fixed i0 un nt S R data e0 x_sat is_ground td x0 n_main n_run_up n_build g c log D T const sim le1 D0 T0 near G n Hn.
have Ha : physical_air h s by move=> i; split=> //; have [_ /(le_trans (ltW v0p))] := un i.
exact: (damp_settle Hb Hr Hh Ha Hw Hf Hv v0p Hq qt st ch cc fixed i0 un S R const sim le1 D0 T0 near G Hn).
Qed.
Print Assumptions C75_settles_partial.

(* Within any wanted accuracy after K steps, K depending on the house, v0, the accuracy and the distance at the start. *)
Theorem C75_limit_partial : forall (F : archiFieldType) (ni nj nm : nat) (dt : F) (h : house F ni nj nm) (v0 : F),
  physical_boundaries h -> physical_rooms dt h -> physical_hum h -> leaky h -> unit_response h -> (forall i, 0 < g_lh h i 0) -> 0 < v0 ->
  (forall i, 0 <= cap_h h i 0) -> (forall i, 0 <= cap_c h i 0) ->
  exists sigma, 0 < sigma < 1 /\ forall D T eps : F, 0 <= D -> 0 <= T -> 0 < eps -> exists K : nat,
  forall (infil : infil_fun F ni) (s : step_data F ni nj) (c_rest : conditions F ni nj nm) (theta_s : 'cV[F]_nj),
  (forall t t2 to, infil t to = infil t2 to) -> (forall t to i, 0 <= infil t to i 0) ->
  unattended dt h v0 s -> (forall i, 0 <= v_ntrl h i 0) -> at_rest infil h s c_rest theta_s -> damp_at_rest infil h s c_rest ->
  forall (data : seq (step_data F ni nj)) (e0 : F) (x_sat : F -> F) (is_ground : pred 'I_nj) (td x0 : F) (n_main n_run_up n_build : Z) g c log,
  (forall s', List.In s' data -> s' = s) ->
  simulation data e0 infil x_sat dt h (is_ground := is_ground) td (conditions_init ni nj nm x0) n_main n_run_up n_build g c log ->
  (n_build <= n_run_up)%Z ->
  humidity_within D (c (- n_build)%Z) c_rest -> gap dt h sigma (c (- n_build)%Z) c_rest <= T ^+ 2 ->
  forall n, (Z.of_nat K - n_build <= n <= n_main)%Z -> humidity_within eps (c n) c_rest.
Proof.
move=> F ni nj nm dt h v0 Hb Hr Hh Hl Hw gp v0p ch cc.
have [sg [tau [kappa [s01 t01 k0 H]]]] := C75_settles_partial Hb Hr Hh Hl Hw gp v0p ch cc.
exists sg; split=> // D T eps D0 T0 ep.
have [|K HK] := @geometric_vanishes F tau (D + kappa * T) eps t01 _ ep; first by rewrite addr_ge0 // mulr_ge0.
exists K => infil s cs ts fixed i0 un nt S R data e0 x_sat is_ground td x0 n_main n_run_up n_build g c log const sim le1 near G n [n1 n2].
have le : (- n_build <= n <= n_main)%Z by split=> //; apply: Z.le_trans n1; apply: (Zplus_le_compat_r 0); exact: Nat2Z.is_nonneg.
apply: within_le (H _ s cs ts fixed i0 un nt S R data e0 x_sat is_ground td x0 n_main n_run_up n_build g c log D T const sim le1 D0 T0 near G n le).
by apply/ltW/HK/ssrnat.leP; apply/Nat2Z.inj_le; rewrite Z2Nat.id; Lia.lia.
Qed.
Print Assumptions C75_limit_partial.

(* It is false where rooms get at least as much air from other rooms as from outside: with nobody at home and no coil at
   work a difference of at least m in all rooms stays at least m for ever. *)
Theorem C75_air_paths : forall (F : realFieldType) (ni nj nm : nat) (e0 : F) (infil : infil_fun F ni) (x_sat : F -> F)
    (dt : F) (h : house F ni nj nm) (s : step_data F ni nj) (c c' c2 c2' : conditions F ni nj nm) (o o2 : outputs F ni nj),
  physical_rooms dt h ->
  core_step e0 infil x_sat dt h s c = Some (c', o) -> core_step e0 infil x_sat dt h s c2 = Some (c2', o2) ->
  coils_idle o -> coils_idle o2 -> (forall i, air_from_outside h s o2 i = air_from_outside h s o i) -> (forall i, n_hum s i 0 = 0) ->
  (forall i, 0 <= air_from_outside h s o i <= \sum_k v_int h i k) ->
  forall m, 0 <= m -> (forall i, m <= x_r c2 i 0 - x_r c i 0 /\ m <= x_frt c2 i 0 - x_frt c i 0) ->
  forall i, m <= x_r c2' i 0 - x_r c' i 0 /\ m <= x_frt c2' i 0 - x_frt c' i 0.
Proof.
move=> F ni nj nm e0 infil x_sat dt h s c c' c2 c2' o o2 Hr E E2 i1 i2 same n0 air m m0 H.
by apply: (two_least Hr E E2 i1 i2 same m0 n0 air) => i; have [] := H i.
Qed.
Print Assumptions C75_air_paths.

(* Two rooms that exchange 48 m3/h, with 12 m3/h of outdoor air each: after d days the humidities calculated with one
   day of run-up exceed those calculated without it by 8190 x0 1.1^(96 d) kg/kg in total, x0 the humidity at the start. *)
Theorem C75_air_paths_refuted : forall (F : realFieldType) (e0 : F) (x_sat : F -> F) (x T x0 : F) (k : nat) (d : Z) (is_ground : pred 'I_2),
  0 <= x -> 0 <= x0 -> (0 <= d)%Z -> (d * 4 * 24 <= Z.of_nat k)%Z -> (1 * 4 * 24 <= Z.of_nat k)%Z ->
  physical_rooms 900%:R (twins F) /\ exists cf log cf2 log2,
  [/\ core_calc e0 (@draught F) x_sat x0 (twins F) is_ground (nseq k (appliance x T)) 4 d 0 0 = Ok (cf, log),
      core_calc e0 (@draught F) x_sat x0 (twins F) is_ground (nseq k (appliance x T)) 4 d 1 1 = Ok (cf2, log2)
    & 4095%:R * (2%:R * x0) * (11%:R / 10%:R) ^+ Z.to_nat (d * 4 * 24) <= x_r cf2 0 0 + x_r cf2 1 0 - (x_r cf 0 0 + x_r cf 1 0)].
Proof.
move=> F e0 x_sat x T x0 k d is_ground x_ge0 x0_ge0 d0 dk k1; split; first exact: twins_rooms.
exact: twins_damp_two.
Qed.
Print Assumptions C75_air_paths_refuted.

(* two people in each room, with no, one and two days of run-up; two rooms with an air path of 18 m3/h between them *)
Example C75_example (F : realFieldType) (T : F) :
  [/\ [/\ physical_boundaries (hout F), physical_rooms 900%:R (hout F), physical_hum (hout F), leaky (hout F) & unit_response (hout F)],
      0 < 1 / 100%:R :> F, (forall i, 0 < g_lh (hout F) i 0), (forall i, 0 <= cap_h (hout F) i 0) /\ (forall i, 0 <= cap_c (hout F) i 0)
    & (forall i, 0 <= v_ntrl (hout F) i 0)] /\
  [/\ (forall t t2 to, @infil2 F t to = infil2 t2 to) /\ (forall t to i, 0 <= @infil2 F t to i 0),
      unattended 900%:R (hout F) (1 / 100%:R) (lived T),
      exists c theta_s, at_rest (@infil2 F) (hout F) (lived T) c theta_s /\ damp_at_rest (@infil2 F) (hout F) (lived T) c,
      (forall s', List.In s' (lived_days T) -> s' = lived T)
    & forall d, (0 <= d <= 2)%Z -> exists g c log,
      simulation (lived_days T) (1 / 8%:R) (@infil2 F) (@moist_sat F) 900%:R (hout F) (theta_o_ave (lived_days T))
        (conditions_init 2 4 1 (4%:R / 1000%:R)) 96 (d * 4 * 24) (d * 4 * 24) (is_ground := ground2) g c log].
Proof.
split; split=> //.
- by split; [exact: hout_boundaries | exact: hout_rooms | exact: hout_hum | exact: hout_leaky | exact: hout_unit].
- by rewrite divr_gt0 ?ltr01 ?ltr0n.
- by move=> i; rewrite mxE ?divr_gt0 ?ltr01 ?ltr0n.
- by split=> i; rewrite mxE.
- by move=> i; rewrite mxE divr_ge0 ?ler01 ?ler0n.
- by split=> //; exact: infil2_ge0.
- exact: lived_unattended.
- have [c [ts S]] := lived_rest T.
  by have [c2 [S2 R2 _]] := C75_exists S; exists c2, ts.
- by move=> s' /in_lived.
- by move=> d; exact: lived_run_ex.
Qed.

Example C75_example_paths (F : realFieldType) (x T x1 x2 T1 T2 : F) :
  [/\ physical_rooms 900%:R (hsmall F), (forall i, 0 < g_lh (hsmall F) i 0), 0 < v_int (hsmall F) 0 1 & 0 < 1 / 1000%:R :> F] /\
  exists c' o c2' o2, [/\
    core_step (1 / 8%:R) (@infil2 F) (@x_sat2 F) 900%:R (hsmall F) (still x T) (moist x1 T1) = Some (c', o)
    /\ core_step (1 / 8%:R) (@infil2 F) (@x_sat2 F) 900%:R (hsmall F) (still x T) (moist x2 T2) = Some (c2', o2),
    coils_idle o /\ coils_idle o2, forall i, air_from_outside (hsmall F) (still x T) o2 i = air_from_outside (hsmall F) (still x T) o i,
    forall i, 1 / 1000%:R + \sum_k v_int (hsmall F) i k <= air_from_outside (hsmall F) (still x T) o i
    & humidity_within `|x2 - x1| (moist x1 T1) (moist x2 T2)].
Proof.
split.
  split; [exact: small_rooms | by move=> i; rewrite mxE ?divr_gt0 ?ltr01 ?ltr0n | by rewrite mxE /= divr_gt0 ?ltr01 ?ltr0n | by rewrite divr_gt0 ?ltr01 ?ltr0n].
have [|c' [o [E i1 a1]]] := @small_step F x T (moist x1 T1); first by [].
have [|c2' [o2 [E2 i2 a2]]] := @small_step F x T (moist x2 T2); first by [].
exists c', o, c2', o2; split=> // [i|i|i]; last by rewrite /= !mxE.
  by rewrite a1 a2.
rewrite a1; apply: le_trans (_ : 1 / 1000%:R + 1 / 200%:R <= _); first by rewrite ler_add2l small_row.
have -> : 1 / 200%:R = 5%:R / 1000%:R :> F by apply/eqP; rewrite eqr_div ?pnatr_eq0 // mul1r -natrM.
by rewrite -mulrDl ler_pmul2r ?invr_gt0 ?ltr0n // -(natrD _ 1 5) ler_nat.
Qed.

(* both rooms cooled, the furniture of different humidity *)
Example C75_example_cooled (F : realFieldType) (x1 x2 : F) :
  [/\ physical_rooms 900%:R (hx F), physical_air (hx F) (@step2 F), (forall i, 0 < g_lh (hx F) i 0) & (forall i k, i != k -> v_int (hx F) i k = 0)] /\
  exists c' o c2' o2,
  [/\ core_step (1 / 8%:R) (@infil2 F) (@x_sat2 F) 900%:R (hx F) (@step2 F) (cooled x1) = Some (c', o)
      /\ core_step (1 / 8%:R) (@infil2 F) (@x_sat2 F) 900%:R (hx F) (@step2 F) (cooled x2) = Some (c2', o2),
      same_heat (cooled x1) (cooled x2),
      same_targets (get_ot_target_and_h_hum (1 / 8%:R) (ni := 2)) (@step2 F) (cooled x1) (cooled x2),
      coils_alike (hx F) c' c2' o o2
    & humidity_within `|x2 - x1| (cooled x1) (cooled x2)].
Proof.
have nv i k : i != k -> v_int (hx F) i k = 0 by move=> _; exact: hx_int.
split; first by split=> //; [exact: hx_rooms | exact: house2_air | by move=> i; rewrite mxE ?divr_gt0 ?ltr01 ?ltr0n].
have [c' [o E]] := cooled_step x1; have [c2' [o2 E2]] := cooled_step x2.
have S : same_heat (cooled x1) (cooled x2) by [].
have T : same_targets (get_ot_target_and_h_hum (1 / 8%:R) (ni := 2)) (@step2 F) (cooled x1) (cooled x2).
  by move=> hc hr md lo up hc2 hr2 md2 lo2 up2 -> [_ _ -> -> ->].
have [[[_ tE _ _] _ _ _ _] [[_ _ lE _] _ _]] := C75_heat E E2 S T.
exists c', o, c2', o2; split=> // i; last by rewrite /= !mxE subrr normr0.
by right; split; rewrite /removed ?lE ?tE // => k; exact: nv.
Qed.

(* the two people, with two humidities at the start *)
Example C75_example_operated (F : realFieldType) (T x0 x1 : F) :
  physical_air (hout F) (lived T) /\ exists g c log g2 c2 log2,
  [/\ simulation (lived_days T) (1 / 8%:R) (@infil2 F) (@moist_sat F) 900%:R (hout F) (theta_o_ave (lived_days T))
        (conditions_init 2 4 1 x0) 96 96 96 (is_ground := ground2) g c log,
      simulation (lived_days T) (1 / 8%:R) (@infil2 F) (@moist_sat F) 900%:R (hout F) (theta_o_ave (lived_days T))
        (conditions_init 2 4 1 x1) 96 96 96 (is_ground := ground2) g2 c2 log2,
      same_heat (c (-96)%Z) (c2 (-96)%Z), humidity_within `|x1 - x0| (c (-96)%Z) (c2 (-96)%Z)
    & forall n, same_targets (get_ot_target_and_h_hum (1 / 8%:R) (ni := 2)) (lived T) (c n) (c2 n)].
Proof.
split; first exact: lived_air.
have [g [c [log S]]] := @lived_run_from F x0 1 T (ltac:(Lia.lia) : (0 <= 1 <= 2)%Z).
have [g2 [c2 [log2 S2]]] := @lived_run_from F x1 1 T (ltac:(Lia.lia) : (0 <= 1 <= 2)%Z).
have gE : g2 (-96)%Z = g (-96)%Z by rewrite (sim_g0 S : g (-96)%Z = _) (sim_g0 S2 : g2 (-96)%Z = _).
have cE : c (-96)%Z = _ := sim_c0 S; have cE2 : c2 (-96)%Z = _ := sim_c0 S2.
exists g, c, log, g2, c2, log2; split=> //; rewrite ?cE ?cE2 -/(-96)%Z ?gE.
- by [].
- by move=> i; rewrite /= !mxE.
- by move=> n; apply: same_targets_off => i; rewrite mxE.
Qed.
