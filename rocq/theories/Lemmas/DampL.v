(* The humidity at the start is forgotten (C75). *)
From Coq Require Import ZArith Lia.
From mathcomp Require Import all_ssreflect ssralg ssrnum zmodp matrix.
From Coq Require Import Ring Field.
From Verif Require Import Model.OperationMode Model.Numpy Model.NextCondition Model.HeatExchanger Model.PreCalc Model.Tick Model.Step Model.OtTarget Model.CoreStep
  Model.Ground Model.CoreCalc Model.Dec Spec.Physical Spec.StepEq Spec.Coil Spec.Simulation Spec.Forget Spec.Steady Spec.Settle Spec.Damp.
From Verif Require Import Lemmas.FieldTac Lemmas.NumpyL Lemmas.NextConditionL Lemmas.TickL Lemmas.TickBalance Lemmas.MMatrix Lemmas.TickTotal
  Lemmas.TickEquil Lemmas.TickMoist Lemmas.StepL Lemmas.StepProps Lemmas.DehumidL Lemmas.HumidityL Lemmas.CoreStepL Lemmas.GroundL Lemmas.ForgetL Lemmas.SettleL Lemmas.ReorderL.
Set Implicit Arguments. Unset Strict Implicit. Unset Printing Implicit Defensive.
Import Order.TTheory GRing.Theory Num.Theory.
Local Open Scope ring_scope.

Section Diff.
Variable F : realFieldType.
Add Field Ffield : (ffield_theory F).
Ltac fring := ffold F; ring.
Ltac ffield := ffold F; field.
Variables ni nj nm : nat.
Variables (dt : F) (h : house F ni nj nm).
Hypothesis Hr : physical_rooms dt h.

Local Notation a i := (rho_air F * v_room h i 0 / dt).
Local Notation G i := (c_lh h i 0 * g_lh h i 0 / (c_lh h i 0 + dt * g_lh h i 0)).
Local Notation cd i := (c_lh h i 0 + dt * g_lh h i 0).

Lemma a_gt0 i : 0 < a i. Proof. by rewrite divr_gt0 ?(ph_dt Hr) //; apply: mulr_gt0 (ph_room Hr i); exact: rho_air_gt0. Qed.
Lemma dg_ge0 i : 0 <= dt * g_lh h i 0. Proof. by rewrite mulr_ge0 ?(ph_g_lh Hr) // ltW ?(ph_dt Hr). Qed.
Lemma cd_gt0 i : 0 < cd i. Proof. by rewrite ltr_paddr ?(ph_c_lh Hr) ?dg_ge0. Qed.
Lemma G_ge0 i : 0 <= G i. Proof. by rewrite divr_ge0 ?(ltW (cd_gt0 i)) // mulr_ge0 ?(ph_g_lh Hr) // ltW ?(ph_c_lh Hr). Qed.

(* differences of two solutions of the moisture balances; p: different sources *)
Section Pair.
Variables (d e d' e' p va : 'I_ni -> F).
Hypothesis E1 : forall i, a i * (d' i - d i) = - (rho_air F * va i * d' i) + p i + g_lh h i 0 * (e' i - d' i)
  + rho_air F * \sum_k v_int h i k * d' k.
Hypothesis E2 : forall i, c_lh h i 0 * (e' i - e i) / dt = g_lh h i 0 * (d' i - e' i).

Lemma pair_furniture i : cd i * e' i = c_lh h i 0 * e i + dt * g_lh h i 0 * d' i.
Proof.
have dn : dt != 0 by rewrite gt_eqF ?(ph_dt Hr).
have -> : cd i * e' i = c_lh h i 0 * (e' i - e i) / dt * dt + c_lh h i 0 * e i + dt * g_lh h i 0 * e' i by rewrite divfK //; fring.
by rewrite E2; fring.
Qed.

Lemma pair_room i : (a i + G i + rho_air F * va i) * d' i = a i * d i + G i * e i + p i + rho_air F * \sum_k v_int h i k * d' k.
Proof.
have cn : cd i != 0 by rewrite gt_eqF ?cd_gt0.
have K : g_lh h i 0 * (e' i - d' i) = G i * (e i - d' i).
  apply: (mulfI cn); have -> : cd i * (G i * (e i - d' i)) = c_lh h i 0 * g_lh h i 0 * (e i - d' i).
    by rewrite mulrA [cd i * _]mulrC divfK.
  have -> : cd i * (g_lh h i 0 * (e' i - d' i)) = g_lh h i 0 * (cd i * e' i) - g_lh h i 0 * cd i * d' i by fring.
  by rewrite pair_furniture; fring.
have := E1 i; rewrite K; set S := \sum_k _; move: (a i) (G i) => A H E.
have -> : A * d i + H * e i + p i + rho_air F * S = A * d i + H * d' i + rho_air F * va i * d' i
   + (- (rho_air F * va i * d' i) + p i + H * (e i - d' i) + rho_air F * S) by fring.
by rewrite -E; fring.
Qed.

Lemma pair_least (m : F) (i : 'I_ni) : 0 <= m -> (forall i, m <= d i) -> (forall i, m <= e i) -> (forall i, 0 <= p i) -> (forall i, 0 <= va i) ->
  (forall i, va i <= \sum_k v_int h i k) -> m <= d' i /\ m <= e' i.
Proof.
move=> m0 md me p0 v0 vi.
suff M k : m <= d' k.
  split=> //; rewrite -(ler_pmul2l (cd_gt0 i)) pair_furniture mulrDl; apply: ler_add; first by rewrite ler_wpmul2l // ltW ?(ph_c_lh Hr).
  by rewrite ler_wpmul2l ?dg_ge0.
pose j := [arg min_(j < k) d' j]%O.
have jmin l : d' j <= d' l by rewrite /j; case: arg_minP => // z _; apply.
apply: le_trans (jmin k).
have r0 := rho_air_gt0 F; have ap := a_gt0 j; have Gp := G_ge0 j.
have S1 : (\sum_k v_int h j k) * d' j <= \sum_k v_int h j k * d' k.
  by rewrite mulr_suml; apply: ler_sum => l _; rewrite ler_wpmul2l ?(ph_v_int Hr).
have := pair_room j; set S := \sum_k _ * _; set I := \sum_k v_int h j k in S1 => E.
have L : (a j + G j) * m + rho_air F * I * d' j <= (a j + G j + rho_air F * va j) * d' j.
  rewrite E -[rho_air F * I * _]mulrA mulrDl; apply: ler_add; last by rewrite ler_pmul2l.
  by apply: ler_paddr => //; apply: ler_add; rewrite ler_wpmul2l // ltW.
have L2 : (a j + G j) * m <= (a j + G j + rho_air F * va j - rho_air F * I) * d' j by rewrite mulrBl ler_subr_addr.
have Ia : rho_air F * I < a j.
  by rewrite -mulrA ltr_pmul2l // (ph_v_int_sum Hr).
have cp : 0 < a j + G j + rho_air F * va j - rho_air F * I.
  rewrite subr_gt0; apply: lt_le_trans Ia _; rewrite -addrA ler_addl addr_ge0 //; apply: mulr_ge0 (v0 j); exact: ltW.
have d0 : 0 <= d' j.
  by rewrite -(pmulr_rge0 _ cp); apply: le_trans L2; rewrite mulr_ge0 // addr_ge0 // ltW.
have agp : 0 < a j + G j by exact: ltr_paddr Gp ap.
have le : a j + G j + rho_air F * va j - rho_air F * I <= a j + G j.
  rewrite -[leLHS]addrA ger_addl subr_le0 ler_pmul2l //; exact: vi.
by rewrite -(ler_pmul2l agp); apply: le_trans L2 _; rewrite ler_wpmul2r.
Qed.

Variables (q1 q v0 D P : F).
Hypothesis v0p : 0 < v0.
Hypothesis q1q : q1 <= q.
Hypothesis Hq1 : forall i, a i + G i <= q1 * (a i + G i + rho_air F * v0).
Hypothesis Hq : forall i, c_lh h i 0 + dt * g_lh h i 0 * q1 <= q * cd i.
Hypothesis air : forall i, v0 + \sum_k v_int h i k <= va i.
Hypothesis D0 : 0 <= D.
Hypothesis P0 : 0 <= P.
Hypothesis dD : forall i, `|d i| <= D.
Hypothesis eD : forall i, `|e i| <= D.
Hypothesis pP : forall i, `|p i| <= a i * P.

Lemma pair_air i : `|d' i| <= q1 * D + P.
Proof.
pose j := [arg max_(j > i) `|d' j|]%O.
have jmax l : `|d' l| <= `|d' j| by rewrite /j; case: arg_maxP => // z _; apply.
apply: le_trans (jmax i) _.
have r0 := rho_air_gt0 F; have ap := a_gt0 j; have Gp := G_ge0 j; have aj := air j.
have I0 : 0 <= \sum_k v_int h j k by apply: sumr_ge0 => k _; exact: (ph_v_int Hr).
have vp : 0 < va j by apply: lt_le_trans aj; rewrite ltr_paddr.
have cp : 0 < a j + G j + rho_air F * v0 by rewrite addr_gt0 ?ltr_paddr // mulr_gt0.
have L : (a j + G j + rho_air F * va j) * `|d' j| <= (a j + G j) * D + a j * P + rho_air F * (\sum_k v_int h j k) * `|d' j|.
  have np : 0 < a j + G j + rho_air F * va j by rewrite addr_gt0 ?ltr_paddr // mulr_gt0.
  rewrite -{1}(gtr0_norm np) -normrM pair_room.
  apply: le_trans (ler_norm_add _ _) _; apply: ler_add.
    apply: le_trans (ler_norm_add _ _) _; apply: ler_add; last exact: pP.
    rewrite mulrDl; apply: le_trans (ler_norm_add _ _) _; apply: ler_add; rewrite normrM.
      by rewrite (gtr0_norm ap) ler_pmul2l.
    by rewrite (ger0_norm Gp) ler_wpmul2l.
  rewrite normrM (gtr0_norm r0) -mulrA ler_pmul2l // mulr_suml; apply: le_trans (ler_norm_sum _ _ _) _.
  by apply: ler_sum => k _; rewrite normrM (ger0_norm (ph_v_int Hr j k)) ler_wpmul2l ?(ph_v_int Hr).
rewrite -(ler_pmul2l cp).
apply: le_trans (_ : (a j + G j) * D + a j * P <= _).
  rewrite -(ler_add2r (rho_air F * (\sum_k v_int h j k) * `|d' j|)); apply: le_trans L; rewrite -mulrDl ler_wpmul2r //.
  by rewrite -[leLHS]addrA ler_add2l -mulrDr ler_pmul2l.
rewrite [leRHS]mulrDr; apply: ler_add; first by rewrite mulrA [_ * q1]mulrC ler_wpmul2r.
by rewrite ler_wpmul2r // -addrA ler_addl addr_ge0 // mulr_ge0 // ltW.
Qed.

Lemma pair_all i : `|d' i| <= q * D + P /\ `|e' i| <= q * D + P.
Proof.
have A := pair_air i; split; first by apply: le_trans A _; rewrite ler_add2r ler_wpmul2r.
have cp := cd_gt0 i; have dg := dg_ge0 i; have c0 := ph_c_lh Hr i.
rewrite -(ler_pmul2l cp) -{1}(gtr0_norm cp) -normrM pair_furniture.
apply: le_trans (ler_norm_add _ _) _; rewrite [`|_ * e i|]normrM [`|_ * d' i|]normrM (gtr0_norm c0) (ger0_norm dg).
apply: le_trans (_ : c_lh h i 0 * D + dt * g_lh h i 0 * (q1 * D + P) <= _).
  by apply: ler_add; rewrite ler_wpmul2l // ltW.
have -> : c_lh h i 0 * D + dt * g_lh h i 0 * (q1 * D + P) = (c_lh h i 0 + dt * g_lh h i 0 * q1) * D + dt * g_lh h i 0 * P by fring.
have -> : cd i * (q * D + P) = q * cd i * D + cd i * P by fring.
by apply: ler_add; rewrite ler_wpmul2r // ler_addr ltW.
Qed.
End Pair.

(* rates *)
Definition damp_rate (v0 q1 q : F) : Prop := [/\ 0 <= q1, q1 <= 1, q1 <= q,
  forall i, a i + G i <= q1 * (a i + G i + rho_air F * v0) & forall i, c_lh h i 0 + dt * g_lh h i 0 * q1 <= q * cd i].

Lemma damp_rate_exists (v0 s : F) : 0 < v0 -> s < 1 -> (forall i, 0 < g_lh h i 0) -> exists q1 q, [/\ damp_rate v0 q1 q, s <= q & q < 1].
Proof.
move=> v0p s1 gp; have rp : 0 < rho_air F * v0 by rewrite mulr_gt0 ?rho_air_gt0.
have cp i : 0 < a i + G i + rho_air F * v0.
  by rewrite addr_gt0 // ltr_paddr ?G_ge0 ?a_gt0.
have [t1 lt1 T1] : near_one (fun x : F => forall i, (a i + G i) / (a i + G i + rho_air F * v0) <= x).
  by apply: near_all => i; apply: near_ge; rewrite ltr_pdivr_mulr ?cp // mul1r ltr_addl.
pose q1 := Num.max t1 0; have q1lt : q1 < 1 by rewrite lt_maxl lt1 ltr01.
have H1 i : (a i + G i) / (a i + G i + rho_air F * v0) <= q1 by apply: T1; rewrite ?le_maxr ?lexx.
have [t2 lt2 T2] : near_one (fun x : F => forall i, (c_lh h i 0 + dt * g_lh h i 0 * q1) / cd i <= x).
  apply: near_all => i; apply: near_ge; rewrite ltr_pdivr_mulr ?cd_gt0 // mul1r ltr_add2l.
  by rewrite gtr_pmulr // mulr_gt0 ?(ph_dt Hr).
pose q := Num.max (Num.max t2 q1) s; have qlt : q < 1 by rewrite lt_maxl lt_maxl lt2 q1lt s1.
exists q1, q; split=> //; last by rewrite le_maxr lexx orbT.
split.
- by rewrite le_maxr lexx orbT.
- exact: ltW.
- by rewrite le_maxr le_maxr [q1 <= q1]lexx orbT.
- by move=> i; rewrite -ler_pdivr_mulr.
- by move=> i; rewrite -ler_pdivr_mulr ?cd_gt0 //; apply: T2; rewrite // !le_maxr lexx.
Qed.
End Diff.

(* people: vapour grows with temperature, by at most 4 W/K *)
Section People.
Variable F : realFieldType.
Lemma x_hum_lip (t t2 T : F) : `|t2 - t| <= T -> `|x_hum_psn t2 - x_hum_psn t| <= 4%:R * T / l_wtr F.
Proof.
move=> tT; have l0 := l_wtr_gt0 F; have [l [/andP[l1 l2] E]] := q_hum_slope t t2.
have -> : x_hum_psn t2 - x_hum_psn t = l * (t2 - t) / l_wtr F.
  rewrite /x_hum_psn -mulrBl; congr (_ / _).
  by rewrite opprB addrC addrA subrK -[LHS]opprB E mulNr opprK.
rewrite normrM normfV (gtr0_norm l0) ler_pmul2r ?invr_gt0 // normrM (ger0_norm l1); exact: ler_pmul.
Qed.
End People.

(* humidity reaches the temperatures through the targets of the equipment only *)
Section Apart.
Variable F : realFieldType.
Variables ni nj nm : nat.
Variables (e0 : F) (infil : infil_fun F ni) (x_sat : F -> F) (dt : F) (h : house F ni nj nm) (s : step_data F ni nj).
Local Notation ot := (get_ot_target_and_h_hum e0 (ni := ni)).

Lemma re_id m n (A : 'M[F]_(m, n)) : re id id A = A. Proof. by apply/matrixP => i j; rewrite mxE. Qed.

Lemma next_temp_same rh rc brc brm brl lo up ch cc (md md2 : 'I_ni -> mode) ac : (forall i, md2 i = md i) ->
  calc_next_temp_and_load rh rc brc brm brl lo up ch cc md2 ac = calc_next_temp_and_load (F := F) rh rc brc brm brl lo up ch cc md ac.
Proof.
move=> mE; have := @next_tempE F ni id (fun _ _ e => e) rh rh rc rc brc brm brl lo up ch cc md md2 ac (fun=> erefl) (fun=> erefl) mE.
by rewrite !re_id => ->; case: (calc_next_temp_and_load _ _ _ _ _ _ _ _ _ _ _) => [[[u w] z]|] //=; rewrite !re_id.
Qed.

Lemma heat_apart c c' c2 c2' o o2 : core_step e0 infil x_sat dt h s c = Some (c', o) -> core_step e0 infil x_sat dt h s c2 = Some (c2', o2) ->
  same_heat c c2 -> same_targets ot s c c2 -> same_heat c' c2' /\ same_flows o o2.
Proof.
case: c => om tr mr xr da dt' qs tf xf ei; case: c2 => om2 tr2 mr2 xr2 da2 dt2 qs2 tf2 xf2 ei2 H1 H2 [/= []] e1 e2 e3 e4 e5 e6 e7 e8.
subst tr2 mr2 tf2 da2 dt2 qs2 ei2 => E; move: H1 H2 E; rewrite /core_step /step /same_targets; case: (make_pp h dt) => [q|//].
rewrite /run_tick; cbv zeta; cbn [x_r operation_mode theta_r theta_mrt_hum theta_frt x_frt theta_dsh_a theta_dsh_t q_srf theta_ei].
have hE (x : 'cV[F]_ni) m hc hr md lo up : ot x m tr mr (ac_demand s) = Some (hc, hr, md, lo, up) ->
    hc = \matrix_(i, j) h_hum_c F /\ hr = \matrix_(i, j) h_hum_r F.
  by rewrite /get_ot_target_and_h_hum; case: ifP => // _ [-> -> _ _ _].
case E1: (ot xr _ _ _ _) => [[[[[hc hr] md] lo] up]|//]; case E2: (ot xr2 _ _ _ _) => [[[[[hc2 hr2] md2] lo2] up2]|//].
have [h1 h2] := hE _ _ _ _ _ _ _ E1; have [h3 h4] := hE _ _ _ _ _ _ _ E2; rewrite {}h3 {}h4 -{}h1 -{}h2.
move=> H1 H2 /(_ _ _ _ _ _ _ _ _ _ _ erefl erefl) [mE lE uE]; move: H1 H2; rewrite {}lE {}uE.
have vE : vwhere (fun i => mode_eqb (md2 i) STOP_OPEN) (v_ntrl h) 0 = vwhere (fun i => mode_eqb (md i) STOP_OPEN) (v_ntrl h) 0.
  by apply/matrixP => i j; rewrite !mxE mE.
rewrite {}vE; case: (inv _) => [xot|//]; rewrite (next_temp_same _ _ _ _ _ _ _ _ _ _ mE).
case: (calc_next_temp_and_load _ _ _ _ _ _ _ _ _ _ _) => [[[tot lcs] lhs]|//].
case: (inv _) => [b|//].
case: (get_dehumid_coeff _ _ _ _ _ _ _ _) => [b1 b2]; case: (inv (_ + b1)) => [i1|//] [<- <-].
by case: (get_dehumid_coeff _ _ _ _ _ _ _ _) => [b3 b4]; case: (inv _) => [i3|//] [<- <-].
Qed.

(* nobody asks for heating or cooling *)
Lemma same_targets_off c c2 : (forall i, ac_demand s i 0 <= 0) -> same_targets ot s (c : conditions F ni nj nm) c2.
Proof.
move=> off hc hr md lo up hc2 hr2 md2 lo2 up2; rewrite /get_ot_target_and_h_hum; case: ifP => // _ [_ _ <- <- <-]; case: ifP => // _ [_ _ <- <- <-].
have st x m t mr i : (if ot_target_pmv e0 x m t mr (ac_demand s i 0) is Some (m, _) then m else STOP_CLOSE) = STOP_CLOSE.
  by rewrite /ot_target_pmv /get_operation_mode; have := off i; case: ltP.
by split=> [i| |]; rewrite ?st //; apply/matrixP => i j; rewrite !mxE !st.
Qed.
End Apart.

Section Steps.
Variable F : realFieldType.
Add Field Ffield3 : (ffield_theory F).
Ltac fring := ffold F; ring.
Variables ni nj nm : nat.
Variables (e0 : F) (infil : infil_fun F ni) (x_sat : F -> F) (dt : F) (h : house F ni nj nm).
Hypothesis Hr : physical_rooms dt h.

(* the moisture balances of a step without condensation *)
Lemma damp_eqs s c c' o i : core_step e0 infil x_sat dt h s c = Some (c', o) -> coils_idle o ->
  rho_air F * v_room h i 0 / dt * (x_r c' i 0 - x_r c i 0) = rho_air F * air_from_outside h s o i * (x_o s - x_r c' i 0)
    + x_gen s i 0 + x_hum_psn (theta_r c i 0) * n_hum s i 0 + g_lh h i 0 * (x_frt c' i 0 - x_r c' i 0)
    + rho_air F * (\sum_k v_int h i k * x_r c' k 0) /\
  c_lh h i 0 * (x_frt c' i 0 - x_frt c i 0) / dt = g_lh h i 0 * (x_r c' i 0 - x_frt c' i 0).
Proof.
move=> Hs Hc; split; last by have [] := core_furniture Hs i Hr.
have := core_vapour Hs i Hr; rewrite /vapour_balance (step_no_cooling Hs (Hc i)) (step_x_hum Hs) mulrAC => ->.
by rewrite oppr0 mul0r subr0.
Qed.

Section Two.
Variables (s : step_data F ni nj) (c c' c2 c2' : conditions F ni nj nm) (o o2 : outputs F ni nj).
Hypothesis H1 : core_step e0 infil x_sat dt h s c = Some (c', o).
Hypothesis H2 : core_step e0 infil x_sat dt h s c2 = Some (c2', o2).
Hypothesis C1 : coils_idle o.
Hypothesis C2 : coils_idle o2.
Hypothesis same : forall i, air_from_outside h s o2 i = air_from_outside h s o i.

Let d i := x_r c2 i 0 - x_r c i 0.
Let d' i := x_r c2' i 0 - x_r c' i 0.
Let e i := x_frt c2 i 0 - x_frt c i 0.
Let e' i := x_frt c2' i 0 - x_frt c' i 0.
Let p i := (x_hum_psn (theta_r c2 i 0) - x_hum_psn (theta_r c i 0)) * n_hum s i 0.

Lemma two_rows i : rho_air F * v_room h i 0 / dt * (d' i - d i) = - (rho_air F * air_from_outside h s o i * d' i) + p i
  + (o_l_cl o2 i 0 - o_l_cl o i 0) / l_wtr F + g_lh h i 0 * (e' i - d' i) + rho_air F * \sum_k v_int h i k * d' k.
Proof.
have E1 := core_vapour H1 i Hr; have E2 := core_vapour H2 i Hr; move: E1 E2; rewrite /vapour_balance (step_x_hum H1) (step_x_hum H2) same.
have -> : \sum_k v_int h i k * d' k = \sum_k v_int h i k * x_r c2' k 0 - \sum_k v_int h i k * x_r c' k 0.
  by rewrite -sumrB; apply: eq_bigr => k _; rewrite /d' mulrBr.
move: (\sum_k _ * x_r c' _ _) (\sum_k _ * x_r c2' _ _) => S S2.
rewrite ![_ * (_ - _) / dt]mulrAC.
move: (rho_air F * v_room h i 0 / dt) (air_from_outside h s o i) (l_wtr F)^-1 => A V w E1 E2.
have -> : A * (d' i - d i) = A * (x_r c2' i 0 - x_r c2 i 0) - A * (x_r c' i 0 - x_r c i 0) by rewrite /d /d'; fring.
rewrite E1 E2 /d' /e' /p; fring.
Qed.

(* coils at work take more from the more humid room *)
Lemma two_coils : physical_air h s -> (forall t to i, 0 <= infil t to i 0) -> coils_alike h c' c2' o o2 ->
  exists w : 'I_ni -> F, (forall i, 0 <= w i) /\ forall i, (o_l_cl o2 i 0 - o_l_cl o i 0) / l_wtr F = - (w i * d' i).
Proof.
move=> Ha i0 alike.
suff H i : exists w : F, 0 <= w /\ (o_l_cl o2 i 0 - o_l_cl o i 0) / l_wtr F = - (w * d' i).
  have [w W] := @fin_all_exists _ (fun=> F) (fun i (w : F) => 0 <= w /\ (o_l_cl o2 i 0 - o_l_cl o i 0) / l_wtr F = - (w * d' i)) H.
  by exists w; split=> i; have [] := W i.
have idle : removed o i <= 1 / 1000%:R -> removed o2 i <= 1 / 1000%:R -> exists w : F, 0 <= w /\ (o_l_cl o2 i 0 - o_l_cl o i 0) / l_wtr F = - (w * d' i).
  by move=> r r2; exists 0; rewrite (step_no_cooling H1 r) (step_no_cooling H2 r2) subrr !mul0r oppr0.
have [[r r2]|[iv rE tE]] := alike i; first exact: idle.
case: (lerP (removed o i) (1 / 1000%:R)) => [r|r]; first by apply: idle; rewrite ?rE.
have [L1 _] := step_latent H1 Hr Ha i0 iv; have [L2 _] := step_latent H2 Hr Ha i0 iv.
have fE : airflow h o2 i = airflow h o i by rewrite /airflow rE.
have uE : coil_humidity x_sat h c2' o2 i = coil_humidity x_sat h c' o i by rewrite /coil_humidity rE tE fE.
move: L1 L2; rewrite rE r fE uE.
have f0 : 0 <= rho_air F * ((1 - bypass F) * airflow h o i).
  exact: mulr_ge0 (ltW (rho_air_gt0 F)) (mulr_ge0 (ltW (bf_lt1 F)) (coil_flow_ge0 Hr r)).
move: (coil_humidity _ _ _ _ _) f0; move: (rho_air F * _) => k u k0 -> ->.
have l0 : l_wtr F != 0 by rewrite gt_eqF ?l_wtr_gt0.
have -> : (- (l_wtr F * k * Num.max 0 (x_r c2' i 0 - u)) - - (l_wtr F * k * Num.max 0 (x_r c' i 0 - u))) / l_wtr F
  = - (k * (Num.max 0 (x_r c2' i 0 - u) - Num.max 0 (x_r c' i 0 - u))).
  by apply: (mulIf l0); rewrite mulfVK //; move: (Num.max _ _) (Num.max _ _) => a b; fring.
have [w [w0 wE]] : exists w : F, 0 <= w /\ Num.max 0 (x_r c2' i 0 - u) - Num.max 0 (x_r c' i 0 - u) = w * d' i.
  rewrite /d'; move: (x_r c2' i 0) (x_r c' i 0) => y x.
  case: (eqVneq y x) => [->|yx]; first by exists 0; rewrite !subrr mul0r.
  have n0 : y - x != 0 by rewrite subr_eq0.
  exists ((Num.max 0 (y - u) - Num.max 0 (x - u)) / (y - x)); rewrite mulfVK //; split=> //.
  have mono (a b : F) : a <= b -> Num.max 0 (a - u) <= Num.max 0 (b - u).
    by move=> ab; rewrite le_maxl !le_maxr lexx ler_add2r ab orbT.
  case: (ltrP x y) => [lt|le]; first by rewrite divr_ge0 ?subr_ge0 ?(ltW lt) // mono // ltW.
  by rewrite -mulrNN -invrN !opprB divr_ge0 ?subr_ge0 // mono.
exists (k * w); rewrite wE mulrA; split=> //; exact: mulr_ge0.
Qed.

Lemma two_room i : rho_air F * v_room h i 0 / dt * (d' i - d i) = - (rho_air F * air_from_outside h s o i * d' i) + p i
  + g_lh h i 0 * (e' i - d' i) + rho_air F * \sum_k v_int h i k * d' k.
Proof. by rewrite two_rows (step_no_cooling H1 (C1 i)) (step_no_cooling H2 (C2 i)) subrr mul0r addr0. Qed.

Lemma two_furniture i : c_lh h i 0 * (e' i - e i) / dt = g_lh h i 0 * (d' i - e' i).
Proof.
have [_ E1] := core_furniture H1 i Hr; have [_ E2] := core_furniture H2 i Hr.
have -> : g_lh h i 0 * (d' i - e' i) = g_lh h i 0 * (x_r c2' i 0 - x_frt c2' i 0) - g_lh h i 0 * (x_r c' i 0 - x_frt c' i 0) by rewrite /d' /e'; fring.
rewrite -E1 -E2 /e /e'; move: (dt^-1) => w; fring.
Qed.

(* with more air from other rooms than from outside nothing is forgotten *)
Lemma two_least m : 0 <= m -> (forall i, n_hum s i 0 = 0) -> (forall i, 0 <= air_from_outside h s o i <= \sum_k v_int h i k) ->
  (forall i, m <= x_r c2 i 0 - x_r c i 0) -> (forall i, m <= x_frt c2 i 0 - x_frt c i 0) ->
  forall i, m <= x_r c2' i 0 - x_r c' i 0 /\ m <= x_frt c2' i 0 - x_frt c' i 0.
Proof.
move=> m0 n0 va md me i; apply: (pair_least Hr two_room two_furniture i m0 md me) => k; try by have /andP[] := va k.
by rewrite /p n0 mulr0.
Qed.

Variables (v0 q1 q D T : F).
Hypothesis v0p : 0 < v0.
Hypothesis Hq : damp_rate dt h v0 q1 q.
Hypothesis air : forall i, v0 + \sum_k v_int h i k <= air_from_outside h s o i.
Hypothesis D0 : 0 <= D.
Hypothesis T0 : 0 <= T.
Hypothesis crowd : forall i, 0 <= n_hum s i 0 /\ 4%:R * n_hum s i 0 <= 2%:R * (v_room h i 0 * cap_air F / dt).
Hypothesis near : humidity_within D c c2.
Hypothesis warm : forall i, n_hum s i 0 != 0 -> `|theta_r c2 i 0 - theta_r c i 0| <= T.

Lemma people_damp i (t t2 : F) : (n_hum s i 0 != 0 -> `|t2 - t| <= T) ->
  `|(x_hum_psn t2 - x_hum_psn t) * n_hum s i 0| <= rho_air F * v_room h i 0 / dt * (2%:R * c_air F / l_wtr F * T).
Proof.
move=> tT; have [n0 n4] := crowd i; have l0 := l_wtr_gt0 F; have d0 := ph_dt Hr.
have r0 := rho_air_gt0 F; have ca := c_air_gt0 F; have vp := ph_room Hr i.
case: (eqVneq (n_hum s i 0) 0) => [->|nz].
  rewrite mulr0 normr0; apply: mulr_ge0; first exact: ltW (a_gt0 Hr i).
  by apply: mulr_ge0 => //; apply: divr_ge0 (ltW l0); apply: mulr_ge0 (ltW ca); rewrite ler0n.
rewrite normrM (ger0_norm n0).
apply: le_trans (_ : 4%:R * T / l_wtr F * n_hum s i 0 <= _); first by rewrite ler_wpmul2r // x_hum_lip ?tT.
have -> : 4%:R * T / l_wtr F * n_hum s i 0 = 4%:R * n_hum s i 0 * (T / l_wtr F) by move: (l_wtr F)^-1 (4%:R : F) => u w; fring.
have -> : rho_air F * v_room h i 0 / dt * (2%:R * c_air F / l_wtr F * T) = 2%:R * (v_room h i 0 * cap_air F / dt) * (T / l_wtr F).
  by rewrite /cap_air; move: (l_wtr F)^-1 (dt^-1) (2%:R : F) => u w z; fring.
by rewrite ler_wpmul2r // divr_ge0 // ltW.
Qed.

Lemma two_near_by (w : 'I_ni -> F) P : (forall i, 0 <= w i) -> (forall i, (o_l_cl o2 i 0 - o_l_cl o i 0) / l_wtr F = - (w i * d' i)) ->
  0 <= P -> (forall i, `|p i| <= rho_air F * v_room h i 0 / dt * P) -> humidity_within (q * D + P) c' c2'.
Proof.
move=> w0 wE P0 pP.
have [q10 q11 q1q r1 r2] := Hq; move=> i; have r0 := rho_air_gt0 F.
pose va k := air_from_outside h s o k + w k / rho_air F.
have rows k : rho_air F * v_room h k 0 / dt * (d' k - d k) = - (rho_air F * va k * d' k) + p k
    + g_lh h k 0 * (e' k - d' k) + rho_air F * \sum_l v_int h k l * d' l.
  have -> : rho_air F * va k = rho_air F * air_from_outside h s o k + w k by rewrite /va mulrDr [_ * (_ / _)]mulrC mulfVK // gt_eqF.
  rewrite two_rows wE; move: (\sum_l _) => S; fring.
apply: (pair_all Hr rows two_furniture v0p q1q r1 r2 _ D0 P0) => k; try by have [] := near k.
  by apply: le_trans (air k) _; rewrite ler_addl divr_ge0 // ltW.
Qed.

Lemma P_ge0 : 0 <= 2%:R * c_air F / l_wtr F * T.
Proof. by apply: mulr_ge0 => //; apply: divr_ge0 (ltW (l_wtr_gt0 F)); apply: mulr_ge0 (ltW (c_air_gt0 F)); rewrite ler0n. Qed.

Lemma two_near_idle : coils_idle o -> coils_idle o2 -> humidity_within (q * D + 2%:R * c_air F / l_wtr F * T) c' c2'.
Proof.
move=> i1 i2; apply: (@two_near_by (fun=> 0)) P_ge0 _ => // i; last by apply: people_damp; exact: warm.
by rewrite (step_no_cooling H1 (i1 i)) (step_no_cooling H2 (i2 i)) subrr !mul0r oppr0.
Qed.

Lemma two_near : physical_air h s -> (forall t to i, 0 <= infil t to i 0) -> coils_alike h c' c2' o o2 ->
  humidity_within (q * D + 2%:R * c_air F / l_wtr F * T) c' c2'.
Proof.
move=> Ha i0 alike; have [w [w0 wE]] := two_coils Ha i0 alike; apply: (two_near_by w0 wE P_ge0) => i.
by apply: people_damp; exact: warm.
Qed.

Lemma two_near_eq : physical_air h s -> (forall t to i, 0 <= infil t to i 0) -> coils_alike h c' c2' o o2 ->
  (forall i, n_hum s i 0 != 0 -> theta_r c2 i 0 = theta_r c i 0) -> humidity_within (q * D) c' c2'.
Proof.
move=> Ha i0 alike eqt; have [w [w0 wE]] := two_coils Ha i0 alike; rewrite -[q * D]addr0; apply: (two_near_by w0 wE) => // i.
by rewrite /p; case: (eqVneq (n_hum s i 0) 0) => [->|/eqt ->]; rewrite ?subrr ?mulr0 ?mul0r normr0.
Qed.
End Two.

(* a step next to the state of rest *)
Section Rest.
Variables (s : step_data F ni nj) (c c' cs : conditions F ni nj nm) (o : outputs F ni nj).
Hypothesis H1 : core_step e0 infil x_sat dt h s c = Some (c', o).
Hypothesis C1 : coils_idle o.
Hypothesis paths : forall i k, v_int h i k = 0.
Hypothesis R : damp_at_rest infil h s cs.
Variables (v0 q1 q D T : F).
Hypothesis v0p : 0 < v0.
Hypothesis vE : forall i, air_from_outside h s o i = infil (theta_r cs) (theta_o s) i 0 + (v_vent_ex h i 0 + v_mec_local s i 0).
Hypothesis Hq : damp_rate dt h v0 q1 q.
Hypothesis air : forall i, v0 <= air_from_outside h s o i.
Hypothesis D0 : 0 <= D.
Hypothesis T0 : 0 <= T.
Hypothesis crowd : forall i, 0 <= n_hum s i 0 /\ 4%:R * n_hum s i 0 <= 2%:R * (v_room h i 0 * cap_air F / dt).
Hypothesis near : humidity_within D c cs.
Hypothesis warm : forall i, n_hum s i 0 != 0 -> `|theta_r cs i 0 - theta_r c i 0| <= T.

Lemma rest_near : humidity_within (q * D + 2%:R * c_air F / l_wtr F * T) c' cs.
Proof.
have [q10 q11 q1q r1 r2] := Hq; move=> i.
have P0 : 0 <= 2%:R * c_air F / l_wtr F * T.
  by apply: mulr_ge0 => //; apply: divr_ge0 (ltW (l_wtr_gt0 F)); apply: mulr_ge0 (ltW (c_air_gt0 F)); rewrite ler0n.
pose p k := (x_hum_psn (theta_r cs k 0) - x_hum_psn (theta_r c k 0)) * n_hum s k 0.
have E1 k : rho_air F * v_room h k 0 / dt * (x_r cs k 0 - x_r c' k 0 - (x_r cs k 0 - x_r c k 0))
  = - (rho_air F * air_from_outside h s o k * (x_r cs k 0 - x_r c' k 0)) + p k
  + g_lh h k 0 * (x_frt cs k 0 - x_frt c' k 0 - (x_r cs k 0 - x_r c' k 0)) + rho_air F * \sum_l v_int h k l * (x_r cs l 0 - x_r c' l 0).
  have [E _] := damp_eqs k H1 C1; move: E; have [xE ->] := R k.
  rewrite !big1; try by move=> l _; rewrite paths mul0r.
  have vp : rho_air F * air_from_outside h s o k != 0 by rewrite mulf_neq0 ?gt_eqF ?rho_air_gt0 // (lt_le_trans v0p).
  have {xE} xE : rho_air F * air_from_outside h s o k * (x_r cs k 0 - x_o s) = x_gen s k 0 + x_hum_psn (theta_r cs k 0) * n_hum s k 0.
    by rewrite xE -vE addrC addrA addNr add0r mulrC divfK.
  move: (rho_air F * air_from_outside h s o k) xE {vp} => V xE.
  move: (rho_air F * v_room h k 0 / dt) => A E.
  have -> : A * (x_r cs k 0 - x_r c' k 0 - (x_r cs k 0 - x_r c k 0)) = - (A * (x_r c' k 0 - x_r c k 0)) by fring.
  rewrite E /p.
  have -> : x_gen s k 0 = V * (x_r cs k 0 - x_o s) - x_hum_psn (theta_r cs k 0) * n_hum s k 0 by rewrite xE addrK.
  by fring.
have E2 k : c_lh h k 0 * (x_frt cs k 0 - x_frt c' k 0 - (x_frt cs k 0 - x_frt c k 0)) / dt
  = g_lh h k 0 * (x_r cs k 0 - x_r c' k 0 - (x_frt cs k 0 - x_frt c' k 0)).
  have [_ E] := damp_eqs k H1 C1; have [_ ->] := R k.
  have -> : g_lh h k 0 * (x_r cs k 0 - x_r c' k 0 - (x_r cs k 0 - x_frt c' k 0)) = - (g_lh h k 0 * (x_r c' k 0 - x_frt c' k 0)) by fring.
  by rewrite -E; move: (dt^-1) => w; fring.
have air' k : v0 + \sum_l v_int h k l <= air_from_outside h s o k by rewrite big1 ?addr0.
apply: (pair_all Hr E1 E2 v0p q1q r1 r2 air' D0 P0) => k; try by have [] := near k.
by apply: people_damp => //; exact: warm.
Qed.
End Rest.
End Steps.

Section Decay.
Variable F : realFieldType.
Add Field Ffield4 : (ffield_theory F).
Ltac fring := ffold F; ring.

(* D' <= q D + k sg^n T, with q and sg below tau *)
Lemma decay (q sg tau k D T : F) n : 0 <= q -> q < tau -> 0 <= sg <= tau -> 0 <= k -> 0 <= D -> 0 <= T ->
  q * (tau ^+ n * (D + k / (tau - q) * T)) + k * (sg ^+ n * T) <= tau ^+ n.+1 * (D + k / (tau - q) * T).
Proof.
move=> q0 qt /andP[s0 st] k0 D0 T0; have tq : 0 < tau - q by rewrite subr_gt0.
have t0 : 0 <= tau by apply: ltW; apply: le_lt_trans qt.
have kE : k = k / (tau - q) * (tau - q) by rewrite divfK // gt_eqF.
rewrite exprS; set u := k / (tau - q) in kE *; have u0 : 0 <= u by rewrite divr_ge0 // ltW.
have S : sg ^+ n <= tau ^+ n by apply: ler_expn2r; rewrite ?nnegrE.
apply: le_trans (_ : q * (tau ^+ n * (D + u * T)) + k * (tau ^+ n * T) <= _); first by rewrite ler_add2l ler_wpmul2l // ler_wpmul2r.
rewrite {1}kE; have tn : 0 <= tau ^+ n by rewrite exprn_ge0.
move: (tau ^+ n) tn => w w0; rewrite -subr_ge0.
have -> : tau * w * (D + u * T) - (q * (w * (D + u * T)) + u * (tau - q) * (w * T)) = w * ((tau - q) * D) by fring.
by rewrite mulr_ge0 // mulr_ge0 // ltW.
Qed.

Variables ni nj nm : nat.
Variables (dt : F) (h : house F ni nj nm) (sg : F).
Hypothesis Hb : physical_boundaries h.
Hypothesis Hr : physical_rooms dt h.
Hypothesis Hf : forgetful dt h sg.

(* what the distance of two states says about their temperatures *)
Definition warmth : F := (\sum_i 2%:R / (v_room h i 0 * cap_air F / dt)) + 1.

Let wp i : 0 < v_room h i 0 * cap_air F / dt.
Proof. by rewrite divr_gt0 ?(ph_dt Hr) //; apply: mulr_gt0 (ph_room Hr i) _; apply: mulr_gt0; [exact: c_air_gt0 | exact: rho_air_gt0]. Qed.

Lemma warmth_ge1 : 1 <= warmth.
Proof. by rewrite /warmth ler_addr; apply: sumr_ge0 => i _; rewrite divr_ge0 ?ler0n // ltW ?wp. Qed.

Lemma gap_theta (c c2 : conditions F ni nj nm) k (T : F) : 0 <= T -> gap dt h sg c c2 <= (sg ^+ 2) ^+ k * T ^+ 2 ->
  forall i, `|theta_r c2 i 0 - theta_r c i 0| <= warmth * (sg ^+ k * T).
Proof.
move=> T0 Hg i; have s0 := sg_gt0 Hf; have /andP[_ s1] := fo_sigma Hf; have w1 := warmth_ge1.
have z0 : 0 <= sg ^+ k * T by rewrite mulr_ge0 // exprn_ge0 // ltW.
have w0 : 0 <= warmth by apply: le_trans w1; exact: ler01.
rewrite -ler_sqr ?nnegrE ?normr_ge0 ?(mulr_ge0 w0 z0) // -normrX ger0_norm ?sqr_ge0 //.
have [G _] := gap_room Hb Hr Hf c c2 i.
apply: le_trans (_ : warmth * (sg ^+ k * T) ^+ 2 <= _); last first.
  rewrite [leRHS]exprMn ler_wpmul2r ?sqr_ge0 // expr2 ler_pemull //.
have Wi : 2%:R / (v_room h i 0 * cap_air F / dt) <= warmth.
  rewrite /warmth; apply: ler_paddr; first exact: ler01.
  rewrite (bigD1 i) //= ler_addl; apply: sumr_ge0 => l _.
  by rewrite divr_ge0 ?ler0n // ltW ?wp.
apply: le_trans (_ : 2%:R / (v_room h i 0 * cap_air F / dt) * (sg ^+ k * T) ^+ 2 <= _); last by rewrite ler_wpmul2r ?sqr_ge0.
rewrite mulrAC ler_pdivl_mulr ?wp // [leLHS]mulrC; apply: le_trans G _; rewrite -mulrA ler_pmul2l ?ltr0n //.
rewrite exprMn -exprM mulnC exprM; apply: le_trans Hg; rewrite ler_pimull //; last exact: ltW.
exact: (gap_ge0 Hb Hr Hf).
Qed.
End Decay.

Section Runs.
Variable F : realFieldType.
Variables ni nj nm : nat.
Variable data : seq (step_data F ni nj).
Variables (e0 : F) (infil : infil_fun F ni) (x_sat : F -> F) (dt : F) (h : house F ni nj nm) (v0 q1 q : F).
Variable is_ground : pred 'I_nj.
Hypothesis Hr : physical_rooms dt h.
Hypothesis v0p : 0 < v0.
Hypothesis Hq : damp_rate dt h v0 q1 q.

Lemma rate_ge0 : 0 <= q. Proof. by have [a _ b _ _] := Hq; exact: le_trans b. Qed.

Variables (td x0 x1 : F) (n_main n_run_up n_build n_run_up2 n_build2 : Z).
Variables (g g2 : Z -> ground_conditions F #|is_ground| nm) (c c2 : Z -> conditions F ni nj nm)
  (log log2 : seq (option (conditions F ni nj nm * outputs F ni nj))).
Hypothesis sim : simulation data e0 infil x_sat dt h (is_ground := is_ground) td (conditions_init ni nj nm x0) n_main n_run_up n_build g c log.
Variable n0 : Z.
Hypothesis start1 : (- n_build <= n0)%Z.

Section Two.
Hypothesis sim2 : simulation data e0 infil x_sat dt h (is_ground := is_ground) td (conditions_init ni nj nm x1) n_main n_run_up2 n_build2 g2 c2 log2.
Hypothesis start2 : (- n_build2 <= n0)%Z.

Section Same.
Hypothesis i0 : forall t to i, 0 <= infil t to i 0.
Hypothesis op : forall n s o o2, (n0 <= n < n_main)%Z -> column data n s ->
  core_step e0 infil x_sat dt h s (c n) = Some (c (n + 1)%Z, o) -> core_step e0 infil x_sat dt h s (c2 n) = Some (c2 (n + 1)%Z, o2) ->
  [/\ physical_air h s, coils_alike h (c (n + 1)%Z) (c2 (n + 1)%Z) o o2 & forall i,
    [/\ air_from_outside h s o2 i = air_from_outside h s o i, v0 + \sum_k v_int h i k <= air_from_outside h s o i
      & n_hum s i 0 != 0 -> theta_r (c2 n) i 0 = theta_r (c n) i 0]].

Lemma damp_run D n : 0 <= D -> humidity_within D (c n0) (c2 n0) -> (n0 <= n <= n_main)%Z ->
  humidity_within (q ^+ Z.to_nat (n - n0) * D) (c n) (c2 n).
Proof.
move=> D0 H; move: n; apply: z_ind => [|n Hn IH]; first by rewrite Z.sub_diag expr0 mul1r.
have [s [o [Cs [E _]]]] := sim_c sim (ltac:(lia) : (- n_build <= n < n_main)%Z).
have [s2 [o2 [Cs2 [E2 _]]]] := sim_c sim2 (ltac:(lia) : (- n_build2 <= n < n_main)%Z).
have es : s2 = s by move: Cs Cs2; rewrite /column => -> [].
rewrite es in E2; have [i1 i2 w] := op Hn Cs E E2.
have -> : Z.to_nat (n + 1 - n0) = (Z.to_nat (n - n0)).+1 by lia.
have B0 : 0 <= q ^+ Z.to_nat (n - n0) * D by rewrite mulr_ge0 // exprn_ge0 // rate_ge0.
rewrite exprS -mulrA; apply: (two_near_eq Hr E E2 _ v0p Hq _ B0 IH i1 i0 i2) => k; by have [] := w k.
Qed.
End Same.

(* from states that differ in humidity only, with the same targets *)
Section Operated.
Hypothesis i0 : forall t to i, 0 <= infil t to i 0.
Hypothesis op : forall n s o, (n0 <= n < n_main)%Z -> column data n s -> core_step e0 infil x_sat dt h s (c n) = Some (c (n + 1)%Z, o) ->
  [/\ physical_air h s,
      same_targets (get_ot_target_and_h_hum e0 (ni := ni)) s (c n) (c2 n)
    & forall i, v0 + \sum_k v_int h i k <= air_from_outside h s o i
      /\ (removed o i <= 1 / 1000%:R \/ forall k, i != k -> v_int h i k = 0)].

Lemma damp_operated D n : 0 <= D -> same_heat (c n0) (c2 n0) -> humidity_within D (c n0) (c2 n0) -> (n0 <= n <= n_main)%Z ->
  same_heat (c n) (c2 n) /\ humidity_within (q ^+ Z.to_nat (n - n0) * D) (c n) (c2 n).
Proof.
move=> D0 S0 H; move: n; apply: z_ind => [|n Hn [S IH]]; first by rewrite Z.sub_diag expr0 mul1r.
have [s [o [Cs [E _]]]] := sim_c sim (ltac:(lia) : (- n_build <= n < n_main)%Z).
have [s2 [o2 [Cs2 [E2 _]]]] := sim_c sim2 (ltac:(lia) : (- n_build2 <= n < n_main)%Z).
have es : s2 = s by move: Cs Cs2; rewrite /column => -> [].
rewrite es in E2; have [Ha otE w] := op Hn Cs E.
have [S' [[_ _ lE _] [vE wE _ _] _]] := heat_apart E E2 S otE; split=> //.
have -> : Z.to_nat (n + 1 - n0) = (Z.to_nat (n - n0)).+1 by lia.
have B0 : 0 <= q ^+ Z.to_nat (n - n0) * D by rewrite mulr_ge0 // exprn_ge0 // rate_ge0.
have rE k : removed o2 k = removed o k by rewrite /removed lE.
rewrite exprS -mulrA; apply: (two_near_eq Hr E E2 _ v0p Hq _ B0 IH Ha i0) => k.
- by rewrite /air_from_outside vE wE.
- by have [] := w k.
- have [_ [r|v]] := w k; first by left; rewrite rE.
  by right; split=> //; have [[_ -> _ _] _ _ _ _] := S'.
- by have [[_ -> _ _] _ _ _ _] := S.
Qed.
End Operated.

Section Free.
Variable sg : F.
Hypothesis Hb : physical_boundaries h.
Hypothesis Hf : forgetful dt h sg.
Hypothesis Hv : forall s o, (forall i, v0 <= air_from_outside h s o i) ->
    (forall i, 0 <= n_hum s i 0 /\ 4%:R * n_hum s i 0 <= 2%:R * (v_room h i 0 * cap_air F / dt)) -> aired dt h sg s o.
Hypothesis ch : forall i, 0 <= cap_h h i 0.
Hypothesis cc : forall i, 0 <= cap_c h i 0.
Hypothesis fixed : forall t t2 to, infil t to = infil t2 to.
Hypothesis i0 : forall t to i, 0 <= infil t to i 0.
Hypothesis idle : forall s, List.In s data -> unattended dt h v0 s.
Hypothesis le1 : (n_build <= n_run_up)%Z.
Hypothesis le2 : (n_build2 <= n_run_up2)%Z.

Lemma free_off s : List.In s data -> forall i, ac_demand s i 0 <= 0.
Proof. by move=> Is i; have [] := idle Is i. Qed.

Lemma free_coils s c1 c1' o : List.In s data -> core_step e0 infil x_sat dt h s c1 = Some (c1', o) -> coils_idle o.
Proof.
move=> Is E i; have [l _ _ _] := free_step ch cc E (free_off Is).
by rewrite /removed l mxE oppr0 divr_ge0 ?ler01 ?ler0n.
Qed.

Lemma free_air s c1 c1' o i : List.In s data -> core_step e0 infil x_sat dt h s c1 = Some (c1', o) ->
  air_from_outside h s o i = infil (theta_r c1) (theta_o s) i 0 + (v_vent_ex h i 0 + v_mec_local s i 0) /\ v0 <= air_from_outside h s o i.
Proof.
move=> Is E; have [_ _ w l] := free_step ch cc E (free_off Is).
rewrite /air_from_outside w addr0 l; split=> //.
by have [_ v1 _ _] := idle Is i; apply: le_trans v1 _; rewrite ler_addr i0.
Qed.

Variables (tau D T : F).
Hypothesis qt : q < tau.
Hypothesis st : sg <= tau.
Hypothesis D0 : 0 <= D.
Hypothesis T0 : 0 <= T.

Local Notation kp := (2%:R * c_air F / l_wtr F * warmth dt h).

Lemma kp_ge0 : 0 <= kp.
Proof.
have w0 : 0 <= warmth dt h by apply: le_trans (warmth_ge1 Hr); exact: ler01.
apply: mulr_ge0 => //; apply: divr_ge0 (ltW (l_wtr_gt0 F)); apply: mulr_ge0 (ltW (c_air_gt0 F)); exact: ler0n.
Qed.

Lemma bound_ge0 k : 0 <= tau ^+ k * (D + kp / (tau - q) * T).
Proof.
have t0 : 0 <= tau by apply: ltW; apply: le_lt_trans qt; exact: rate_ge0.
apply: mulr_ge0; first exact: exprn_ge0.
by apply: addr_ge0 => //; apply: mulr_ge0 => //; apply: divr_ge0 kp_ge0 _; rewrite subr_ge0 ltW.
Qed.

Lemma warm_ge0 k : 0 <= warmth dt h * (sg ^+ k * T).
Proof.
apply: mulr_ge0; first by apply: le_trans (warmth_ge1 Hr); exact: ler01.
by apply: mulr_ge0 => //; apply: exprn_ge0; exact: ltW (sg_gt0 Hf).
Qed.

Lemma decay_step k : q * (tau ^+ k * (D + kp / (tau - q) * T)) + 2%:R * c_air F / l_wtr F * (warmth dt h * (sg ^+ k * T))
  <= tau ^+ k.+1 * (D + kp / (tau - q) * T).
Proof.
rewrite [X in _ + X <= _]mulrA; apply: decay => //; [exact: rate_ge0 | | exact: kp_ge0].
by rewrite st andbT; exact: ltW (sg_gt0 Hf).
Qed.

Lemma within_le (B B2 : F) (u w : conditions F ni nj nm) : B <= B2 -> humidity_within B u w -> humidity_within B2 u w.
Proof. by move=> le H i; have [a b] := H i; split; exact: le_trans le. Qed.

Lemma damp_free n : humidity_within D (c n0) (c2 n0) -> gap dt h sg (c n0) (c2 n0) <= T ^+ 2 -> (n0 <= n <= n_main)%Z ->
  humidity_within (tau ^+ Z.to_nat (n - n0) * (D + kp / (tau - q) * T)) (c n) (c2 n).
Proof.
move=> H Hg; move: n; apply: z_ind => [|n Hn IH].
  rewrite Z.sub_diag expr0 mul1r; apply: within_le H; rewrite ler_addl; apply: mulr_ge0 => //.
  by apply: divr_ge0 kp_ge0 _; rewrite subr_ge0 ltW.
have [s [o [Cs [E _]]]] := sim_c sim (ltac:(lia) : (- n_build <= n < n_main)%Z).
have [s2 [o2 [Cs2 [E2 _]]]] := sim_c sim2 (ltac:(lia) : (- n_build2 <= n < n_main)%Z).
have es : s2 = s by move: Cs Cs2; rewrite /column => -> [].
have Is : List.In s data by apply: List.nth_error_In Cs.
rewrite es in E2.
have -> : Z.to_nat (n + 1 - n0) = (Z.to_nat (n - n0)).+1 by lia.
apply: within_le (decay_step _) _.
apply: (two_near_idle Hr E E2 _ v0p Hq _ (bound_ge0 _) (warm_ge0 _) _ IH _ (free_coils Is E) (free_coils Is E2)).
- by move=> i; have [-> _] := free_air i Is E; have [-> _] := free_air i Is E2; rewrite (fixed (theta_r (c2 n)) (theta_r (c n))).
- move=> i; rewrite big1 ?addr0; first by have [] := free_air i Is E.
  by move=> k _; exact: (fo_paths Hf).
- by move=> i; have [_ _ a b] := idle Is i.
move=> i _; apply: (gap_theta Hb Hr Hf) => //.
have Hn' : (n0 <= n <= n_main)%Z by lia.
apply: le_trans (free_run Hb Hr Hf Hv ch cc fixed i0 idle sim sim2 le1 le2 start1 start2 Hn') _.
by apply: ler_wpmul2l => //; rewrite exprn_ge0 // sqr_ge0.
Qed.
End Free.
End Two.
End Runs.

(* constant conditions *)
Section Settle.
Variable F : realFieldType.
Variables ni nj nm : nat.
Variable data : seq (step_data F ni nj).
Variables (e0 : F) (infil : infil_fun F ni) (x_sat : F -> F) (dt : F) (h : house F ni nj nm) (sg v0 q1 q tau : F) (s : step_data F ni nj).
Variable is_ground : pred 'I_nj.
Hypothesis Hb : physical_boundaries h.
Hypothesis Hr : physical_rooms dt h.
Hypothesis Hh : physical_hum h.
Hypothesis Ha : physical_air h s.
Hypothesis Hw : unit_response h.
Hypothesis Hf : forgetful dt h sg.
Hypothesis Hv : forall s o, (forall i, v0 <= air_from_outside h s o i) ->
    (forall i, 0 <= n_hum s i 0 /\ 4%:R * n_hum s i 0 <= 2%:R * (v_room h i 0 * cap_air F / dt)) -> aired dt h sg s o.
Hypothesis v0p : 0 < v0.
Hypothesis Hq : damp_rate dt h v0 q1 q.
Hypothesis qt : q < tau.
Hypothesis st : sg <= tau.
Hypothesis ch : forall i, 0 <= cap_h h i 0.
Hypothesis cc : forall i, 0 <= cap_c h i 0.
Hypothesis fixed : forall t t2 to, infil t to = infil t2 to.
Hypothesis i0 : forall t to i, 0 <= infil t to i 0.
Hypothesis idle : unattended dt h v0 s.
Variables (cs : conditions F ni nj nm) (ts : 'cV[F]_nj).
Hypothesis S : at_rest infil h s cs ts.
Hypothesis R : damp_at_rest infil h s cs.
Hypothesis const : forall s', List.In s' data -> s' = s.
Variables (td x0 : F) (n_main n_run_up n_build : Z).
Variables (g : Z -> ground_conditions F #|is_ground| nm) (c : Z -> conditions F ni nj nm)
  (log : seq (option (conditions F ni nj nm * outputs F ni nj))).
Hypothesis sim : simulation data e0 infil x_sat dt h (is_ground := is_ground) td (conditions_init ni nj nm x0) n_main n_run_up n_build g c log.
Hypothesis le1 : (n_build <= n_run_up)%Z.
Variables (D T : F).
Hypothesis D0 : 0 <= D.
Hypothesis T0 : 0 <= T.

Lemma damp_settle n : humidity_within D (c (- n_build)%Z) cs -> gap dt h sg (c (- n_build)%Z) cs <= T ^+ 2 -> (- n_build <= n <= n_main)%Z ->
  humidity_within (tau ^+ Z.to_nat (n + n_build) * (D + 2%:R * c_air F / l_wtr F * warmth dt h / (tau - q) * T)) (c n) cs.
Proof.
have idles s' : List.In s' data -> unattended dt h v0 s' by move=> /const ->.
move=> H Hg; move: n; apply: z_ind => [|n Hn IH].
  rewrite Z.add_opp_diag_l expr0 mul1r; apply: within_le H; rewrite ler_addl; apply: mulr_ge0 => //.
  by apply: divr_ge0 (kp_ge0 Hr) _; rewrite subr_ge0 ltW.
have [s' [o [Cs [E _]]]] := sim_c sim Hn.
have Is : List.In s' data by apply: List.nth_error_In Cs.
have es := const Is; rewrite es in E Is.
have -> : Z.to_nat (n + 1 + n_build) = (Z.to_nat (n + n_build)).+1 by lia.
apply: within_le (decay_step Hr Hq Hf qt st D0 T0 _) _.
apply: (rest_near Hr E (free_coils ch cc idles Is E) (fo_paths Hf) R v0p _ Hq _ (bound_ge0 Hr Hq qt D0 T0 _) (warm_ge0 Hr Hf T0 _)) => //.
- by move=> i; have [-> _] := free_air ch cc i0 idles i Is E; rewrite (fixed (theta_r cs) (theta_r (c n))).
- by move=> i; have [] := free_air ch cc i0 idles i Is E.
- by move=> i; have [_ _ a b] := idle i.
move=> i _; apply: (gap_theta Hb Hr Hf) => //.
have Hn' : (- n_build <= n <= n_main)%Z by lia.
apply: le_trans (settle_run Hb Hr Hh Ha Hw Hf Hv v0p ch cc fixed i0 idle S const sim le1 Hn') _.
by apply: ler_wpmul2l => //; rewrite exprn_ge0 // sqr_ge0.
Qed.
End Settle.
