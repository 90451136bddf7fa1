(* More heat never makes a free-running building colder (C53). *)
From mathcomp Require Import all_ssreflect ssralg ssrnum zmodp matrix.
From Coq Require Import Ring Field.
From Verif Require Import Model.OperationMode Model.Numpy Model.NextCondition Model.PreCalc
  Model.HeatExchanger Model.Tick Spec.Physical.
From Verif Require Import Lemmas.FieldTac Lemmas.NumpyL Lemmas.NextConditionL Lemmas.TickL
  Lemmas.TickBalance Lemmas.MMatrix Lemmas.TickTotal Lemmas.TickEquil.
Set Implicit Arguments. Unset Strict Implicit. Unset Printing Implicit Defensive.
Import Order.TTheory GRing.Theory Num.Theory.
Local Open Scope ring_scope.

Section RoomMx.
Variable F : realFieldType.
Variables ni nj nm : nat.
Add Field Ffield0 : (ffield_theory F).
Ltac fring := ffold F; ring.

Variable ot : ot_fun F ni.
Variable infil : infil_fun F ni.
Variable x_sat : F -> F.
Variables (dt : F) (h : house F ni nj nm) (q : pp F ni nj) (s : step_data F ni nj).
Variables (c c' : conditions F ni nj nm) (o : outputs F ni nj).
Hypothesis Ht : run_tick ot infil x_sat dt h q s c = Some (c', o).

Lemma room_mx2 : let v_out := o_v_leak o + v_mec h s + o_v_ntrl o in
  let w := ivs_ax q *m (crx h s + rowsum (theta_dsh_t c' + theta_dsh_a c')) in
  [/\ o_theta_s o = wsr q *m theta_r c' + wsb q *m o_l_rs o + w &
  (brm_non_vent q + smul (c_air F * rho_air F) (vdiag v_out + v_int h)) *m theta_r c' =
   o_l_cs o + brl q *m o_l_rs o +
   ((\matrix_(i, _) (c_rm h i 0 / dt * theta_r c i 0))
    + p_is_js h *m (emul (emul (h_c h) (a_srf h)) w)
    + (\matrix_(i, _) (c_air F * rho_air F * v_out i 0 * theta_o s))
    + q_gen s + o_q_hum o
    + (\matrix_(i, _) (g_sh h i 0 * (c_sh h i 0 * theta_frt c i 0 + q_sol_frt s i 0 * dt)
                       / (c_sh h i 0 + dt * g_sh h i 0))))].
Proof.
move=> v w; rewrite /w {w} /v {v}.
case: (run_tickP Ht) => md lo up wsc wsv v_out brc brm xot kc kr ? ? ? ? ? ? ? ?.
move=> ? ? ? ? ? ? ? ? wscE wsvE ? vE brcE brmE ? ? Ex Ec trE ? tsE *.
rewrite mulmxDr -wscE -wsvE -vE; split; first by rewrite tsE -!addrA; congr (_ + _); rewrite addrCA.
rewrite -brcE -brmE; have := calc_balance Ec; rewrite -mulmxA => /= bal.
rewrite trE !mulmxBr bal mulmxDl !mulmxA.
by apply/matrixP => a b; rewrite !mxE; fring.
Qed.
End RoomMx.

Section TickMono.
Variable F : realFieldType.
Variables ni nj nm : nat.
Add Field Ffield : (ffield_theory F).
Ltac fring := ffold F; ring.

Variable ot : ot_fun F ni.
Variable infil : infil_fun F ni.
Variable x_sat : F -> F.
Variables (dt : F) (h : house F ni nj nm) (q : pp F ni nj).
Variables (s s2 : step_data F ni nj) (c c' c2 : conditions F ni nj nm) (o o2 : outputs F ni nj).
Hypothesis Hq : make_pp h dt = Some q.
Hypothesis Ht : run_tick ot infil x_sat dt h q s c = Some (c', o).
Hypothesis Ht2 : run_tick ot infil x_sat dt h q s2 c = Some (c2, o2).
Hypothesis caph : forall i, 0 <= cap_h h i 0.
Hypothesis capc : forall i, 0 <= cap_c h i 0.
Hypothesis Hb : physical_boundaries h.
Hypothesis Hr : physical_rooms dt h.
Hypothesis Ha : physical_air h s.
Hypothesis Hh : physical_hum h.
Hypothesis infil_ge0 : forall tr to i, 0 <= infil tr to i 0.
Hypothesis no_int : forall i k, i != k -> v_int h i k = 0.
Hypothesis k_ge0 : forall j, 0 <= k_eo h j 0 * (phi_t0 h j 0 + \sum_m phi_t1 h j m).
Hypothesis off : forall i, operation_mode c' i <> HEATING /\ operation_mode c' i <> COOLING.
(* the two steps *)
Hypothesis acE : ac_demand s2 = ac_demand s.
Hypothesis toE : theta_o s2 = theta_o s.
Hypothesis nE : n_hum s2 = n_hum s.
Hypothesis vE : v_mec_local s2 = v_mec_local s.
Hypothesis genL : forall i, q_gen s i 0 <= q_gen s2 i 0.
Hypothesis solL : forall i, q_trs_sol s i 0 <= q_trs_sol s2 i 0.
Hypothesis eqvL : forall j, theta_o_sol s j 0 <= theta_o_sol s2 j 0.

Lemma mono_same : [/\ operation_mode c2 = operation_mode c', o_v_leak o2 = o_v_leak o,
  o_v_ntrl o2 = o_v_ntrl o, o_q_hum o2 = o_q_hum o &
  o_h_hum_c o2 = o_h_hum_c o /\ o_h_hum_r o2 = o_h_hum_r o].
Proof.
case: (run_tickP Ht) => md lo up ? ? v_out ? ? xot kc kr ? ? ? ? ? ? ? ?.
move=> otE mdE _ qhE _ lkE _ _ _ _ ntE _ _ _ _ _ _ _ _ _ _ _ _ _ _ _ _ _ _ _ _ _ _ _.
case: (run_tickP Ht2) => md2 lo2 up2 ? ? v_out2 ? ? xot2 kc2 kr2 ? ? ? ? ? ? ? ?.
move=> otE2 mdE2 _ qhE2 _ lkE2 _ _ _ _ ntE2 _ _ _ _ _ _ _ _ _ _ _ _ _ _ _ _ _ _ _ _ _ _ _.
move: otE2; rewrite acE otE => -[e1 e2 e3 e4 e5].
by rewrite mdE mdE2 e3 lkE lkE2 toE ntE ntE2 -e3 qhE qhE2 nE.
Qed.

Lemma dsh_diff j : rowsum (theta_dsh_t c2 + theta_dsh_a c2) j 0 - rowsum (theta_dsh_t c' + theta_dsh_a c') j 0
  = k_eo h j 0 * (theta_o_sol s2 j 0 - theta_o_sol s j 0) * \sum_m phi_t1 h j m.
Proof.
case: (run_tickP Ht) => md lo up ? ? v_out ? ? xot kc kr ? ? ? ? ? ? ? ?.
move=> _ _ rE _ _ _ aE tE *.
case: (run_tickP Ht2) => md2 lo2 up2 ? ? v_out2 ? ? xot2 kc2 kr2 ? ? ? ? ? ? ? ?.
move=> _ _ rE2 _ _ _ aE2 tE2 *.
rewrite ![rowsum _ _ _]mxE -sumrB mulr_sumr; apply: eq_bigr => m _.
rewrite !addE aE aE2 tE tE2 !addE !cmulE rE rE2 /theta_dstrb !addE !emulE.
by move: ((k_ei_js_js h *m theta_ei c) j 0) => K; fring.
Qed.

Lemma q_sol_js_mono j : q_sol_js h s j 0 <= q_sol_js h s2 j 0.
Proof.
have hE (s0 : step_data F ni nj) := q_sol_jsE s0 (erefl : conn h j = room_of Hb j :> nat).
rewrite !hE; case: (is_solar_abs h j) => //.
have a0 : 0 <= a_srf_abs h (room_of Hb j) 0.
  by rewrite a_abs_sum; apply: sumr_ge0 => k _; rewrite ltW // (ph_area Hb).
have half : 0 <= 1 - r_sol_fnt F.
  by rewrite /r_sol_fnt subr_ge0 ler_pdivr_mulr ?ltr0n // mul1r ler1n.
by rewrite ler_wpmul2l // ler_wpmul2r ?invr_ge0.
Qed.

Lemma drive_mono j : 0 <= (crx h s2 + rowsum (theta_dsh_t c2 + theta_dsh_a c2)) j 0
  - (crx h s + rowsum (theta_dsh_t c' + theta_dsh_a c')) j 0.
Proof.
have d := dsh_diff j.
move: (rowsum _) (rowsum _) d => R1 R2 d; rewrite /crx /dot /theta_dstrb.
have qm := q_sol_js_mono; move: (q_sol_js h s) (q_sol_js h s2) qm => Q1 Q2 qm.
have kq : 0 <= (k_ei_js_js h *m Q2) j 0 - (k_ei_js_js h *m Q1) j 0.
  rewrite !k_eiE; case E: (k_ei h j) => [[k coef]|]; last by rewrite subr0.
  by rewrite -mulrBr mulr_ge0 ?subr_ge0 //; have [] := ph_k Hb E.
move: (k_ei_js_js h *m Q2) (k_ei_js_js h *m Q1) kq => KQ2 KQ1 kq.
have hi := hi_gt0 Hb j; move: (h_i h) hi => Hi hi.
rewrite !addE !emulE ![ediv _ _ _ _]mxE.
have -> : forall a b e k : F,
  a * Q2 j 0 + b * KQ2 j 0 + e * (theta_o_sol s2 j 0 * k) + R2 j 0
    - (a * Q1 j 0 + b * KQ1 j 0 + e * (theta_o_sol s j 0 * k) + R1 j 0)
  = a * (Q2 j 0 - Q1 j 0) + b * (KQ2 j 0 - KQ1 j 0)
    + (e * k * (theta_o_sol s2 j 0 - theta_o_sol s j 0) + (R2 j 0 - R1 j 0)) by move=> *; fring.
rewrite d; apply: addr_ge0; first apply: addr_ge0.
- by rewrite mulr_ge0 ?subr_ge0 // (ph_phi_a0 Hb).
- by rewrite mulr_ge0 // divr_ge0 ?(ph_phi_t0 Hb) // ltW.
have -> : phi_t0 h j 0 * k_eo h j 0 * (theta_o_sol s2 j 0 - theta_o_sol s j 0) +
  k_eo h j 0 * (theta_o_sol s2 j 0 - theta_o_sol s j 0) * (\sum_m phi_t1 h j m)
  = k_eo h j 0 * (phi_t0 h j 0 + \sum_m phi_t1 h j m) * (theta_o_sol s2 j 0 - theta_o_sol s j 0) by fring.
by rewrite mulr_ge0 // subr_ge0.
Qed.

Lemma w_mono (W1 W2 : 'cV[F]_nj) : (forall j, 0 <= W2 j 0 - W1 j 0) ->
  forall j, 0 <= (ivs_ax q *m W2) j 0 - (ivs_ax q *m W1) j 0.
Proof.
move=> H j; rewrite -subE -mulmxBr; apply: (sdd_z_sol (ax_sdd Hb) (ax_z Hb) (inv_ax Hq)) => k l.
by rewrite (ord1 l) subE.
Qed.

Lemma off2 i : operation_mode c2 i <> HEATING /\ operation_mode c2 i <> COOLING.
Proof. by have [-> _ _ _ _] := mono_same; exact: off. Qed.

Lemma room_mono i : theta_r c' i 0 <= theta_r c2 i 0.
Proof.
have [l1 l2] := tick_all_off Ht caph capc off; have [l3 l4] := tick_all_off Ht2 caph capc off2.
have [mdE lkE ntE qhE [hcE hrE]] := mono_same.
have [sE1 mx1] := room_mx2 Ht; have [sE2 mx2] := room_mx2 Ht2.
have vmE : v_mec h s2 = v_mec h s by rewrite /v_mec vE.
rewrite l3 l4 !mulmx0 !add0r lkE ntE vmE toE qhE in mx2; rewrite l1 l2 !mulmx0 !add0r in mx1.
set v_out := (o_v_leak o + _ + _) in mx1 mx2.
have v0 k : 0 <= v_out k 0.
  case: (run_tickP Ht) => md lo up ? ? ? ? ? xot kc kr ? ? ? ? ? ? ? ?.
  move=> _ _ _ _ _ lk _ _ _ _ nt _ _ _ _ _ _ _ _ _ _ _ _ _ _ _ _ _ _ _ _ _ _ _.
  by rewrite /v_out lk nt; exact: v_out_ge0.
move: mx1 mx2 sE1 sE2.
set Y := (brm_non_vent q + _); set w1 := ivs_ax q *m _; set w2 := ivs_ax q *m _ => mx1 mx2 sE1 sE2.
have wl : forall j, 0 <= w2 j 0 - w1 j 0.
  by apply: w_mono => j; exact: drive_mono.
have sY : sdd Y by exact: (brm_sdd Hb Hr Hq v0).
have zY : zmx Y by exact: (brm_z Hb Hq).
rewrite -subr_ge0 -subE; apply: (sdd_z_monotone sY zY) => k.
rewrite mulmxBr mx1 mx2; move: w1 w2 wl {mx1 mx2 sE1 sE2} => w1 w2 wl.
have pE : 0 <= (p_is_js h *m emul (emul (h_c h) (a_srf h)) w2) k 0
             - (p_is_js h *m emul (emul (h_c h) (a_srf h)) w1) k 0.
  rewrite !p_isE -sumrB; apply: sumr_ge0 => j _; rewrite !emulE -mulrBr mulr_ge0 // mulr_ge0 //.
    by rewrite ltW // (ph_hc Hb).
  by rewrite ltW // (ph_area Hb).
move: (p_is_js h *m _) (p_is_js h *m _) pE => P1 P2 pE.
have f0 : 0 <= g_sh h k 0 / (c_sh h k 0 + dt * g_sh h k 0) * dt * (q_sol_frt s2 k 0 - q_sol_frt s k 0).
  have := ltW (ph_c_sh Hr k); have := ph_g_sh Hr k; have := ltW (ph_dt Hr) => d0 g0 c0.
  apply: mulr_ge0; first by rewrite !mulr_ge0 // invr_ge0 addr_ge0 // mulr_ge0.
  rewrite /q_sol_frt !smulE -mulrBr.
  by rewrite mulr_ge0 ?subr_ge0 // /r_sol_fnt divr_ge0 ?ler01 ?ler0n.
move: (q_sol_frt s2) (q_sol_frt s) f0 => S2 S1 f0.
have g0 : 0 <= q_gen s2 k 0 - q_gen s k 0 by rewrite subr_ge0.
rewrite subE !addE !matE.
suff -> : forall a b c d e : F,
  a + P2 k 0 + b + q_gen s2 k 0 + c + g_sh h k 0 * (d + S2 k 0 * dt) / e
  - (a + P1 k 0 + b + q_gen s k 0 + c + g_sh h k 0 * (d + S1 k 0 * dt) / e)
  = (P2 k 0 - P1 k 0) + (q_gen s2 k 0 - q_gen s k 0) + g_sh h k 0 / e * dt * (S2 k 0 - S1 k 0).
  by apply: addr_ge0 => //; apply: addr_ge0.
by move=> a b e d g; move: (g^-1) => gi; fring.
Qed.

Lemma surf_mono j : o_theta_s o j 0 <= o_theta_s o2 j 0.
Proof.
have [l1 l2] := tick_all_off Ht caph capc off; have [l3 l4] := tick_all_off Ht2 caph capc off2.
have [sE1 mx1] := room_mx2 Ht; have [sE2 mx2] := room_mx2 Ht2.
have wl := w_mono drive_mono j.
rewrite sE1 sE2 l2 l4 !mulmx0 !addr0; move: wl {mx1 mx2 sE1 sE2}.
move: (ivs_ax q *m _) (ivs_ax q *m _) => w1 w2 wl.
rewrite -subr_ge0 !addE.
have : 0 <= (wsr q *m theta_r c2) j 0 - (wsr q *m theta_r c') j 0.
  rewrite !mxE -sumrB; apply: sumr_ge0 => i _; rewrite -mulrBr mulr_ge0 ?(wsr_ge0 Hb Hq) //.
  by rewrite subr_ge0 room_mono.
by move: (_ *m theta_r c2) (_ *m theta_r c') => A B ab; rewrite opprD addrACA addr_ge0.
Qed.

Lemma mrt_mono i : theta_mrt_hum c' i 0 <= theta_mrt_hum c2 i 0.
Proof.
case: (run_tickP Ht) => md lo up ? ? v_out ? ? xot kc kr ? ? ? ? ? ? ? ?.
move=> _ _ _ _ _ _ _ _ _ _ _ _ _ _ _ _ _ _ _ _ _ -> *.
case: (run_tickP Ht2) => md2 lo2 up2 ? ? v_out2 ? ? xot2 kc2 kr2 ? ? ? ? ? ? ? ?.
move=> _ _ _ _ _ _ _ _ _ _ _ _ _ _ _ _ _ _ _ _ _ -> *.
rewrite [leLHS]mxE [leRHS]mxE; apply: ler_sum => j _; rewrite ler_wpmul2l ?surf_mono //.
by rewrite !mxE mulr_ge0 ?ler0n ?(ph_fh Hh).
Qed.

Lemma furn_mono i : theta_frt c' i 0 <= theta_frt c2 i 0.
Proof.
case: (run_tickP Ht) => md lo up ? ? v_out ? ? xot kc kr ? ? ? ? ? ? ? ?.
move=> _ _ _ _ _ _ _ _ _ _ _ _ _ _ _ _ _ _ _ -> *.
case: (run_tickP Ht2) => md2 lo2 up2 ? ? v_out2 ? ? xot2 kc2 kr2 ? ? ? ? ? ? ? ?.
move=> _ _ _ _ _ _ _ _ _ _ _ _ _ _ _ _ _ _ _ -> *.
rewrite !matE.
have := ltW (ph_c_sh Hr i); have := ph_g_sh Hr i; have := ltW (ph_dt Hr) => d0 g0 c0.
apply: ler_wpmul2r; first by rewrite invr_ge0 addr_ge0 // mulr_ge0.
apply: ler_add; first by rewrite ler_add2l ler_wpmul2l ?mulr_ge0 ?room_mono.
rewrite ler_wpmul2r // ler_wpmul2l // /r_sol_fnt divr_ge0 ?ler01 ?ler0n //.
Qed.

Lemma ot_mono i : 0 <= o_h_hum_c o i 0 -> 0 <= o_h_hum_r o i 0 ->
  o_h_hum_c o i 0 + o_h_hum_r o i 0 != 0 -> o_theta_ot o i 0 <= o_theta_ot o2 i 0.
Proof.
move=> c0 r0 s0; have [_ _ _ _ [hcE hrE]] := mono_same.
rewrite (ot_eq Ht s0) (ot_eq Ht2) ?hcE ?hrE // ler_wpmul2r ?invr_ge0 ?addr_ge0 //.
by rewrite ler_add // ler_wpmul2l ?room_mono ?mrt_mono.
Qed.

End TickMono.
