(* A house in which everything is at 0 degrees and nothing gives off heat: the constant term of the load
   calculation vanishes, so a step is decided by the matrices of the house alone. *)
From mathcomp Require Import all_ssreflect ssralg ssrnum zmodp matrix.
From Verif Require Import Model.OperationMode Model.Numpy Model.NextCondition Model.PreCalc Model.HeatExchanger Model.Tick
  Spec.Physical.
From Verif Require Import Lemmas.NumpyL Lemmas.NextConditionL Lemmas.TickL Lemmas.MMatrix Lemmas.TickTotal.
Set Implicit Arguments. Unset Strict Implicit. Unset Printing Implicit Defensive.
Import Order.TTheory GRing.Theory Num.Theory.
Local Open Scope ring_scope.

Section Cold.
Variable F : realFieldType.
Variables ni nj nm : nat.

Record cold_state (c : conditions F ni nj nm) : Prop := {
  cd_r : theta_r c = 0; cd_a : theta_dsh_a c = 0; cd_t : theta_dsh_t c = 0;
  cd_q : q_srf c = 0; cd_f : theta_frt c = 0; cd_e : theta_ei c = 0 }.
Record cold_data (s : step_data F ni nj) : Prop := {
  cs_o : theta_o s = 0; cs_g : q_gen s = 0; cs_n : n_hum s = 0; cs_s : q_trs_sol s = 0; cs_t : theta_o_sol s = 0 }.

Lemma emul0 m n (A : 'M[F]_(m, n)) : emul A 0 = 0.
Proof. by apply/matrixP => i j; rewrite !mxE mulr0. Qed.
Lemma emul0l m n (A : 'M[F]_(m, n)) : emul 0 A = 0.
Proof. by apply/matrixP => i j; rewrite !mxE mul0r. Qed.
Lemma cmul0l m n (A : 'M[F]_(m, n)) : cmul 0 A = 0.
Proof. by apply/matrixP => i j; rewrite !mxE mul0r. Qed.
Lemma smul0 m n a : smul a (0 : 'M[F]_(m, n)) = 0.
Proof. by apply/matrixP => i j; rewrite !mxE mulr0. Qed.
Lemma ediv0 m n (A : 'M[F]_(m, n)) : ediv 0 A = 0.
Proof. by apply/matrixP => i j; rewrite !mxE mul0r. Qed.
Lemma rowsum0 m n : rowsum (0 : 'M[F]_(m, n)) = 0.
Proof. by apply/matrixP => i j; rewrite !mxE big1 // => k _; rewrite mxE. Qed.

Variables (ot : ot_fun F ni) (infil : infil_fun F ni) (x_sat : F -> F).
Variables (dt : F) (h : house F ni nj nm) (q : pp F ni nj) (s : step_data F ni nj) (c : conditions F ni nj nm).
Hypotheses (Hc : cold_state c) (Hs : cold_data s).

Lemma cold_dstrb : theta_dstrb h s = 0.
Proof. by rewrite /theta_dstrb (cs_t Hs) emul0l. Qed.
Lemma cold_sol : q_sol_js h s = 0.
Proof. by rewrite /q_sol_js (cs_s Hs) ediv0 /dot mulmx0 emul0 smul0. Qed.
Lemma cold_crx : crx h s = 0.
Proof. by rewrite /crx cold_sol cold_dstrb /dot mulmx0 !emul0 !addr0. Qed.
Lemma cold_frt : q_sol_frt s = 0.
Proof. by rewrite /q_sol_frt (cs_s Hs) smul0. Qed.

Definition v_out_of (md : 'I_ni -> mode) : 'cV[F]_ni :=
  infil (theta_r c) (theta_o s) + v_mec h s + vwhere (fun i => mode_eqb (md i) STOP_OPEN) (v_ntrl h) 0.
Definition brm_of (v_out : 'cV[F]_ni) : 'M[F]_ni := brm_non_vent q + smul (c_air F * rho_air F) (vdiag v_out + v_int h).

Lemma cold_brc (v_out : 'cV[F]_ni) (w : 'cV[F]_nj) : w = 0 ->
  (\matrix_(i, _) (c_rm h i 0 / dt * theta_r c i 0))
    + p_is_js h *m (emul (emul (h_c h) (a_srf h)) w)
    + (\matrix_(i, _) (c_air F * rho_air F * v_out i 0 * theta_o s))
    + q_gen s + (\matrix_(i, _) (q_hum_psn (theta_r c i 0) * n_hum s i 0))
    + (\matrix_(i, _) (g_sh h i 0 * (c_sh h i 0 * theta_frt c i 0 + q_sol_frt s i 0 * dt)
                       / (c_sh h i 0 + dt * g_sh h i 0))) = 0 :> 'cV[F]_ni.
Proof.
move=> ->; rewrite emul0 mulmx0 (cd_r Hc) (cs_o Hs) (cs_g Hs) (cs_n Hs) (cd_f Hc) cold_frt.
apply/matrixP => a b; rewrite (ord1 b) !addE !matE ![(0 : 'cV[F]_ni) _ _]mxE.
by rewrite !(mulr0, mul0r, addr0).
Qed.

(* what a completed step of a cold house has calculated *)
Lemma cold_tick c' o hc hr md lo up : run_tick ot infil x_sat dt h q s c = Some (c', o) ->
  ot (x_r c) (operation_mode c) (theta_r c) (theta_mrt_hum c) (ac_demand s) = Some (hc, hr, md, lo, up) ->
  exists xot, [/\ inv (vdiag (ediv hc (hc + hr)) + cmul (ediv hr (hc + hr)) (f_mrt_hum_is_js h *m wsr q)) = Some xot,
    operation_mode c' = md
    & calc_next_temp_and_load (is_rad_h h) (is_rad_c h) 0 (brm_of (v_out_of md) *m xot)
        (brl q + brm_of (v_out_of md) *m (xot *m (cmul (ediv hr (hc + hr)) (f_mrt_hum_is_js h *m wsb q))))
        lo up (cap_h h) (cap_c h) md (ac_demand s) = Some (o_theta_ot o, o_l_cs o, o_l_rs o)].
Proof.
move=> Ht otE; case: (run_tickP Ht) => md' lo' up' wsc wsv v_out brc brm xot kc kr g_lat brmx0 brmx0i brmx brmxi brxc0 b1 b2.
rewrite otE => -[e1 e2 e3 e4 e5] mdE trE qhE _ vlE daE dtE wscE wsvE vnE voE brcE brmE kcE krE xotE calcE *.
exists xot; split.
- by rewrite e1 e2 -kcE -krE.
- by rewrite mdE e3.
have w0 : wsc + wsv = 0.
  rewrite wscE wsvE cold_crx mulmx0 add0r dtE daE (cd_a Hc) (cd_t Hc) (cd_q Hc) trE (cd_e Hc) cold_dstrb.
  by rewrite mulmx0 addr0 !cmul0l !emul0 !addr0 rowsum0 mulmx0.
move: calcE; rewrite brcE qhE (cold_brc _ w0) w0 mulmx0 emul0 !mulmx0 addr0.
by rewrite /brm_of /v_out_of brmE voE vlE vnE e1 e2 e3 e4 e5 -krE.
Qed.

Hypothesis Hb : physical_boundaries h.
Hypothesis Hr : physical_rooms dt h.
Hypothesis Hq : make_pp h dt = Some q.
Hypothesis Hh : physical_hum h.
Hypothesis Ha : physical_air h s.
Hypothesis infil_ge0 : forall tr to i, 0 <= infil tr to i 0.
Variables (hc hr lo up : 'cV[F]_ni) (modes : 'I_ni -> mode).
Hypothesis otE : ot (x_r c) (operation_mode c) (theta_r c) (theta_mrt_hum c) (ac_demand s)
  = Some (hc, hr, modes, lo, up).
Hypothesis hr_ge0 : forall i, 0 <= hr i 0.
Hypothesis hr_hc : forall i, hr i 0 < hc i 0.

(* the step of a cold house completes if its load calculation does *)
Lemma cold_total :
  (forall xot, inv (vdiag (ediv hc (hc + hr)) + cmul (ediv hr (hc + hr)) (f_mrt_hum_is_js h *m wsr q)) = Some xot ->
     exists t, calc_next_temp_and_load (is_rad_h h) (is_rad_c h) 0 (brm_of (v_out_of modes) *m xot)
        (brl q + brm_of (v_out_of modes) *m (xot *m (cmul (ediv hr (hc + hr)) (f_mrt_hum_is_js h *m wsb q))))
        lo up (cap_h h) (cap_c h) modes (ac_demand s) = Some t) ->
  exists c' o, run_tick ot infil x_sat dt h q s c = Some (c', o).
Proof.
move=> Hcalc; suff [[c' o] H] : exists r, run_tick ot infil x_sat dt h q s c = Some r by exists c', o.
rewrite /run_tick otE /dot; have [xot xotE] := sdd_inv (xot_sdd Hb Hq Hh hr_ge0 hr_hc).
have [t tE] := Hcalc _ xotE; rewrite xotE.
rewrite /brm_of /v_out_of in tE; move: tE; set v_out := (_ + _ + vwhere _ _ _) => tE.
have v0 : forall i, 0 <= v_out i 0 by move=> i; apply: v_out_ge0.
have w0 : wsc h s (ivs_ax q) + ivs_ax q *m rowsum (cmul (k_ei_js_js h *m theta_ei c + theta_dstrb h s) (phi_t1 h) +
    emul (r_ms h) (theta_dsh_t c) + (cmul (q_srf c) (phi_a1 h) + emul (r_ms h) (theta_dsh_a c))) = 0.
  rewrite /wsc /dot cold_crx mulmx0 add0r (cd_a Hc) (cd_t Hc) (cd_q Hc) (cd_e Hc) cold_dstrb.
  by rewrite mulmx0 addr0 !cmul0l !emul0 !addr0 rowsum0 mulmx0.
rewrite (cold_brc _ w0) w0 mulmx0 emul0 !mulmx0 addr0 tE; case: t tE => [[t lc] lr] tE.
set g := (\matrix_(i, _) (c_lh h i 0 * _ / _) : 'cV[F]_ni).
have g0 i : 0 <= g i 0 by rewrite /g matE (g_lat_ge0 Hr).
have [b bE] := sdd_inv (brmx_sdd Hr v0 g0); rewrite bE.
set tr := (_ - _ - _); set x := b *m _.
have [w [w1 wE]] := dehumid_diag Hr x_sat lc tr x.
case E: (get_dehumid_coeff _ _ _ _ _ _ _ _) wE => [d1 d2] /= ->.
have g1 i : 0 <= (g + w) i 0 by rewrite addE addr_ge0.
have [b' b'E] := sdd_inv (brmx_sdd Hr v0 g1).
have -> : forall A : 'M[F]_ni, A + vdiag g + vdiag w = A + vdiag (g + w).
  move=> A; rewrite -addrA; congr (_ + _); apply/matrixP => a e; rewrite addE !vdiagE addE.
  by case: ifP; rewrite ?addr0.
by rewrite b'E; eexists.
Qed.

End Cold.
