(* Solar heat indoors (C12), equipment off, and preservation of thermal equilibrium (C11). *)
From mathcomp Require Import all_ssreflect ssralg ssrnum zmodp matrix.
From Coq Require Import Ring Field.
From Verif Require Import Model.OperationMode Model.Numpy Model.NextCondition Model.PreCalc
  Model.HeatExchanger Model.Tick Spec.Physical.
From Verif Require Import Lemmas.FieldTac Lemmas.NumpyL Lemmas.NextConditionL Lemmas.TickL
  Lemmas.TickBalance Lemmas.MMatrix Lemmas.TickTotal.
Set Implicit Arguments. Unset Strict Implicit. Unset Printing Implicit Defensive.
Import Order.TTheory GRing.Theory Num.Theory.
Local Open Scope ring_scope.

Section Solar.
Variable F : realFieldType.
Variables ni nj nm : nat.
Add Field Ffield0 : (ffield_theory F).
Variables (h : house F ni nj nm) (s : step_data F ni nj).

Lemma a_abs_sum i : a_srf_abs h i 0 = \sum_(j | (conn h j == i) && is_solar_abs h j) a_srf h j 0.
Proof.
rewrite /a_srf_abs /dot p_isE big_mkcondr /=; apply: eq_bigr => j _; rewrite !mxE.
by case: (is_solar_abs h j); rewrite ?mulr1 ?mulr0.
Qed.

Lemma q_sol_jsE j (i : 'I_ni) : conn h j = i :> nat ->
  q_sol_js h s j 0 = if is_solar_abs h j then (1 - r_sol_fnt F) * (q_trs_sol s i 0 / a_srf_abs h i 0) else 0.
Proof.
move=> ji; rewrite /q_sol_js smulE emulE /dot (p_js_mulE _ ji) !mxE.
by case: ifP; rewrite ?mul1r ?mul0r ?mulr0.
Qed.

Lemma solar_split i : a_srf_abs h i 0 != 0 ->
  q_sol_frt s i 0 + \sum_(j | conn h j == i) a_srf h j 0 * q_sol_js h s j 0 = q_trs_sol s i 0.
Proof.
move=> a0; have -> : \sum_(j | conn h j == i) a_srf h j 0 * q_sol_js h s j 0
  = (1 - r_sol_fnt F) * q_trs_sol s i 0.
  transitivity (\sum_(j | (conn h j == i) && is_solar_abs h j)
                  a_srf h j 0 * ((1 - r_sol_fnt F) * (q_trs_sol s i 0 / a_srf_abs h i 0))).
    rewrite [RHS]big_mkcondr /=; apply: eq_bigr => j /eqP ji; rewrite (q_sol_jsE ji).
    by case: ifP; rewrite ?mulr0.
  rewrite -mulr_suml -a_abs_sum; move: (a_srf_abs h i 0) a0 (r_sol_fnt F) => a /eqP a0 r.
  by ffold F; field; exact: a0.
rewrite /q_sol_frt smulE; move: (r_sol_fnt F) => r; ffold F; ring.
Qed.

End Solar.

Section Off.
Variable F : realFieldType.
Variables ni nj nm : nat.
Add Field Ffield : (ffield_theory F).
Ltac fring := ffold F; ring.
Ltac ffield := ffold F; field.
Variable ot : ot_fun F ni.
Variable infil : infil_fun F ni.
Variable x_sat : F -> F.
Variables (dt : F) (h : house F ni nj nm) (q : pp F ni nj) (s : step_data F ni nj).
Variables (c c' : conditions F ni nj nm) (o : outputs F ni nj).
Hypothesis Hq : make_pp h dt = Some q.
Hypothesis Ht : run_tick ot infil x_sat dt h q s c = Some (c', o).
Hypothesis caph : forall i, 0 <= cap_h h i 0.
Hypothesis capc : forall i, 0 <= cap_c h i 0.

Lemma tick_off i : operation_mode c' i <> HEATING -> operation_mode c' i <> COOLING ->
  o_l_cs o i 0 = 0 /\ o_l_rs o i 0 = 0.
Proof.
move=> nh nc.
case: (run_tickP Ht) => md lo up wsc wsv v_out brc brm xot kc kr ? ? ? ? ? ? ? ?.
move=> ? mdE ? ? ? ? ? ? ? ? ? ? ? ? ? ? ? Ec _ _ _ _ _ _ _ _ _ _ _ _ _ _ _ _.
have uE : brm *m xot *m (invmx (brm *m xot) *m
   (brc + brm *m (xot *m (emul kr (f_mrt_hum_is_js h *m (wsc + wsv)))))) = 
   brc + brm *m (xot *m (emul kr (f_mrt_hum_is_js h *m (wsc + wsv)))).
  by rewrite mulKVmx // (calc_unit Ec).
apply: (calc_off Ec caph capc uE).
  by move: nh; rewrite mdE /heats; case: (md i).
by move: nc; rewrite mdE /cools; case: (md i).
Qed.

Lemma tick_all_off : (forall i, operation_mode c' i <> HEATING /\ operation_mode c' i <> COOLING) ->
  o_l_cs o = 0 /\ o_l_rs o = 0.
Proof.
by move=> H; split; apply/matrixP => i j; rewrite (ord1 j) [RHS]mxE; have [n1 n2] := H i;
  have [] := tick_off n1 n2.
Qed.

Section Equil.
Variable T : F.
Hypothesis Hb : physical_boundaries h.
Hypothesis Hr : physical_rooms dt h.
Hypothesis Ha : physical_air h s.
Hypothesis infil_ge0 : forall tr to i, 0 <= infil tr to i 0.
Hypothesis no_int : forall i k, v_int h i k = 0.
Hypothesis k_one : forall j, k_eo h j 0 + kin h j = 1.
Hypothesis r_ne1 : forall j m, r_ms h j m != 1.
Hypothesis phi_one : forall j, phi_t0 h j 0 + \sum_m phi_t1 h j m / (1 - r_ms h j m) = 1.
Hypothesis hum_one : forall i : 'I_ni, \sum_(j | conn h j == i) f_mrt_hum h j 0 = 1.
Hypothesis off : forall i, operation_mode c' i <> HEATING /\ operation_mode c' i <> COOLING.
(* outdoors *)
Hypothesis outE : theta_o s = T.
Hypothesis solE : theta_o_sol s = const_mx T.
Hypothesis genE : q_gen s = 0.
Hypothesis humE : n_hum s = 0.
Hypothesis trsE : q_trs_sol s = 0.
(* state *)
Hypothesis rE : theta_r c = const_mx T.
Hypothesis frE : theta_frt c = const_mx T.
Hypothesis eiE : theta_ei c = const_mx T.
Hypothesis qE : q_srf c = 0.
Hypothesis daE : theta_dsh_a c = 0.
Hypothesis dtE : theta_dsh_t c = \matrix_(j, m) (phi_t1 h j m / (1 - r_ms h j m) * T).

Lemma eq_rear : o_theta_rear o = const_mx T.
Proof.
case: (run_tickP Ht) => md lo up wsc wsv v_out brc brm xot kc kr ? ? ? ? ? ? ? ?.
move=> _ _ E *; rewrite E eiE; apply/matrixP => j l; rewrite (ord1 l) addE.
rewrite /theta_dstrb emulE solE k_eiE ![const_mx _ _ _]mxE.
have := k_one j; rewrite /kin; case: (k_ei h j) => [[k coef]|]; last by rewrite addr0 => ->; fring.
by move/(canRL (addrK _)) => ->; rewrite [const_mx _ _ _]mxE; fring.
Qed.

Lemma eq_da : theta_dsh_a c' = 0.
Proof.
case: (run_tickP Ht) => md lo up wsc wsv v_out brc brm xot kc kr ? ? ? ? ? ? ? ?.
move=> _ _ _ _ _ _ E *; rewrite E qE daE; apply/matrixP => j m; rewrite !mxE; fring.
Qed.

Lemma eq_dt : theta_dsh_t c' = theta_dsh_t c.
Proof.
case: (run_tickP Ht) => md lo up wsc wsv v_out brc brm xot kc kr ? ? ? ? ? ? ? ?.
move=> _ _ _ _ _ _ _ E *; rewrite E eq_rear dtE; apply/matrixP => j m; rewrite !mxE.
have /eqP h1 : 1 - r_ms h j m != 0 by rewrite subr_eq0 eq_sym r_ne1.
by ffield; exact: h1.
Qed.

Lemma eq_q_sol : q_sol_js h s = 0.
Proof.
rewrite /q_sol_js trsE; apply/matrixP => j l; rewrite smulE emulE /dot.
rewrite (p_jsE Hb) !mxE; fring.
Qed.

Lemma eq_crx j : crx h s j 0 = phi_t0 h j 0 * k_eo h j 0 * T.
Proof. by rewrite /crx /dot eq_q_sol mulmx0 /theta_dstrb solE !mxE; fring. Qed.

Lemma eq_ax : ax h *m (const_mx T : 'cV_nj) = fia h *m (const_mx T : 'cV_ni) + crx h s
  + rowsum (theta_dsh_t c' + theta_dsh_a c').
Proof.
have cst m n (A : 'M[F]_(m, n)) i : (A *m (const_mx T : 'cV_n)) i 0 = T * \sum_k A i k.
  by rewrite mxE mulr_sumr; apply: eq_bigr => k _; rewrite [const_mx _ _ _]mxE mulrC.
apply/matrixP => j l; rewrite (ord1 l); move: (eq_crx j); move: (crx h s) => cx cxE.
rewrite !addE !cst cxE (ax_sum Hb) (fia_sum Hb).
rewrite /rowsum matE eq_da addr0 eq_dt dtE.
have -> : \sum_k (\matrix_(j, m) (phi_t1 h j m / (1 - r_ms h j m) * T) : 'M[F]_(nj, nm)) j k
   = (1 - phi_t0 h j 0) * T.
  have -> : 1 - phi_t0 h j 0 = \sum_m phi_t1 h j m / (1 - r_ms h j m).
    by apply/eqP; rewrite subr_eq addrC phi_one.
  by rewrite mulr_suml; apply: eq_bigr => k _; rewrite mxE.
have -> : k_eo h j 0 = 1 - kin h j by apply/eqP; rewrite eq_sym subr_eq k_one.
have := hi_gt0 Hb j; rewrite /h_i addE => hi0.
have /eqP hi1 : h_c h j 0 + h_r h j 0 != 0 by rewrite gt_eqF.
by ffield; exact: hi1.
Qed.

Lemma eq_voutge i : (o_v_leak o + v_mec h s + o_v_ntrl o) i 0 >= 0.
Proof.
case: (run_tickP Ht) => md lo up wsc wsv v_out brc brm xot kc kr ? ? ? ? ? ? ? ?.
move=> otE _ _ _ _ lkE _ _ _ _ ntE *; rewrite lkE ntE.
exact: v_out_ge0.
Qed.

Lemma lin_walls (A B : 'M[F]_nj) (fi W : 'M[F]_(nj, ni)) (cx rs ts tc w1 w2 : 'cV[F]_nj) (tr tcr : 'cV[F]_ni) :
  B *m A = 1%:M -> W = B *m fi -> A *m ts = fi *m tr + cx + rs -> ts = W *m tr + w1 + w2 ->
  A *m tc = fi *m tcr + cx + rs -> w1 + w2 = tc - W *m tcr.
Proof.
move=> BA -> e1 e2 e3; have f1 : ts = B *m fi *m tr + B *m (cx + rs).
  by rewrite -mulmxA -mulmxDr addrA -e1 mulmxA BA mul1mx.
have -> : tc = B *m fi *m tcr + B *m (cx + rs).
  by rewrite -mulmxA -mulmxDr addrA -e3 mulmxA BA mul1mx.
move: e2; rewrite f1 -addrA => /addrI <-; by rewrite [in RHS]addrC addKr.
Qed.

Lemma eq_room : theta_r c' = const_mx T.
Proof.
have [v_out [wsc [wsv /= [vE tsE mx]]]] := room_mx Ht.
have [l1 l2] := tick_all_off off.
have v0 i : 0 <= v_out i 0 by rewrite vE eq_voutge.
move: tsE mx; rewrite l1 l2 !mulmx0 add0r addr0 add0r => tsE mx.
have [/inv_mulV[axi xai] wsrE _ _ _] := ppE Hq.
(* what the walls contribute *)
have wcv : wsc + wsv = const_mx T - wsr q *m (const_mx T : 'cV_ni).
  have := surf_eq Hq Ht; rewrite l2 mulmx0 addr0 => sE.
  exact: (lin_walls xai wsrE sE tsE eq_ax).
have qh : o_q_hum o = 0.
  case: (run_tickP Ht) => ? ? ? ? ? ? ? ? ? ? ? ? ? ? ? ? ? ? ? _ _ _ E *.
  by rewrite E humE; apply/matrixP => a b; rewrite !mxE mulr0.
have qf : q_sol_frt s = 0 by rewrite /q_sol_frt trsE; apply/matrixP => a b; rewrite !mxE mulr0.
rewrite qf qh genE rE frE outE wcv in mx; set BRM := (_ + smul _ _) in mx.
suff : BRM *m (theta_r c' - const_mx T) = 0.
  by move/(sdd_inj (brm_sdd Hb Hr Hq v0))/eqP; rewrite subr_eq0 => /eqP.
rewrite mulmxBr mx; apply/eqP; rewrite subr_eq0; apply/eqP.
have cst m n (A : 'M[F]_(m, n)) i : (A *m (const_mx T : 'cV_n)) i 0 = T * \sum_k A i k.
  by rewrite mxE mulr_sumr; apply: eq_bigr => k _; rewrite [const_mx _ _ _]mxE mulrC.
apply/matrixP => i l; rewrite (ord1 l) cst !addE p_isE !matE ![const_mx _ _ _]mxE.
have -> : \sum_k BRM i k = \sum_k brm_non_vent q i k + c_air F * rho_air F * v_out i 0.
  rewrite /BRM; under eq_bigr do rewrite addE smulE addE no_int addr0 vdiagE.
  rewrite big_split /= -mulr_sumr -big_mkcond /= [X in _ + _ * X](big_pred1 i) // => k.
  by rewrite /= eq_sym.
under [in RHS]eq_bigr do rewrite (brm_nvE Hq).
rewrite sumrB -big_mkcond /= (big_pred1 i) => [|k]; last by rewrite eq_sym.
rewrite exchange_big /=.
have -> : \sum_(j | conn h j == i) emul (emul (h_c h) (a_srf h)) (const_mx T - wsr q *m (const_mx T : 'cV_ni)) j 0
  = T * (\sum_(j | conn h j == i) hca h j - \sum_(j | conn h j == i) \sum_k hca h j * wsr q j k).
  rewrite -sumrB mulr_sumr; apply: eq_bigr => j _.
  rewrite !emulE subE cst [const_mx _ _ _]mxE -mulr_sumr /hca; fring.
have c0 : c_sh h i 0 + dt * g_sh h i 0 != 0.
  rewrite gt_eqF //; apply: ltr_paddr (ph_c_sh Hr i).
  exact: mulr_ge0 (ltW (ph_dt Hr)) (ph_g_sh Hr i).
rewrite [g_sh h i 0 * dt]mulrC; move: c0; set D := (c_sh h i 0 + _) => c0.
rewrite /c_rm matE; move: (_ * c_air F / dt) (\sum_(_ | _) hca h _) (\sum_(_ | _) \sum_(_ | _) _) (v_out i 0) => x1 x2 x3 x4.
by move/eqP: c0 => c0; ffield; exact: c0.
Qed.

Lemma eq_surf : o_theta_s o = const_mx T.
Proof.
have [l1 l2] := tick_all_off off.
have [/inv_mulV[axi xai] wsrE _ _ _] := ppE Hq.
have := surf_eq Hq Ht; rewrite l2 mulmx0 addr0 eq_room -eq_ax.
by move/(congr1 (fun z => ivs_ax q *m z)); rewrite !mulmxA xai !mul1mx.
Qed.

Lemma eq_furn : theta_frt c' = const_mx T.
Proof.
have qf : q_sol_frt s = 0 by rewrite /q_sol_frt trsE; apply/matrixP => a b; rewrite !mxE mulr0.
case: (run_tickP Ht) => ? ? ? ? ? ? ? ? ? ? ? ? ? ? ? ? ? ? ?.
move=> _ _ _ _ _ _ _ _ _ _ _ _ _ _ _ _ _ _ _ E *.
rewrite E eq_room frE qf; apply/matrixP => i l; rewrite !mxE.
have /eqP c0 : c_sh h i 0 + dt * g_sh h i 0 != 0.
  rewrite gt_eqF //; apply: ltr_paddr (ph_c_sh Hr i).
  exact: mulr_ge0 (ltW (ph_dt Hr)) (ph_g_sh Hr i).
by ffield; exact: c0.
Qed.

Lemma eq_mrt : theta_mrt_hum c' = const_mx T.
Proof.
case: (run_tickP Ht) => ? ? ? ? ? ? ? ? ? ? ? ? ? ? ? ? ? ? ?.
move=> _ _ _ _ _ _ _ _ _ _ _ _ _ _ _ _ _ _ _ _ _ E *.
rewrite E eq_surf; apply/matrixP => i l; rewrite (ord1 l) mxE.
transitivity (\sum_(j | conn h j == i) f_mrt_hum h j 0 * T).
  rewrite [RHS]big_mkcond /=; apply: eq_bigr => j _; rewrite !mxE.
  by case: (_ == _); rewrite ?mul1r ?mul0r.
by rewrite -mulr_suml hum_one mul1r mxE.
Qed.

Lemma eq_ei : theta_ei c' = const_mx T.
Proof.
have [l1 l2] := tick_all_off off.
case: (run_tickP Ht) => ? ? ? ? ? ? ? ? ? ? ? ? ? ? ? ? ? ? ?.
move=> _ _ _ _ _ _ _ _ _ _ _ _ _ _ _ _ _ _ _ _ _ _ E *.
rewrite E eq_surf eq_room l2 eq_q_sol; apply/matrixP => j l; rewrite matE [RHS]mxE.
have -> : emul (ssub 1 (beta h)) (0 : 'cV[F]_ni) = 0.
  by apply/matrixP => a b; rewrite !mxE mulr0.
rewrite mulmx0 (p_jsE Hb) [const_mx _ _ _]mxE.
have -> : (p_js_is h *m f_mrt_is_js h *m (const_mx T : 'cV_nj)) j 0 = T.
  rewrite mxE; under eq_bigr do rewrite [const_mx _ _ _]mxE.
  by rewrite -mulr_suml (pf_sum Hb) mul1r.
rewrite ![(0 : matrix _ _ _) _ _]mxE.
have := hi_gt0 Hb j; rewrite /h_i addE => hi0.
have /eqP hi1 : h_c h j 0 + h_r h j 0 != 0 by rewrite gt_eqF.
by rewrite mul0r; ffield; exact: hi1.
Qed.

Lemma eq_q : q_srf c' = 0.
Proof.
case: (run_tickP Ht) => ? ? ? ? ? ? ? ? ? ? ? ? ? ? ? ? ? ? ?.
move=> _ _ _ _ _ _ _ _ _ _ _ _ _ _ _ _ _ _ _ _ _ _ _ E *.
by rewrite E eq_ei eq_surf subrr; apply/matrixP => a b; rewrite !mxE mul0r.
Qed.

End Equil.
End Off.
