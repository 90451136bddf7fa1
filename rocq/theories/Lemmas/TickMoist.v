(* Moisture balance (C09) and dehumidification (C10) of a completed step. *)
From mathcomp Require Import all_ssreflect ssralg ssrnum zmodp matrix.
From Coq Require Import Ring Field.
From Verif Require Import Model.OperationMode Model.Numpy Model.NextCondition Model.PreCalc
  Model.HeatExchanger Model.Tick Spec.Physical.
From Verif Require Import Lemmas.FieldTac Lemmas.NumpyL Lemmas.NextConditionL Lemmas.TickL
  Lemmas.TickBalance Lemmas.MMatrix Lemmas.TickTotal.
Set Implicit Arguments. Unset Strict Implicit. Unset Printing Implicit Defensive.
Import Order.TTheory GRing.Theory Num.Theory.
Local Open Scope ring_scope.

Section TickMoist.
Variable F : realFieldType.
Variables ni nj nm : nat.
Add Field Ffield : (ffield_theory F).
Ltac fring := ffold F; ring.
Ltac ffield := ffold F; field.

Variable ot : ot_fun F ni.
Variable infil : infil_fun F ni.
Variable x_sat : F -> F.
Variables (dt : F) (h : house F ni nj nm) (q : pp F ni nj) (s : step_data F ni nj).
Variables (c c' : conditions F ni nj nm) (o : outputs F ni nj).
Hypothesis Ht : run_tick ot infil x_sat dt h q s c = Some (c', o).

Lemma l_wtr_gt0 : 0 < l_wtr F.
Proof. by rewrite /l_wtr mulr_gt0 // ltr0n. Qed.

Lemma latent_out i : c_lh h i 0 + dt * g_lh h i 0 != 0 ->
  v_room h i 0 * rho_air F / dt * (x_r c' i 0 - x_r c i 0) =
    rho_air F * (o_v_leak o i 0 + (v_vent_ex h i 0 + v_mec_local s i 0) + o_v_ntrl o i 0)
      * (x_o s - x_r c' i 0)
    + rho_air F * (\sum_k v_int h i k * x_r c' k 0)
    + x_gen s i 0 + o_x_hum o i 0
    + g_lh h i 0 * (x_frt c' i 0 - x_r c' i 0)
    + o_l_cl o i 0 / l_wtr F.
Proof.
move=> hne.
case: (run_tickP Ht) => md lo up ? ? v_out ? ? xot kc kr g_lat brmx0 brmx0i brmx brmxi brxc0 brmx_rac brxc_rac.
move=> _ _ _ _ _ _ _ _ _ _ _ vE _ _ _ _ _ _ _ _ _ _ _ _ gE m0E b0E _ _ mE /inv_mulV[mi _] xE lE frtE.
have vEi : v_out i 0 = o_v_leak o i 0 + (v_vent_ex h i 0 + v_mec_local s i 0) + o_v_ntrl o i 0.
  by rewrite vE /v_mec !mxE.
have E : (brmx0 *m x_r c') i 0 = brxc0 i 0 + o_l_cl o i 0 / l_wtr F.
  rewrite lE smulE oppE subE.
  have : brmx *m x_r c' = brxc0 + brxc_rac by rewrite xE mulmxA mi mul1mx.
  rewrite mE mulmxDl => /matrixP/(_ i 0); rewrite !addE => Ei.
  have l0 := l_wtr_gt0; have /eqP l1 : l_wtr F != 0 by rewrite gt_eqF.
  have {}Ei : (brmx0 *m x_r c') i 0 = brxc0 i 0 + brxc_rac i 0 - (brmx_rac *m x_r c') i 0.
    by rewrite -Ei; fring.
  rewrite Ei; move: (l_wtr F) l1 => l l1.
  by ffield; exact: l1.
have {}E : rho_air F * (v_room h i 0 / dt + v_out i 0) * x_r c' i 0
   - rho_air F * (\sum_k v_int h i k * x_r c' k 0) + g_lat i 0 * x_r c' i 0
   = brxc0 i 0 + o_l_cl o i 0 / l_wtr F.
  rewrite -E m0E mulmxDl vdiag_mulE addE cmulE.
  have -> : smul (rho_air F) (vdiag (\matrix_(i, _) (v_room h i 0 / dt + v_out i 0)) - v_int h)
    = (rho_air F) *: (vdiag (\matrix_(i, _) (v_room h i 0 / dt + v_out i 0)) - v_int h).
    by apply/matrixP => a b; rewrite !mxE.
  rewrite -scalemxAl mulmxBl vdiag_mulE [X in _ = X + _]mxE subE cmulE matE [(v_int h *m _) _ _]mxE; fring.
move: E; rewrite b0E !addE !matE vEi gE !matE frtE !mxE.
move: (\sum_k _) => S; move: (rho_air F) => rho; move: (_ / l_wtr F) => l.
move: (o_v_leak o i 0 + _ + _) => V; move: (dt^-1) => di.
move: hne => /eqP hne /eqP; rewrite -subr_eq0 => /eqP E.
apply/eqP; rewrite -subr_eq0; apply/eqP; rewrite -[RHS]E; ffield; exact: hne.
Qed.

(* the coil of the air conditioner in room i, as seen by the final state of the step *)
Definition coil_flow i : F := get_vac (q_max h i 0) (q_min h i 0) (- o_l_cs o i 0) (v_max h i 0) (v_min h i 0).
Definition coil_x i : F := get_x_e_out x_sat (- o_l_cs o i 0) (theta_r c' i 0) (coil_flow i).

Lemma dehumid_rows x brmx brxc :
  get_dehumid_coeff x_sat (o_l_cs o) (theta_r c') (q_max h) (q_min h) (v_max h) (v_min h) x = (brmx, brxc) ->
  let w : 'cV[F]_ni := \matrix_(i, _)
    if (1 / 1000%:R < - o_l_cs o i 0) && (coil_x i <= x i 0)
    then rho_air F * ((1 - bf F) * coil_flow i) else 0 in
  brmx = vdiag w /\ forall i, brxc i 0 = w i 0 * coil_x i.
Proof.
rewrite /get_dehumid_coeff => -[<- <-] /=; split=> [|i].
  congr vdiag; apply/matrixP => i j; rewrite !mxE eqxx.
  rewrite -/(coil_flow i); case: (1 / 1000%:R < - o_l_cs o i 0) => /=; rewrite -?/(coil_x i).
    by rewrite leNgt; case: (_ < coil_x i).
  by case: (_ < _) => //; rewrite !mulr0.
rewrite !mxE -/(coil_flow i); case: (1 / 1000%:R < - o_l_cs o i 0) => /=; rewrite -?/(coil_x i).
  by rewrite leNgt; case: (_ < coil_x i); rewrite /= ?mul0r.
by rewrite mul0r mulr0; case: ifP.
Qed.

(* what the coil takes out, in terms of the humidity found without dehumidification *)
Lemma latent_cases : exists x0 : 'cV[F]_ni, forall i,
  o_l_cl o i 0 = if (1 / 1000%:R < - o_l_cs o i 0) && (coil_x i <= x0 i 0)
    then - (l_wtr F * (rho_air F * ((1 - bf F) * coil_flow i)) * (x_r c' i 0 - coil_x i)) else 0.
Proof.
case: (run_tickP Ht) => md lo up ? ? v_out ? ? xot kc kr g_lat brmx0 brmx0i brmx brmxi brxc0 brmx_rac brxc_rac.
move=> _ _ _ _ _ _ _ _ _ _ _ vE _ _ _ _ _ _ _ _ _ _ _ _ gE m0E b0E m0i dE mE mi xE lE frtE.
exists (brmx0i *m brxc0) => i; have [wE cE] := dehumid_rows dE.
rewrite lE smulE oppE subE cE wE vdiag_mulE cmulE matE.
by case: ifP => _; fring.
Qed.

Section Decision.
Hypothesis Hr : physical_rooms dt h.
Hypothesis v_out_ge0 : forall i, 0 <= o_v_leak o i 0 + (v_vent_ex h i 0 + v_mec_local s i 0) + o_v_ntrl o i 0.

Lemma coil_flow_ge0 i : 1 / 1000%:R < - o_l_cs o i 0 -> 0 <= coil_flow i.
Proof.
move=> H; apply: (vac_ge0 Hr); apply: ltW; apply: lt_trans H.
by rewrite divr_gt0 ?ltr01 // ltr0n.
Qed.

Lemma bf_lt1 : 0 < 1 - bf F.
Proof. by rewrite /bf subr_gt0 ltr_pdivr_mulr ?ltr0n // mul1r ltr_nat. Qed.

(* eq. (5) of the derivation holds with the final humidity, in a room that gets no air from other rooms *)
Lemma latent_final i : (forall k, i != k -> v_int h i k = 0) -> o_l_cl o i 0 = if 1 / 1000%:R < - o_l_cs o i 0 then
    - (l_wtr F * (rho_air F * ((1 - bf F) * coil_flow i)) * Num.max 0 (x_r c' i 0 - coil_x i)) else 0.
Proof.
move=> no_int; case: (run_tickP Ht) => md lo up ? ? v_out ? ? xot kc kr g_lat brmx0 brmx0i brmx brmxi brxc0 brmx_rac brxc_rac.
move=> _ _ _ _ _ _ _ _ _ _ _ vE _ _ _ _ _ _ _ _ _ _ _ _ gE m0E b0E m0i dE mE mi xE lE frtE.
have [wE cE] := dehumid_rows dE.
rewrite lE smulE oppE subE cE wE vdiag_mulE cmulE matE.
case dh: (1 / 1000%:R < - o_l_cs o i 0); rewrite /= ?mul0r ?subrr ?oppr0 ?mulr0 //.
set x0 := brmx0i *m brxc0; set W := rho_air F * _.
have W0 : 0 <= W by rewrite mulr_ge0 ?(ltW (rho_air_gt0 _)) // mulr_ge0 ?(ltW bf_lt1) // coil_flow_ge0.
have vEi : v_out i 0 = o_v_leak o i 0 + (v_vent_ex h i 0 + v_mec_local s i 0) + o_v_ntrl o i 0.
  by rewrite vE /v_mec !mxE.
(* the matrix is diagonal *)
have dg (y : 'cV[F]_ni) : (brmx0 *m y) i 0 = brmx0 i i * y i 0.
  rewrite mul_diag big1 ?addr0 // => k nki; rewrite m0E addE smulE subE !vdiagE eq_sym (negbTE nki).
  by rewrite no_int 1?eq_sym // subrr mulr0 addr0 mul0r.
set a := brmx0 i i in dg.
have a0 : 0 < a.
  rewrite /a m0E addE smulE subE !vdiagE eqxx matE gE matE vEi.
  have vi : v_int h i i < v_room h i 0 / dt.
    have := ph_v_int_sum Hr i; rewrite (bigD1 i) //= big1 ?addr0 // => k nki.
    by rewrite no_int // eq_sym.
  apply: ltr_paddr.
    rewrite divr_ge0 ?mulr_ge0 ?(ltW (ph_c_lh Hr i)) ?(ph_g_lh Hr i) //.
    by rewrite addr_ge0 ?mulr_ge0 ?(ltW (ph_c_lh Hr i)) ?(ph_g_lh Hr i) ?(ltW (ph_dt Hr)).
  apply: (mulr_gt0 (rho_air_gt0 F)); move: (v_out_ge0 i); move: (_ + o_v_ntrl o i 0) => v v0.
  by rewrite addrAC; apply: (ltr_paddr v0); rewrite subr_gt0.
have b0 : a * x0 i 0 = brxc0 i 0.
  by have [m1 _] := inv_mulV m0i; rewrite -dg /x0 mulmxA m1 mul1mx.
have {}xE : brmx *m x_r c' = brxc0 + brxc_rac by have [m1 _] := inv_mulV mi; rewrite xE mulmxA m1 mul1mx.
move/matrixP/(_ i 0): xE; rewrite mE mulmxDl !addE dg wE vdiag_mulE cmulE cE matE dh /= -/W -b0.
case: ifP => ex xE; last first.
  move: xE; rewrite !mul0r !addr0 => /(mulfI (lt0r_neq0 a0)) xE.
  rewrite xE max_l; first by fring.
  by rewrite subr_le0 ltW // ltNge ex.
have E : (a + W) * (x_r c' i 0 - coil_x i) = a * (x0 i 0 - coil_x i).
  by rewrite mulrBr mulrDl xE; fring.
rewrite max_r; first by fring.
have aW : 0 < a + W by apply: ltr_paddr W0 a0.
by rewrite -(pmulr_rge0 _ aW) E pmulr_rge0 // subr_ge0.
Qed.

Lemma latent_le0 i : (forall k, i != k -> v_int h i k = 0) -> o_l_cl o i 0 <= 0.
Proof.
move=> no_int; rewrite latent_final //; case: ifP => // dh; rewrite oppr_le0.
move: (coil_flow_ge0 dh); move: (coil_flow i) (coil_x i) => v x v0.
apply: mulr_ge0; last by rewrite le_maxr lexx.
exact: mulr_ge0 (ltW l_wtr_gt0) (mulr_ge0 (ltW (rho_air_gt0 F)) (mulr_ge0 (ltW bf_lt1) v0)).
Qed.

End Decision.
End TickMoist.
