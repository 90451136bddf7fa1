(* Radiant exchange inside a room conserves energy, and the first law for a room (C54). *)
From mathcomp Require Import all_ssreflect ssralg ssrnum zmodp matrix.
From Coq Require Import Ring Field.
From Verif Require Import Model.OperationMode Model.Numpy Model.NextCondition Model.PreCalc
  Model.HeatExchanger Model.Tick Spec.Physical.
From Verif Require Import Lemmas.FieldTac Lemmas.NumpyL Lemmas.NextConditionL Lemmas.TickL
  Lemmas.TickBalance Lemmas.MMatrix Lemmas.TickTotal Lemmas.TickEquil.
Set Implicit Arguments. Unset Strict Implicit. Unset Printing Implicit Defensive.
Import Order.TTheory GRing.Theory Num.Theory.
Local Open Scope ring_scope.

Section TickEnergy.
Variable F : realFieldType.
Variables ni nj nm : nat.
Add Field Ffield : (ffield_theory F).
Ltac fring := ffold F; ring.
Ltac ffield := ffold F; field.

Variable ot : ot_fun F ni.
Variable infil : infil_fun F ni.
Variable x_sat : F -> F.
Variables (dt : F) (h : house F ni nj nm) (q : pp F ni nj) (s : step_data F ni nj).
Variables (c c' : conditions F ni nj nm) (o : outputs F ni nj).
Hypothesis Hq : make_pp h dt = Some q.
Hypothesis Ht : run_tick ot infil x_sat dt h q s c = Some (c', o).
Hypothesis Hb : physical_boundaries h.

(* mean radiant temperature seen by the surfaces of room i *)
Definition mrt_surf (i : 'I_ni) : F := \sum_j f_mrt_is_js h i j * o_theta_s o j 0.

Lemma radiant_exchange (i : 'I_ni) :
  \sum_(j | conn h j == i) a_srf h j 0 * h_r h j 0 * (mrt_surf i - o_theta_s o j 0) = 0.
Proof.
under eq_bigr do rewrite mulrBr; rewrite sumrB -mulr_suml; apply/eqP; rewrite subr_eq0; apply/eqP.
have mE : mrt_surf i = (\sum_(j | conn h j == i) a_srf h j 0 * h_r h j 0 * o_theta_s o j 0)
    / \sum_(j | conn h j == i) a_srf h j 0 * h_r h j 0.
  rewrite /mrt_surf mulr_suml [RHS]big_mkcond /=; apply: eq_bigr => j _.
  by rewrite f_mrtE -/(ah_sum h i); case: ifP; rewrite ?mul0r // mulrAC.
case: (pickP (fun j => conn h j == i)) => [j ji|none]; last by rewrite !big_pred0 // mul0r.
have : 0 < \sum_(j | conn h j == i) a_srf h j 0 * h_r h j 0.
  have /eqP ij : room_of Hb j == i by apply/eqP/val_inj; rewrite /= (eqP ji).
  by have := ah_sum_gt0 Hb j; rewrite ij.
by move=> /gt_eqF a0; rewrite mE mulrC divfK // a0.
Qed.

(* heat flow into one surface *)
Lemma q_srf_parts j (i : 'I_ni) : conn h j = i :> nat -> q_srf c' j 0 =
  h_c h j 0 * (theta_r c' i 0 - o_theta_s o j 0) + h_r h j 0 * (mrt_surf i - o_theta_s o j 0)
  + q_sol_js h s j 0 + flr h j 0 * ((1 - beta h i 0) * o_l_rs o i 0) / a_srf h j 0.
Proof.
move=> ji; rewrite (q_srfE Ht) (theta_eiE Ht) (p_js_mulE _ ji).
have -> : ((p_js_is h *m f_mrt_is_js h) *m o_theta_s o) j 0 = mrt_surf i.
  by rewrite -mulmxA (p_js_mulE _ ji) mxE.
have -> : (flr_js_is h *m emul (ssub 1 (beta h)) (o_l_rs o)) j 0
  = flr h j 0 * ((1 - beta h i 0) * o_l_rs o i 0).
  by rewrite /flr_js_is cmul_mulE (p_js_mulE _ ji) !mxE.
move: (q_sol_js h s j 0) => Q.
have /eqP h0 : h_c h j 0 + h_r h j 0 != 0 by rewrite gt_eqF // addr_gt0 ?(ph_hc Hb) ?(ph_hr Hb).
have /eqP a0 : a_srf h j 0 != 0 by rewrite gt_eqF // (ph_area Hb).
by ffield; split; [exact: a0 | exact: h0].
Qed.

Lemma wall_heat (i : 'I_ni) :
  \sum_(j | conn h j == i) a_srf h j 0 * q_srf c' j 0 =
    (\sum_(j | conn h j == i) h_c h j 0 * a_srf h j 0 * (theta_r c' i 0 - o_theta_s o j 0))
    + (\sum_(j | conn h j == i) a_srf h j 0 * q_sol_js h s j 0)
    + (1 - beta h i 0) * o_l_rs o i 0 * \sum_(j | conn h j == i) flr h j 0.
Proof.
have := radiant_exchange i; move: (mrt_surf i) (@q_srf_parts^~ i) => m /= parts rad.
rewrite mulr_sumr -[RHS](addr0) -[X in _ = _ + X]rad -!big_split /=; apply: eq_bigr => j /eqP ji.
rewrite (parts j ji); move: (q_sol_js h s j 0) => Q.
have /eqP a0 : a_srf h j 0 != 0 by rewrite gt_eqF // (ph_area Hb).
by ffield; exact: a0.
Qed.

Lemma energy_law (i : 'I_ni) : dt != 0 -> c_sh h i 0 + dt * g_sh h i 0 != 0 -> a_srf_abs h i 0 != 0 ->
  (o_l_rs o i 0 != 0 -> \sum_(j | conn h j == i) flr h j 0 = 1) ->
  (forall k, v_int h i k = 0) ->
  c_rm h i 0 * (theta_r c' i 0 - theta_r c i 0) / dt
  + c_sh h i 0 * (theta_frt c' i 0 - theta_frt c i 0) / dt
  + (\sum_(j | conn h j == i) a_srf h j 0 * q_srf c' j 0) =
    c_air F * rho_air F * (o_v_leak o i 0 + (v_vent_ex h i 0 + v_mec_local s i 0) + o_v_ntrl o i 0)
      * (theta_o s - theta_r c' i 0)
    + q_gen s i 0 + o_q_hum o i 0 + q_trs_sol s i 0 + o_l_cs o i 0 + o_l_rs o i 0.
Proof.
move=> /eqP dt0 f0 abs0 fl v0.
have rb := room_balance Hq Ht f0; have fb := frt_heat Ht f0; have sol := solar_split s abs0.
have vs : \sum_k v_int h i k * theta_r c' k 0 = 0 by rewrite big1 // => k _; rewrite v0 mul0r.
rewrite vs in rb.
have flE : (1 - beta h i 0) * o_l_rs o i 0 * (\sum_(j | conn h j == i) flr h j 0)
  = (1 - beta h i 0) * o_l_rs o i 0.
  by case: (eqVneq (o_l_rs o i 0) 0) => [->|/fl ->]; rewrite ?mulr0 ?mul0r ?mulr1.
rewrite wall_heat flE.
have -> : c_sh h i 0 * (theta_frt c' i 0 - theta_frt c i 0) / dt
  = g_sh h i 0 * (theta_r c' i 0 - theta_frt c' i 0) + q_sol_frt s i 0.
  by rewrite fb; move: (q_sol_frt s i 0) => S; ffield; exact: dt0.
rewrite -sol.
have neg : \sum_(j | conn h j == i) h_c h j 0 * a_srf h j 0 * (theta_r c' i 0 - o_theta_s o j 0)
  = - \sum_(j | conn h j == i) h_c h j 0 * a_srf h j 0 * (o_theta_s o j 0 - theta_r c' i 0).
  by rewrite -sumrN; apply: eq_bigr => j _; fring.
have -> : c_rm h i 0 * (theta_r c' i 0 - theta_r c i 0) / dt
  = c_rm h i 0 / dt * (theta_r c' i 0 - theta_r c i 0) by fring.
rewrite neg rb.
move: (q_sol_frt s i 0) (\sum_(j | _) a_srf h j 0 * q_sol_js h s j 0) => S1 S2.
by move: (\sum_(j | _) _) => S3; fring.
Qed.

End TickEnergy.

Section Any.
Variable F : realFieldType.
Variables ni nj nm : nat.
Variable h : house F ni nj nm.
Hypothesis Hb : physical_boundaries h.

Lemma radiant_exchange_any (t : 'cV[F]_nj) (i : 'I_ni) :
  \sum_(j | conn h j == i) a_srf h j 0 * h_r h j 0 * ((f_mrt_is_js h *m t) i 0 - t j 0) = 0.
Proof.
have := @radiant_exchange F ni nj nm h (Outputs 0 0 0 0 0 0 0 0 0 0 t 0) Hb i.
rewrite /mrt_surf /= => H; transitivity (0 : F); last by [].
by rewrite -[RHS]H; apply: eq_bigr => j _; rewrite [(_ *m _) _ _]mxE.
Qed.

Lemma solar_conserved (s : step_data F ni nj) (i : 'I_ni) : (exists j, conn h j = i :> nat /\ is_solar_abs h j) ->
  q_sol_frt s i 0 + \sum_(j | conn h j == i) a_srf h j 0 * q_sol_js h s j 0 = q_trs_sol s i 0 /\
  forall j, is_solar_abs h j = false -> q_sol_js h s j 0 = 0.
Proof.
move=> [j [ji aj]]; split.
  apply: solar_split; rewrite a_abs_sum gt_eqF // (bigD1 j) /=; last by rewrite ji eqxx.
  apply: ltr_paddr (ph_area Hb j); apply: sumr_ge0 => k _; exact/ltW/(ph_area Hb).
by move=> k ak; rewrite (@q_sol_jsE _ _ _ _ _ _ _ (Ordinal (ph_conn Hb k))) // ak.
Qed.

Lemma mrt_weights :
  (forall i j, 0 <= f_mrt_is_js h i j) /\ (forall (i : 'I_ni) j, conn h j <> i :> nat -> f_mrt_is_js h i j = 0) /\
  (forall i : 'I_ni, (exists j, conn h j = i :> nat) -> \sum_j f_mrt_is_js h i j = 1).
Proof.
split; first exact: f_mrt_ge0.
split=> [i j /eqP/negbTE ji|i [j ji]]; first by rewrite f_mrtE ji.
by have <- : room_of Hb j = i by [apply: val_inj]; exact: f_mrt_sum.
Qed.
End Any.
