(* Reordering rooms and boundaries commutes with every operation of a step. *)
From mathcomp Require Import all_ssreflect ssralg ssrnum zmodp matrix.
From Verif Require Import Model.OperationMode Model.Numpy Model.NextCondition Model.PreCalc Model.HeatExchanger Model.Tick
  Model.Step Model.OtTarget Model.CoreStep Spec.Reorder.
Set Implicit Arguments. Unset Strict Implicit. Unset Printing Implicit Defensive.
Import Order.TTheory GRing.Theory Num.Theory.
Local Open Scope ring_scope.

Section Re.
Variable F : realFieldType.

Definition re m n (f : 'I_m -> 'I_m) (g : 'I_n -> 'I_n) (A : 'M[F]_(m, n)) : 'M[F]_(m, n) := \matrix_(i, j) A (f i) (g j).
Local Notation rv f := (re f (id : 'I_1 -> 'I_1)).

Section Ops.
Variables (m n p : nat) (f : 'I_m -> 'I_m) (g : 'I_n -> 'I_n) (k : 'I_p -> 'I_p).
Implicit Types A B : 'M[F]_(m, n).

Lemma reE A i j : re f g A i j = A (f i) (g j). Proof. by rewrite mxE. Qed.
Lemma rvE (v : 'cV[F]_m) i : rv f v i 0 = v (f i) 0. Proof. by rewrite mxE. Qed.
Lemma re_add A B : re f g A + re f g B = re f g (A + B). Proof. by apply/matrixP => i j; rewrite !mxE. Qed.
Lemma re_opp A : - re f g A = re f g (- A). Proof. by apply/matrixP => i j; rewrite !mxE. Qed.
Lemma re_0 : 0 = re f g 0. Proof. by apply/matrixP => i j; rewrite !mxE. Qed.
Lemma re_emul A B : emul (re f g A) (re f g B) = re f g (emul A B). Proof. by apply/matrixP => i j; rewrite !mxE. Qed.
Lemma re_ediv A B : ediv (re f g A) (re f g B) = re f g (ediv A B). Proof. by apply/matrixP => i j; rewrite !mxE. Qed.
Lemma re_cmul (v : 'cV[F]_m) A : cmul (rv f v) (re f g A) = re f g (cmul v A). Proof. by apply/matrixP => i j; rewrite !mxE. Qed.
Lemma re_cdiv (v : 'cV[F]_m) A : cdiv (re f g A) (rv f v) = re f g (cdiv A v). Proof. by apply/matrixP => i j; rewrite !mxE. Qed.
Lemma re_rmul A (v : 'cV[F]_n) : rmul (re f g A) (rv g v) = re f g (rmul A v). Proof. by apply/matrixP => i j; rewrite !mxE. Qed.
Lemma re_sadd x A : sadd x (re f g A) = re f g (sadd x A). Proof. by apply/matrixP => i j; rewrite !mxE. Qed.
Lemma re_smul x A : smul x (re f g A) = re f g (smul x A). Proof. by apply/matrixP => i j; rewrite !mxE. Qed.
Lemma re_ssub x A : ssub x (re f g A) = re f g (ssub x A). Proof. by apply/matrixP => i j; rewrite !mxE. Qed.
Lemma re_rowsum A : rowsum (re f id A) = rv f (rowsum A).
Proof. by apply/matrixP => i j; rewrite !mxE; apply: eq_bigr => l _; rewrite mxE. Qed.
Lemma re_tr A : (re f g A)^T = re g f A^T. Proof. by apply/matrixP => i j; rewrite !mxE. Qed.
Lemma re_dot A (B : 'M[F]_(n, p)) : injective g -> dot (re f g A) (re g k B) = re f k (dot A B).
Proof.
move=> gi; apply/matrixP => i j; rewrite !mxE [RHS](reindex g) /=; last by apply: onW_bij; exact: injF_bij.
by apply: eq_bigr => l _; rewrite !mxE.
Qed.
Lemma re_vdiag (v : 'cV[F]_m) : injective f -> vdiag (rv f v) = re f f (vdiag v).
Proof. by move=> fi; apply/matrixP => i j; rewrite !mxE (inj_eq fi). Qed.
Lemma re_1 : injective f -> 1%:M = re f f 1%:M.
Proof. by move=> fi; apply/matrixP => i j; rewrite !mxE (inj_eq fi). Qed.
Lemma re_where (c c2 : 'I_m -> bool) (a b : 'cV[F]_m) : (forall i, c2 i = c (f i)) -> vwhere c2 (rv f a) (rv f b) = rv f (vwhere c a b).
Proof. by move=> cE; apply/matrixP => i j; rewrite !mxE cE. Qed.
Lemma re_ind (c c2 : 'I_m -> bool) : (forall i, c2 i = c (f i)) -> ind F c2 = rv f (ind F c).
Proof. by move=> cE; apply/matrixP => i j; rewrite !mxE cE. Qed.
Lemma rv_mx (G G2 : 'I_m -> F) : (forall i, G2 i = G (f i)) -> (\matrix_(i, _) G2 i : 'cV[F]_m) = rv f (\matrix_(i, _) G i).
Proof. by move=> E; apply/matrixP => i j; rewrite !mxE E. Qed.
Lemma rvI (v v2 : 'cV[F]_m) : (forall i, v2 i 0 = v (f i) 0) -> v2 = rv f v.
Proof. by move=> E; apply/matrixP => i j; rewrite mxE ord1 E. Qed.
Lemma reI A B : (forall i j, B i j = A (f i) (g j)) -> B = re f g A.
Proof. by move=> E; apply/matrixP => i j; rewrite mxE E. Qed.
End Ops.

Lemma re_inv m (f : 'I_m -> 'I_m) (A : 'M[F]_m) : injective f -> inv (re f f A) = omap (re f f) (inv A).
Proof.
move=> fi; rewrite /inv.
have E (B C : 'M[F]_m) : re f f B *m re f f C = re f f (B *m C) by exact: (re_dot f f B C fi).
have [fV fK Kf] := injF_bij fi; have fVi : injective fV by exact: can_inj Kf.
have K (B : 'M[F]_m) : re fV fV (re f f B) = B by apply/matrixP => i j; rewrite !mxE !Kf.
have EV (B C : 'M[F]_m) : re fV fV B *m re fV fV C = re fV fV (B *m C) by exact: (re_dot fV fV B C fVi).
case: ifP => uA.
  have uA0 : A \in unitmx.
    have: re fV fV (re f f A) *m re fV fV (invmx (re f f A)) = 1%:M by rewrite EV mulmxV // -(re_1 fVi).
    by rewrite K => /mulmx1_unit [].
  rewrite uA0 /=; congr Some; have: re f f A *m re f f (invmx A) = 1%:M by rewrite E mulmxV // -(re_1 fi).
  by move/(congr1 (mulmx (invmx (re f f A)))); rewrite mulmxA mulVmx // mul1mx mulmx1.
case: ifP => // uA0; have: re f f A *m re f f (invmx A) = 1%:M by rewrite E mulmxV // -(re_1 fi).
by move=> /mulmx1_unit []; rewrite uA.
Qed.
End Re.

Local Notation rv f := (re f (id : 'I_1 -> 'I_1)).


Section Parts.
Variable F : realFieldType.
Variable n : nat.
Variable rho : 'I_n -> 'I_n.
Hypothesis rhoI : injective rho.
Local Notation rm := (re (F := F) rho rho).
Local Notation ru := (re (F := F) rho (id : 'I_1 -> 'I_1)).

Definition re3 (r : 'cV[F]_n * 'cV[F]_n * 'cV[F]_n) := let '(a, b, c) := r in (ru a, ru b, ru c).

Lemma re_where0 (c c2 : 'I_n -> bool) (b : 'cV[F]_n) : (forall i, c2 i = c (rho i)) -> vwhere c2 0 (ru b) = ru (vwhere c 0 b).
Proof. by move=> cE; rewrite -(re_where _ _ cE) -re_0. Qed.
Lemma re_where0r (c c2 : 'I_n -> bool) (b : 'cV[F]_n) : (forall i, c2 i = c (rho i)) -> vwhere c2 (ru b) 0 = ru (vwhere c b 0).
Proof. by move=> cE; rewrite -(re_where _ _ cE) -re_0. Qed.

Lemma load_and_tempE kt kc kc2 kr k nt nt2 ts ts2 c c2 lc lc2 r r2 lr lr2 :
  kc2 = rm kc -> ts2 = ru ts -> lc2 = ru lc -> lr2 = ru lr ->
  (forall i, nt2 i = nt (rho i)) -> (forall i, c2 i = c (rho i)) -> (forall i, r2 i = r (rho i)) ->
  get_load_and_temp (rm kt) kc2 (rm kr) (ru k) nt2 ts2 c2 lc2 r2 lr2 =
  omap re3 (get_load_and_temp kt kc kr k nt ts c lc r lr).
Proof.
move=> -> -> -> -> nE cE rE; rewrite /get_load_and_temp /=.
rewrite (re_ind _ nE) (re_ind _ cE) (re_ind _ rE) (re_where0 _ nE) (re_where0 _ cE) (re_where0 _ rE).
rewrite !(re_rmul, re_opp, re_add, re_dot _ _ _ _ rhoI) (re_inv _ rhoI).
case: (inv _) => [x|//] /=.
by rewrite !(re_rmul, re_opp, re_add, re_emul, re_ssub, re_dot _ _ _ _ rhoI).
Qed.

Lemma next_tempE rh rh2 rc rc2 brc brm brl lo up ch cc md md2 ac :
  (forall i, rh2 i = rh (rho i)) -> (forall i, rc2 i = rc (rho i)) -> (forall i, md2 i = md (rho i)) ->
  calc_next_temp_and_load rh2 rc2 (ru brc) (rm brm) (rm brl) (ru lo) (ru up) (ru ch) (ru cc) md2 (ru ac) =
  omap re3 (calc_next_temp_and_load rh rc brc brm brl lo up ch cc md ac).
Proof.
move=> hE cE mE; rewrite /calc_next_temp_and_load /= (re_inv _ rhoI); case: (inv brm) => [x|//] /=.
rewrite (re_dot _ _ _ _ rhoI); move: (dot x brc) => th.
pose ht i := mode_eqb (md i) HEATING && (th i 0 < lo i 0).
pose co i := mode_eqb (md i) COOLING && (up i 0 < th i 0).
have htE i : mode_eqb (md2 i) HEATING && (ru th i 0 < ru lo i 0) = ht (rho i) by rewrite !mxE mE.
have coE i : mode_eqb (md2 i) COOLING && (ru up i 0 < ru th i 0) = co (rho i) by rewrite !mxE mE.
rewrite -[fun i => mode_eqb (md i) HEATING && _]/ht -[fun i => mode_eqb (md i) COOLING && _]/co.
rewrite !(re_emul, re_ssub, re_add) (re_where0r _ htE) (re_where _ _ coE).
rewrite (load_and_tempE (nt := fun i => ~~ ht i && ~~ co i) (c := fun i => (ht i && ~~ rh i) || (co i && ~~ rc i))
  (r := fun i => (ht i && rh i) || (co i && rc i)) (kc := 1%:M) (lc := 0) (lr := 0) _ _ _ (re_1 F rhoI) (erefl _) (re_0 _ _ _) (re_0 _ _ _)); first last.
- by move=> i; rewrite htE coE hE cE.
- by move=> i; rewrite htE coE hE cE.
- by move=> i; rewrite htE coE.
case: (get_load_and_temp _ _ _ _ _ _ _ _ _ _) => [[[tt lc] lr]|//] /=.
apply: load_and_tempE.
- exact: re_1.
- by [].
- exact: re_0.
- rewrite (re_opp) (re_where0r (c := fun i => ch i 0 < lr i 0)) => [|i]; last by rewrite !mxE.
  by rewrite (re_where (c := fun i => lr i 0 < - cc i 0)) => [//|i]; rewrite !mxE.
- by move=> i; rewrite htE coE.
- by move=> i; rewrite htE coE hE cE !mxE.
- by move=> i; rewrite htE coE hE cE !mxE.
Qed.

Lemma dehumidE x_sat lcs th qx qn vx vn xn :
  get_dehumid_coeff x_sat (ru lcs) (ru th) (ru qx) (ru qn) (ru vx) (ru vn) (ru xn) =
  (let '(a, b) := get_dehumid_coeff x_sat lcs th qx qn vx vn xn in (rm a, ru b)).
Proof.
rewrite /get_dehumid_coeff /=; congr pair.
  by apply/matrixP => i j; rewrite !mxE ?(inj_eq rhoI) !eqxx.
by apply/matrixP => i j; rewrite !mxE.
Qed.

Definition ot_rel (r r2 : option ('cV[F]_n * 'cV[F]_n * ('I_n -> mode) * 'cV[F]_n * 'cV[F]_n)) : Prop :=
  match r, r2 with
  | Some (hc, hr, md, lo, up), Some (hc2, hr2, md2, lo2, up2) =>
      [/\ hc2 = ru hc, hr2 = ru hr, forall i, md2 i = md (rho i), lo2 = ru lo & up2 = ru up]
  | None, None => True
  | _, _ => False
  end.

Lemma ot_E e0 x x2 m m2 t t2 tm tm2 ac ac2 : x2 = ru x -> t2 = ru t -> tm2 = ru tm -> ac2 = ru ac -> (forall i, m2 i = m (rho i)) ->
  ot_rel (get_ot_target_and_h_hum e0 x m t tm ac) (get_ot_target_and_h_hum e0 x2 m2 t2 tm2 ac2).
Proof.
move=> -> -> -> -> mE; rewrite /get_ot_target_and_h_hum /=.
pose one i := ot_target_pmv e0 (x i 0) (m i) (t i 0) (tm i 0) (ac i 0).
have oneE i : ot_target_pmv e0 (ru x i 0) (m2 i) (ru t i 0) (ru tm i 0) (ru ac i 0) = one (rho i) by rewrite !mxE mE.
have -> : [forall i, ot_target_pmv e0 (ru x i 0) (m2 i) (ru t i 0) (ru tm i 0) (ru ac i 0)] =
    [forall i, ot_target_pmv e0 (x i 0) (m i) (t i 0) (tm i 0) (ac i 0)].
  apply/forallP/forallP => al i; last by rewrite oneE; exact: al.
  by have [f _ fK] := injF_bij rhoI; rewrite -(fK i); have := al (f i); rewrite oneE.
case: ifP => // _; split=> [||i||]; rewrite ?oneE //.
all: by apply/matrixP => i j; rewrite [RHS]mxE [LHS]mxE [RHS]mxE // oneE.
Qed.
End Parts.

Section House.
Variable F : realFieldType.
Variables ni nj nm : nat.
Variables (rho : 'I_ni -> 'I_ni) (tau : 'I_nj -> 'I_nj).
Hypothesis rhoI : injective rho.
Hypothesis tauI : injective tau.
Variables (h h2 : house F ni nj nm).
Hypothesis Hh : reordered_house rho tau h h2.
Local Notation rt := (re tau (id : 'I_nm -> 'I_nm)).

Let v_roomE : v_room h2 = rv rho (v_room h) := rvI (rh_v_room Hh).
Let betaE : beta h2 = rv rho (beta h) := rvI (rh_beta Hh).
Let ventE : v_vent_ex h2 = rv rho (v_vent_ex h) := rvI (rh_vent Hh).
Let intE : v_int h2 = re rho rho (v_int h) := reI (rh_int Hh).
Let ntrlE : v_ntrl h2 = rv rho (v_ntrl h) := rvI (rh_ntrl Hh).
Let c_shE : c_sh h2 = rv rho (c_sh h) := rvI (rh_c_sh Hh).
Let g_shE : g_sh h2 = rv rho (g_sh h) := rvI (rh_g_sh Hh).
Let c_lhE : c_lh h2 = rv rho (c_lh h) := rvI (rh_c_lh Hh).
Let g_lhE : g_lh h2 = rv rho (g_lh h) := rvI (rh_g_lh Hh).
Let cap_hE : cap_h h2 = rv rho (cap_h h) := rvI (rh_cap_h Hh).
Let cap_cE : cap_c h2 = rv rho (cap_c h) := rvI (rh_cap_c Hh).
Let q_minE : q_min h2 = rv rho (q_min h) := rvI (rh_q_min Hh).
Let q_maxE : q_max h2 = rv rho (q_max h) := rvI (rh_q_max Hh).
Let v_minE : v_min h2 = rv rho (v_min h) := rvI (rh_v_min Hh).
Let v_maxE : v_max h2 = rv rho (v_max h) := rvI (rh_v_max Hh).
Let a_srfE : a_srf h2 = rv tau (a_srf h) := rvI (rh_a_srf Hh).
Let phi_a0E : phi_a0 h2 = rv tau (phi_a0 h) := rvI (rh_phi_a0 Hh).
Let phi_a1E : phi_a1 h2 = rt (phi_a1 h) := reI (rh_phi_a1 Hh).
Let phi_t0E : phi_t0 h2 = rv tau (phi_t0 h) := rvI (rh_phi_t0 Hh).
Let phi_t1E : phi_t1 h2 = rt (phi_t1 h) := reI (rh_phi_t1 Hh).
Let r_msE : r_ms h2 = rt (r_ms h) := reI (rh_r_ms Hh).
Let h_cE : h_c h2 = rv tau (h_c h) := rvI (rh_h_c Hh).
Let h_rE : h_r h2 = rv tau (h_r h) := rvI (rh_h_r Hh).
Let flrE : flr h2 = rv tau (flr h) := rvI (rh_flr Hh).
Let mrtE : f_mrt_hum h2 = rv tau (f_mrt_hum h) := rvI (rh_mrt Hh).
Let k_eoE : k_eo h2 = rv tau (k_eo h) := rvI (rh_k_eo Hh).

Definition ops := (@re_add F, @re_opp F, @re_emul F, @re_ediv F, @re_cmul F, @re_cdiv F, @re_rmul F, @re_sadd F, @re_smul F, @re_ssub F, @re_rowsum F, @re_tr F).

Lemma pE : p_is_js h2 = re rho tau (p_is_js h).
Proof. by apply/matrixP => i j; rewrite !mxE (rh_conn Hh). Qed.
Lemma ptE : p_js_is h2 = re tau rho (p_js_is h).
Proof. by rewrite /p_js_is pE re_tr. Qed.
Lemma kE : k_ei_js_js h2 = re tau tau (k_ei_js_js h).
Proof.
apply/matrixP => j k; rewrite !mxE (rh_k_ei Hh); case: (k_ei h2 j) => [[l coef]|//].
by rewrite (inj_eq tauI).
Qed.
Lemma flr_jsE : flr_js_is h2 = re tau rho (flr_js_is h).
Proof. by rewrite /flr_js_is flrE ptE ops. Qed.
Lemma f_humE : f_mrt_hum_is_js h2 = re rho tau (f_mrt_hum_is_js h).
Proof. by rewrite /f_mrt_hum_is_js mrtE pE ops. Qed.
Lemma c_rmE : c_rm h2 = rv rho (c_rm h).
Proof. by rewrite /c_rm; apply/matrixP => i j; rewrite !mxE v_roomE !mxE. Qed.
Lemma f_mrtE2 : f_mrt_is_js h2 = re rho tau (f_mrt_is_js h).
Proof. by rewrite /f_mrt_is_js /= a_srfE h_rE pE !ops (re_dot _ _ _ _ tauI) ops. Qed.
Lemma h_iE : h_i h2 = rv tau (h_i h).
Proof. by rewrite /h_i h_cE h_rE ops. Qed.
Lemma absE : ind F (is_solar_abs h2) = rv tau (ind F (is_solar_abs h)).
Proof. exact: re_ind (rh_abs Hh). Qed.
Lemma a_absE : a_srf_abs h2 = rv rho (a_srf_abs h).
Proof. by rewrite /a_srf_abs pE a_srfE absE ops (re_dot _ _ _ _ tauI). Qed.
Lemma axE : ax h2 = re tau tau (ax h).
Proof.
rewrite /ax phi_a0E phi_t0E h_iE h_rE kE ptE f_mrtE2 !(ops, re_dot _ _ _ _ rhoI, re_dot _ _ _ _ tauI, re_vdiag _ tauI).
by [].
Qed.
Lemma fiaE : fia h2 = re tau rho (fia h).
Proof. by rewrite /fia phi_a0E phi_t0E h_iE h_cE kE ptE !(ops, re_dot _ _ _ _ rhoI, re_dot _ _ _ _ tauI). Qed.
Lemma flbE : flb h2 = re tau rho (flb h).
Proof. by rewrite /flb phi_a0E phi_t0E h_iE a_srfE betaE kE flr_jsE !(ops, re_dot _ _ _ _ rhoI, re_dot _ _ _ _ tauI). Qed.

Definition pp_rel (q q2 : pp F ni nj) : Prop := [/\ ivs_ax q2 = re tau tau (ivs_ax q), wsr q2 = re tau rho (wsr q),
  wsb q2 = re tau rho (wsb q), brl q2 = re rho rho (brl q) & brm_non_vent q2 = re rho rho (brm_non_vent q)].

Lemma make_ppE dt : opt_rel pp_rel (make_pp h dt) (make_pp h2 dt).
Proof.
rewrite /make_pp axE (re_inv _ tauI); case: (inv (ax h)) => [ivs|//] /=; split=> /=.
all: rewrite /= ?fiaE ?flbE ?(re_dot _ _ _ _ rhoI) ?(re_dot _ _ _ _ tauI) //.
  by rewrite a_srfE h_cE pE betaE !(ops, re_dot _ _ _ _ rhoI, re_dot _ _ _ _ tauI, re_vdiag _ rhoI).
rewrite a_srfE h_cE pE ptE !(ops, re_dot _ _ _ _ rhoI, re_dot _ _ _ _ tauI).
rewrite (@rv_mx _ _ rho (fun i => c_rm h i 0 / dt)) => [|i]; last by rewrite c_rmE mxE.
rewrite (@rv_mx _ _ rho (fun i => c_sh h i 0 * g_sh h i 0 / (c_sh h i 0 + g_sh h i 0 * dt)) (fun i => c_sh h2 i 0 * g_sh h2 i 0 / (c_sh h2 i 0 + g_sh h2 i 0 * dt))) => [|i]; last by rewrite c_shE g_shE !mxE.
by rewrite !(ops, re_vdiag _ rhoI).
Qed.

Ltac let_step H x := lazymatch type of H with (let y := ?a in @?B y) = ?r => pose x := a; change (B x = r) in H; cbv beta in H end.
Ltac both H H2 x f := let b := fresh "b" in let_step H x; let_step H2 b;
  (have : b = f x; [rewrite /x /b; clear H H2 x b | let E := fresh "E" in move=> E; clearbody x b; subst b]).

Section Tick.
Variables (s s2 : step_data F ni nj) (c c2 : conditions F ni nj nm).
Hypothesis Hs : reordered_data rho tau s s2.
Hypothesis Hc : reordered_state rho tau c c2.
Variables (e0 : F) (infil infil2 : infil_fun F ni) (x_sat : F -> F) (dt : F).
Hypothesis Hi : reordered_infil rho infil infil2.

Let mecE : v_mec_local s2 = rv rho (v_mec_local s) := rvI (rs_vent Hs).
Let q_genE : q_gen s2 = rv rho (q_gen s) := rvI (rs_q_gen Hs).
Let x_genE : x_gen s2 = rv rho (x_gen s) := rvI (rs_x_gen Hs).
Let n_humE : n_hum s2 = rv rho (n_hum s) := rvI (rs_n_hum Hs).
Let acE : ac_demand s2 = rv rho (ac_demand s) := rvI (rs_ac Hs).
Let solE : q_trs_sol s2 = rv rho (q_trs_sol s) := rvI (rs_sol Hs).
Let theta_solE : theta_o_sol s2 = rv tau (theta_o_sol s) := rvI (rs_theta Hs).
Let theta_rE : theta_r c2 = rv rho (theta_r c) := rvI (rc_theta_r Hc).
Let mrt_humE : theta_mrt_hum c2 = rv rho (theta_mrt_hum c) := rvI (rc_mrt Hc).
Let x_rE : x_r c2 = rv rho (x_r c) := rvI (rc_x_r Hc).
Let dsh_aE : theta_dsh_a c2 = rt (theta_dsh_a c) := reI (rc_a Hc).
Let dsh_tE : theta_dsh_t c2 = rt (theta_dsh_t c) := reI (rc_t Hc).
Let q_srfE2 : q_srf c2 = rv tau (q_srf c) := rvI (rc_q Hc).
Let frtE : theta_frt c2 = rv rho (theta_frt c) := rvI (rc_frt Hc).
Let x_frtE : x_frt c2 = rv rho (x_frt c) := rvI (rc_x_frt Hc).
Let eiE : theta_ei c2 = rv tau (theta_ei c) := rvI (rc_ei Hc).

Lemma v_mecE : v_mec h2 s2 = rv rho (v_mec h s).
Proof. by rewrite /v_mec ventE mecE ops. Qed.
Lemma q_frtE : q_sol_frt s2 = rv rho (q_sol_frt s).
Proof. by rewrite /q_sol_frt solE ops. Qed.
Lemma q_solE : q_sol_js h2 s2 = rv tau (q_sol_js h s).
Proof. by rewrite /q_sol_js solE absE a_absE ptE !(ops, re_dot _ _ _ _ rhoI). Qed.
Lemma dstrbE : theta_dstrb h2 s2 = rv tau (theta_dstrb h s).
Proof. by rewrite /theta_dstrb theta_solE k_eoE ops. Qed.
Lemma crxE : crx h2 s2 = rv tau (crx h s).
Proof. by rewrite /crx phi_a0E phi_t0E h_iE kE q_solE dstrbE !(ops, re_dot _ _ _ _ tauI). Qed.
Lemma wscE ivs : wsc h2 s2 (re tau tau ivs) = rv tau (wsc h s ivs).
Proof. by rewrite /wsc crxE (re_dot _ _ _ _ tauI). Qed.
Lemma infilE : infil2 (theta_r c2) (theta_o s2) = rv rho (infil (theta_r c) (theta_o s)).
Proof. by rewrite (rs_theta_o Hs); apply: rvI; apply: Hi; exact: (rc_theta_r Hc). Qed.

Lemma tickE q q2 : pp_rel q q2 ->
  opt_rel (reordered_step rho tau) (run_tick (get_ot_target_and_h_hum e0 (ni := ni)) infil x_sat dt h q s c)
    (run_tick (get_ot_target_and_h_hum e0 (ni := ni)) infil2 x_sat dt h2 q2 s2 c2).
Proof.
move=> [ivE rE bE lE mE].
suff G r r2 : run_tick (get_ot_target_and_h_hum e0 (ni := ni)) infil x_sat dt h q s c = r ->
    run_tick (get_ot_target_and_h_hum e0 (ni := ni)) infil2 x_sat dt h2 q2 s2 c2 = r2 -> opt_rel (reordered_step rho tau) r r2.
  exact: G.
move=> H H2; cbv beta delta [run_tick] in H, H2.
both H H2 dstrb (@re F _ _ tau (id : 'I_1 -> 'I_1)); first exact: dstrbE.
both H H2 ws (@re F _ _ tau (id : 'I_1 -> 'I_1)); first by rewrite ivE wscE.
both H H2 mec (@re F _ _ rho (id : 'I_1 -> 'I_1)); first exact: v_mecE.
both H H2 sfrt (@re F _ _ rho (id : 'I_1 -> 'I_1)); first exact: q_frtE.
have := ot_E rhoI e0 x_rE theta_rE mrt_humE acE (rc_mode Hc).
case: (get_ot_target_and_h_hum e0 (x_r c) _ _ _ _) H => [[[[[hc hr] md] lo] up]|] H;
  case: (get_ot_target_and_h_hum e0 _ _ _ _ _) H2 => [[[[[hc2 hr2] md2] lo2] up2]|] H2 //=; last by rewrite -H -H2.
move=> [e1 e2 mdE e3 e4]; subst hc2 hr2 lo2 up2.
both H H2 rear (@re F _ _ tau (id : 'I_1 -> 'I_1)); first by rewrite kE eiE (re_dot _ _ _ _ tauI) ops.
both H H2 qh (@re F _ _ rho (id : 'I_1 -> 'I_1)); first by apply: rv_mx => i; rewrite theta_rE n_humE !mxE.
both H H2 xh (@re F _ _ rho (id : 'I_1 -> 'I_1)); first by apply: rv_mx => i; rewrite theta_rE n_humE !mxE.
both H H2 leak (@re F _ _ rho (id : 'I_1 -> 'I_1)); first exact: infilE.
both H H2 da (@re F _ _ tau (id : 'I_nm -> 'I_nm)); first by rewrite q_srfE2 phi_a1E r_msE dsh_aE !ops.
both H H2 dtt (@re F _ _ tau (id : 'I_nm -> 'I_nm)); first by rewrite phi_t1E r_msE dsh_tE !ops.
both H H2 cvl (@re F _ _ tau (id : 'I_1 -> 'I_1)); first by rewrite !ops.
both H H2 wsv (@re F _ _ tau (id : 'I_1 -> 'I_1)); first by rewrite ivE (re_dot _ _ _ _ tauI).
both H H2 ntrl (@re F _ _ rho (id : 'I_1 -> 'I_1)); first by rewrite ntrlE; apply: re_where0r => i; rewrite mdE.
both H H2 vo (@re F _ _ rho (id : 'I_1 -> 'I_1)); first by rewrite !ops.
both H H2 brc (@re F _ _ rho (id : 'I_1 -> 'I_1)).
  rewrite pE h_cE a_srfE !ops (re_dot _ _ _ _ tauI).
  rewrite (@rv_mx _ _ rho (fun i => c_rm h i 0 / dt * theta_r c i 0) (fun i => c_rm h2 i 0 / dt * theta_r c2 i 0)) => [|i]; last by rewrite c_rmE theta_rE !mxE.
  rewrite (@rv_mx _ _ rho (fun i => c_air F * rho_air F * vo i 0 * theta_o s) (fun i => c_air F * rho_air F * rv rho vo i 0 * theta_o s2)) => [|i]; last by rewrite (rs_theta_o Hs) !mxE.
  rewrite (@rv_mx _ _ rho (fun i => g_sh h i 0 * (c_sh h i 0 * theta_frt c i 0 + sfrt i 0 * dt) / (c_sh h i 0 + dt * g_sh h i 0))
    (fun i => g_sh h2 i 0 * (c_sh h2 i 0 * theta_frt c2 i 0 + rv rho sfrt i 0 * dt) / (c_sh h2 i 0 + dt * g_sh h2 i 0))) => [|i];
    last by rewrite c_shE g_shE frtE !mxE.
  by rewrite q_genE !ops.
both H H2 brm (@re F _ _ rho rho); first by rewrite mE intE !(ops, re_vdiag _ rhoI).
both H H2 kc (@re F _ _ rho (id : 'I_1 -> 'I_1)); first by rewrite !ops.
both H H2 kr (@re F _ _ rho (id : 'I_1 -> 'I_1)); first by rewrite !ops.
both H H2 f (@re F _ _ rho tau); first exact: f_humE.
rewrite rE !(ops, re_dot _ _ _ _ tauI, re_vdiag _ rhoI) (re_inv _ rhoI) in H2.
case: (inv (vdiag kc + _)) H H2 => [xot|] H H2; cbv beta iota delta [omap obind oapp Option.map Option.bind Option.apply re3] in H2; last by rewrite -H -H2.
both H H2 xlr (@re F _ _ rho rho); first by rewrite bE !(ops, re_dot _ _ _ _ tauI, re_dot _ _ _ _ rhoI).
both H H2 xc (@re F _ _ rho (id : 'I_1 -> 'I_1)); first by rewrite !(ops, re_dot _ _ _ _ tauI, re_dot _ _ _ _ rhoI).
both H H2 brm_ot (@re F _ _ rho rho); first by rewrite (re_dot _ _ _ _ rhoI).
both H H2 brl_ot (@re F _ _ rho rho); first by rewrite lE (re_dot _ _ _ _ rhoI) ops.
both H H2 brc_ot (@re F _ _ rho (id : 'I_1 -> 'I_1)); first by rewrite (re_dot _ _ _ _ rhoI) ops.
rewrite cap_hE cap_cE acE (next_tempE rhoI _ _ _ _ _ _ _ _ (rh_rad_h Hh) (rh_rad_c Hh) mdE) in H2.
case: (calc_next_temp_and_load _ _ _ _ _ _ _ _ _ _ _) H H2 => [[[ot lcs] lrs]|] H H2; cbv beta iota delta [omap obind oapp Option.map Option.bind Option.apply re3] in H2; last by rewrite -H -H2.
both H H2 tr (@re F _ _ rho (id : 'I_1 -> 'I_1)); first by rewrite !(re_dot _ _ _ _ rhoI) !ops.
both H H2 tf (@re F _ _ rho (id : 'I_1 -> 'I_1)); first by apply: rv_mx => i; rewrite c_shE g_shE frtE !mxE.
both H H2 ths (@re F _ _ tau (id : 'I_1 -> 'I_1)); first by rewrite ?rE bE !(re_dot _ _ _ _ rhoI) !ops.
both H H2 mrt (@re F _ _ rho (id : 'I_1 -> 'I_1)); first by rewrite (re_dot _ _ _ _ tauI).
both H H2 tei (@re F _ _ tau (id : 'I_1 -> 'I_1)).
  apply: rv_mx => j; rewrite ptE flr_jsE f_mrtE2 betaE h_cE h_rE a_srfE q_solE !(ops, re_dot _ _ _ _ rhoI, re_dot _ _ _ _ tauI).
  by rewrite !rvE.
both H H2 qs (@re F _ _ tau (id : 'I_1 -> 'I_1)); first by rewrite h_cE h_rE !ops.
both H H2 gl (@re F _ _ rho (id : 'I_1 -> 'I_1)); first by apply: rv_mx => i; rewrite c_lhE g_lhE !mxE.
both H H2 bm0 (@re F _ _ rho rho).
  rewrite intE (@rv_mx _ _ rho (fun i => v_room h i 0 / dt + vo i 0) (fun i => v_room h2 i 0 / dt + rv rho vo i 0)) => [|i]; last by rewrite v_roomE !rvE.
  by rewrite !(ops, re_vdiag _ rhoI).
both H H2 bc0 (@re F _ _ rho (id : 'I_1 -> 'I_1)).
  rewrite (@rv_mx _ _ rho (fun i => rho_air F * (v_room h i 0 / dt * x_r c i 0 + vo i 0 * x_o s) + gl i 0 * x_frt c i 0)
    (fun i => rho_air F * (v_room h2 i 0 / dt * x_r c2 i 0 + rv rho vo i 0 * x_o s2) + rv rho gl i 0 * x_frt c2 i 0)) => [|i];
    last by rewrite v_roomE x_rE x_frtE (rs_x_o Hs) !rvE.
  by rewrite x_genE !ops.
rewrite (re_inv _ rhoI) in H2; case: (inv bm0) H H2 => [b0i|] H H2; cbv beta iota delta [omap obind oapp Option.map Option.bind Option.apply re3] in H2; last by rewrite -H -H2.
both H H2 xn (@re F _ _ rho (id : 'I_1 -> 'I_1)); first by rewrite (re_dot _ _ _ _ rhoI).
rewrite q_maxE q_minE v_maxE v_minE (dehumidE rhoI) in H2.
case: (get_dehumid_coeff _ _ _ _ _ _ _ _) H H2 => [bmr bcr] H H2; cbv beta iota delta [omap obind oapp Option.map Option.bind Option.apply re3] in H2.
both H H2 bm (@re F _ _ rho rho); first by rewrite ops.
both H H2 bc (@re F _ _ rho (id : 'I_1 -> 'I_1)); first by rewrite ops.
rewrite (re_inv _ rhoI) in H2; case: (inv bm) H H2 => [bi|] H H2; cbv beta iota delta [omap obind oapp Option.map Option.bind Option.apply re3] in H2; last by rewrite -H -H2.
both H H2 xr (@re F _ _ rho (id : 'I_1 -> 'I_1)); first by rewrite (re_dot _ _ _ _ rhoI).
both H H2 lcl (@re F _ _ rho (id : 'I_1 -> 'I_1)); first by rewrite (re_dot _ _ _ _ rhoI) !ops.
both H H2 xf (@re F _ _ rho (id : 'I_1 -> 'I_1)); first by apply: rv_mx => i; rewrite c_lhE g_lhE x_frtE !rvE.
rewrite -H -H2; split; split=> //= i *; by rewrite ?mdE ?reE.
Qed.
End Tick.

Lemma core_stepE (e0 : F) (infil infil2 : infil_fun F ni) x_sat dt s s2 c c2 : reordered_infil rho infil infil2 ->
  reordered_data rho tau s s2 -> reordered_state rho tau c c2 ->
  opt_rel (reordered_step rho tau) (core_step e0 infil x_sat dt h s c) (core_step e0 infil2 x_sat dt h2 s2 c2).
Proof.
move=> Hi Hs Hc; rewrite /core_step /step.
have := make_ppE dt; case: (make_pp h dt) => [q|]; case: (make_pp h2 dt) => [q2|] //= Hq.
exact: tickE.
Qed.
End House.
