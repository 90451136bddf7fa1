(* On physical input no matrix of a time step is singular (C51); signs and bounds of the matrices. *)
From mathcomp Require Import all_ssreflect ssralg ssrnum zmodp matrix mxalgebra.
From Coq Require Import Ring Field.
From Verif Require Import Model.OperationMode Model.Numpy Model.NextCondition Model.PreCalc
  Model.HeatExchanger Model.Tick Spec.Physical.
From Verif Require Import Lemmas.FieldTac Lemmas.NumpyL Lemmas.NextConditionL Lemmas.TickL Lemmas.MMatrix
  Lemmas.TickBalance.
Set Implicit Arguments. Unset Strict Implicit. Unset Printing Implicit Defensive.
Import Order.TTheory GRing.Theory Num.Theory.
Local Open Scope ring_scope.

Section Pre.
Variable F : realFieldType.
Variables ni nj nm : nat.
Add Field Ffield : (ffield_theory F).
Ltac fring := ffold F; ring.
Ltac ffield := ffold F; field.
Variables (dt : F) (h : house F ni nj nm).
Hypothesis Hb : physical_boundaries h.

Lemma hi_gt0 j : 0 < h_i h j 0.
Proof. by rewrite /h_i addE addr_gt0 // ?ph_hc ?ph_hr. Qed.

Definition room_of j : 'I_ni := Ordinal (ph_conn Hb j).

Lemma p_jsE (p : nat) (w : 'M[F]_(ni, p)) j l : (p_js_is h *m w) j l = w (room_of j) l.
Proof.
rewrite mxE (bigD1 (room_of j)) //= !mxE eqxx mul1r big1 ?addr0 // => k nk.
rewrite !mxE; case: eqP; rewrite ?mul0r // => e.
by case/eqP: nk; apply: val_inj; rewrite /= e.
Qed.

Lemma p_isE (p : nat) (w : 'M[F]_(nj, p)) i l :
  (p_is_js h *m w) i l = \sum_(j | conn h j == i) w j l.
Proof.
rewrite mxE [RHS]big_mkcond /=; apply: eq_bigr => j _; rewrite !mxE.
by case: (_ == _); rewrite ?mul1r ?mul0r.
Qed.

Lemma k_eiE (p : nat) (w : 'M[F]_(nj, p)) j l :
  (k_ei_js_js h *m w) j l = if k_ei h j is Some (k, coef) then coef * w k l else 0.
Proof.
rewrite mxE; case E: (k_ei h j) => [[k coef]|].
  rewrite (bigD1 k) //= !mxE E eqxx big1 ?addr0 // => m nlk.
  by rewrite !mxE E (negbTE nlk) mul0r.
by rewrite big1 // => m _; rewrite !mxE E mul0r.
Qed.

(* weights of the surfaces in the mean radiant temperature *)
Definition ah_sum (i : 'I_ni) := \sum_(j | conn h j == i) a_srf h j 0 * h_r h j 0.

Lemma ah_sumE i : dot (p_is_js h) (emul (a_srf h) (h_r h)) i 0 = ah_sum i.
Proof. by rewrite /dot p_isE; apply: eq_bigr => j _; rewrite emulE. Qed.

Lemma f_mrtE i j : f_mrt_is_js h i j =
  if conn h j == i then a_srf h j 0 * h_r h j 0 / ah_sum i else 0.
Proof.
rewrite /f_mrt_is_js /cdiv matE ah_sumE /rmul matE mxE emulE.
by case: eqP => _; rewrite ?mul1r ?mul0r.
Qed.

Lemma ah_gt0 j : 0 < a_srf h j 0 * h_r h j 0.
Proof. by rewrite mulr_gt0 ?ph_area ?ph_hr. Qed.

Lemma ah_sum_gt0 j : 0 < ah_sum (room_of j).
Proof.
rewrite /ah_sum (bigD1 j) //=; apply: ltr_paddr (ah_gt0 j); apply: sumr_ge0 => k _.
exact/ltW/ah_gt0.
Qed.

Lemma ah_sum_ge0 i : 0 <= ah_sum i.
Proof. by apply: sumr_ge0 => k _; exact/ltW/ah_gt0. Qed.

Lemma f_mrt_ge0 i j : 0 <= f_mrt_is_js h i j.
Proof.
rewrite f_mrtE; case: ifP => // _; rewrite mulr_ge0 ?invr_ge0 ?ah_sum_ge0 //.
exact/ltW/ah_gt0.
Qed.

Lemma f_mrt_sum j : \sum_k f_mrt_is_js h (room_of j) k = 1.
Proof.
under eq_bigr do rewrite f_mrtE; rewrite -big_mkcond /= -mulr_suml -/(ah_sum (room_of j)).
by rewrite divff // gt_eqF // ah_sum_gt0.
Qed.

Lemma pf_ge0 j k : 0 <= (p_js_is h *m f_mrt_is_js h) j k.
Proof. by rewrite p_jsE f_mrt_ge0. Qed.

Lemma pf_sum j : \sum_k (p_js_is h *m f_mrt_is_js h) j k = 1.
Proof. by under eq_bigr do rewrite p_jsE; rewrite f_mrt_sum. Qed.

Definition kin j := if k_ei h j is Some (k, coef) then coef else 0.

Lemma kin_bound j : 0 <= kin j /\ phi_t0 h j 0 * kin j <= 1.
Proof.
rewrite /kin; case E: (k_ei h j) => [[k coef]|]; first exact: ph_k E.
by rewrite mulr0 ler01.
Qed.

Lemma kpf_ge0 j k : 0 <= (k_ei_js_js h *m (p_js_is h *m f_mrt_is_js h)) j k.
Proof.
rewrite k_eiE; case E: (k_ei h j) => [[l coef]|] //.
by rewrite mulr_ge0 ?pf_ge0 //; have [] := ph_k Hb E.
Qed.

Lemma kpf_sum j : \sum_k (k_ei_js_js h *m (p_js_is h *m f_mrt_is_js h)) j k = kin j.
Proof.
under eq_bigr do rewrite k_eiE; rewrite /kin; case E: (k_ei h j) => [[l coef]|]; last by rewrite big1.
by rewrite -mulr_sumr pf_sum mulr1.
Qed.

Lemma axE j k : ax h j k = (if j == k then 1 + phi_a0 h j 0 * h_i h j 0 else 0)
  - phi_a0 h j 0 * h_r h j 0 * (p_js_is h *m f_mrt_is_js h) j k
  - phi_t0 h j 0 * h_r h j 0 / h_i h j 0 * (k_ei_js_js h *m (p_js_is h *m f_mrt_is_js h)) j k.
Proof.
rewrite /ax /dot; move: (h_i h) (p_js_is h *m f_mrt_is_js h) => hi A.
move: (k_ei_js_js h *m A) => B.
by rewrite !mxE; case: eqP => _; fring.
Qed.

Lemma ax_z : zmx (ax h).
Proof.
move=> i j nij; rewrite axE (negbTE nij) sub0r -opprD oppr_le0 addr_ge0 //.
  by rewrite !mulr_ge0 ?pf_ge0 ?ph_phi_a0 // ltW // ph_hr.
by rewrite !mulr_ge0 ?kpf_ge0 ?ph_phi_t0 ?invr_ge0 ?(ltW (hi_gt0 _)) // ltW // ph_hr.
Qed.

Lemma ax_sum j : \sum_k ax h j k = 1 + phi_a0 h j 0 * h_c h j 0
   - phi_t0 h j 0 * kin j * h_r h j 0 / h_i h j 0.
Proof.
under eq_bigr do rewrite axE.
rewrite !big_split /= -big_mkcond /= (big_pred1 j) => [|k]; last by rewrite eq_sym.
rewrite !sumrN -!mulr_sumr pf_sum kpf_sum /h_i addE.
have := hi_gt0 j; rewrite /h_i addE; set s := _ + _; move=> s0.
have -> : h_c h j 0 = s - h_r h j 0 by rewrite /s addrK.
have /eqP s1 : s != 0 by rewrite gt_eqF.
by move: s s1 {s0} => s s1; ffield.
Qed.

Lemma z_sum_sdd n (A : 'M[F]_n) : zmx A -> (forall i, 0 < \sum_j A i j) -> sdd A.
Proof.
move=> zA H i; rewrite -subr_gt0; have := H i; rewrite (bigD1 i) //= => /lt_le_trans; apply.
rewrite ler_add2l -sumrN; apply: ler_sum => j nji.
by rewrite ler0_norm ?opprK // zA // eq_sym.
Qed.

Lemma hr_lt_hi j : h_r h j 0 / h_i h j 0 < 1.
Proof. by rewrite ltr_pdivr_mulr ?hi_gt0 // mul1r /h_i addE ltr_addr ph_hc. Qed.

Lemma ax_sdd : sdd (ax h).
Proof.
apply: z_sum_sdd ax_z _ => j; rewrite ax_sum subr_gt0 -mulrA.
have [k0 k1] := kin_bound j.
have r0 : 0 <= h_r h j 0 / h_i h j 0 by rewrite divr_ge0 // ltW // ?ph_hr ?hi_gt0.
apply: (@le_lt_trans _ _ (h_r h j 0 / h_i h j 0)).
  by rewrite -[leRHS]mul1r ler_wpmul2r.
apply: lt_le_trans (hr_lt_hi j) _.
by rewrite ler_addl mulr_ge0 ?ph_phi_a0 // ltW // ph_hc.
Qed.

Lemma make_pp_total : exists q, make_pp h dt = Some q.
Proof. by rewrite /make_pp; have [B ->] := sdd_inv ax_sdd; eexists. Qed.

(* surface temperatures are averages of room temperatures plus driving terms *)
Variable q : pp F ni nj.
Hypothesis Hq : make_pp h dt = Some q.

Lemma fiaE j i : fia h j i = phi_a0 h j 0 * h_c h j 0 * p_js_is h j i
  + phi_t0 h j 0 * h_c h j 0 / h_i h j 0 * (k_ei_js_js h *m p_js_is h) j i.
Proof.
rewrite /fia /dot; move: (h_i h) => hi; move: (k_ei_js_js h *m _) => B.
by rewrite addE !mxE; fring.
Qed.

Lemma p_ge0 j i : 0 <= p_js_is h j i.
Proof. by rewrite !mxE ler0n. Qed.

Lemma p_sum j : \sum_i p_js_is h j i = 1.
Proof.
have := p_jsE (const_mx 1 : 'cV_ni) j 0; rewrite !mxE => <-.
by apply: eq_bigr => i _; rewrite [const_mx _ _ _]mxE mulr1.
Qed.

Lemma kp_ge0 j i : 0 <= (k_ei_js_js h *m p_js_is h) j i.
Proof.
rewrite k_eiE; case E: (k_ei h j) => [[l coef]|] //.
by rewrite mulr_ge0 ?p_ge0 //; have [] := ph_k Hb E.
Qed.

Lemma kp_sum j : \sum_k (k_ei_js_js h *m p_js_is h) j k = kin j.
Proof.
under eq_bigr do rewrite k_eiE; rewrite /kin; case E: (k_ei h j) => [[l coef]|]; last by rewrite big1.
by rewrite -mulr_sumr p_sum mulr1.
Qed.

Lemma fia_ge0 j i : 0 <= fia h j i.
Proof.
rewrite fiaE addr_ge0 // !mulr_ge0 ?p_ge0 ?kp_ge0 ?ph_phi_a0 ?ph_phi_t0 ?invr_ge0 //.
all: apply/ltW; rewrite ?ph_hc ?hi_gt0 //.
Qed.

Lemma fia_sum j : \sum_i fia h j i = phi_a0 h j 0 * h_c h j 0
  + phi_t0 h j 0 * kin j * h_c h j 0 / h_i h j 0.
Proof.
under eq_bigr do rewrite fiaE; rewrite big_split /= -!mulr_sumr p_sum kp_sum; fring.
Qed.

Lemma inv_ax : inv (ax h) = Some (ivs_ax q).
Proof. by have [] := ppE Hq. Qed.

Lemma wsr_ge0 j i : 0 <= wsr q j i.
Proof.
have [_ -> _ _ _] := ppE Hq.
by apply: (sdd_z_sol ax_sdd ax_z inv_ax) => k l; exact: fia_ge0.
Qed.

Lemma ivs_ge0 j k : 0 <= ivs_ax q j k.
Proof. exact: (sdd_z_pos ax_sdd ax_z inv_ax). Qed.

Lemma row_sum_mul m n (A : 'M[F]_(m, n)) i : \sum_k A i k = (A *m const_mx 1 : 'cV_m) i 0.
Proof. by rewrite mxE; apply: eq_bigr => k _; rewrite [const_mx _ _ _]mxE mulr1. Qed.

Lemma wsr_sum j : \sum_i wsr q j i <= 1.
Proof.
have [_ wE _ _ _] := ppE Hq; have [AB BA] := inv_mulV inv_ax.
rewrite row_sum_mul wE -mulmxA.
set w := ivs_ax q *m _.
have Aw : ax h *m w = fia h *m const_mx 1 by rewrite /w mulmxA AB mul1mx.
suff : forall i, 0 <= (const_mx 1 - w) i 0.
  by move/(_ j); rewrite subE subr_ge0 [const_mx _ _ _]mxE.
apply: (sdd_z_monotone ax_sdd ax_z) => i.
rewrite mulmxBr Aw subE -!row_sum_mul ax_sum fia_sum.
have [_ k1] := kin_bound i.
have /eqP s1 : h_i h i 0 != 0 by rewrite gt_eqF // hi_gt0.
have -> : h_r h i 0 = h_i h i 0 - h_c h i 0 by rewrite /h_i addE addrAC subrr add0r.
move: k1; rewrite -subr_ge0; move: (h_i h) s1 (kin i) => hi s1 k k1.
apply: le_trans k1 _; rewrite le_eqVlt; apply/orP; left; apply/eqP; ffield; exact: s1.
Qed.

Lemma flbE j i : let S := rmul (flr_js_is h) (ssub 1 (beta h)) in
  flb h j i = phi_a0 h j 0 / a_srf h j 0 * S j i
            + phi_t0 h j 0 / h_i h j 0 / a_srf h j 0 * (k_ei_js_js h *m S) j i.
Proof.
rewrite /flb /dot; move: (h_i h) (rmul _ _) => hi S; move: (k_ei_js_js h *m S) => B /=.
by rewrite addE !mxE; fring.
Qed.

Lemma flr_ge0_wsb : (forall j, 0 <= flr h j 0) -> (forall i, beta h i 0 <= 1) ->
  forall j i, 0 <= wsb q j i.
Proof.
move=> f0 b1 j i; have [_ _ -> _ _] := ppE Hq.
apply: (sdd_z_sol ax_sdd ax_z inv_ax) => k l.
have s0 a b : 0 <= rmul (flr_js_is h) (ssub 1 (beta h)) a b.
  by rewrite !mxE !mulr_ge0 ?ler0n ?f0 // subr_ge0.
rewrite flbE addr_ge0 // !mulr_ge0 ?s0 ?ph_phi_a0 ?ph_phi_t0 ?invr_ge0 //;
  try by apply/ltW; rewrite ?ph_area ?hi_gt0.
rewrite k_eiE; case E: (k_ei h k) => [[m coef]|] //.
by rewrite mulr_ge0 ?s0 //; have [] := ph_k Hb E.
Qed.

End Pre.

Section Solve.
Variable F : realFieldType.
Variable n : nat.
Variables (X Y xot : 'M[F]_n).
Hypothesis (sX : sdd X) (sY : sdd Y) (Xx : inv X = Some xot).

Lemma sdd_mix (b : 'I_n -> bool) : sdd (\matrix_(i, j) if b i then Y i j else X i j).
Proof.
move=> i; rewrite mxE; under eq_bigr do rewrite mxE.
by case: (b i); [apply: sY | apply: sX].
Qed.

Lemma glt_conv_total brl k nt ts lcs lrs c r :
  c =1 (fun i => ~~ nt i) -> r =1 xpred0 ->
  exists t, get_load_and_temp (Y *m xot) 1%:M brl k nt ts c lcs r lrs = Some t.
Proof.
move=> cE rE; rewrite /get_load_and_temp; set x1 := (_ - _ - _).
suff [B ->] : exists B, inv x1 = Some B by eexists.
apply: inj_inv => v; have [Xx1 _] := inv_mulV Xx.
have -> : x1 *m v = (Y *m (xot *m emul (ind F nt) v)) - emul (ind F c) v.
  rewrite /x1 !mulmxBl; have -> : rmul brl (ind F r) = 0.
    by apply/matrixP => a b; rewrite !mxE rE mulr0.
  rewrite mul0mx subr0 !mulmxA; congr (_ - _); apply/matrixP => a b; rewrite !mxE.
    by apply: eq_bigr => l _; rewrite !mxE (ord1 b) mulrA.
  rewrite (bigD1 a) //= !mxE eqxx mul1r big1 ?addr0 (ord1 b) // => l nl.
  by rewrite !mxE eq_sym (negbTE nl) !mul0r.
set u := xot *m _ => E.
have Xu : X *m u = emul (ind F nt) v by rewrite /u mulmxA Xx1 mul1mx.
have u0 : u = 0.
  apply: (sdd_inj (sdd_mix nt)); apply/matrixP => i j; rewrite (ord1 j) [in RHS]mxE mxE.
  have mixE (b : bool) (Z : 'M[F]_n) : nt i = b -> Z = (if b then Y else X) ->
      \sum_l (\matrix_(i, j) if nt i then Y i j else X i j) i l * u l 0 = (Z *m u) i 0.
    by move=> bE ZE; rewrite [in RHS]mxE ZE; apply: eq_bigr => l _; rewrite mxE bE; case: (b).
  case bE: (nt i); rewrite (mixE _ _ bE erefl).
    by move/matrixP/(_ i 0): E; rewrite subE emulE [ind _ _ _ _]mxE [RHS]mxE /= cE bE mul0r subr0.
  by rewrite Xu emulE mxE bE mul0r.
move: E; rewrite u0 mulmx0 sub0r => /eqP; rewrite oppr_eq0 => /eqP E.
apply/matrixP => i j; rewrite (ord1 j) [RHS]mxE.
move/matrixP/(_ i 0): E; move: Xu; rewrite u0 mulmx0 => /matrixP/(_ i 0).
by rewrite !mxE cE; case: (nt i); rewrite ?mul1r.
Qed.

Lemma calc_conv_total rh rc brc brl lo up (caph capc : 'cV[F]_n) om ac :
  (forall i, om i = HEATING -> rh i = false) -> (forall i, om i = COOLING -> rc i = false) ->
  (forall i, 0 <= caph i 0) -> (forall i, 0 <= capc i 0) ->
  exists t, calc_next_temp_and_load rh rc brc (Y *m xot) brl lo up caph capc om ac = Some t.
Proof.
move=> rh0 rc0 caph0 capc0; rewrite /calc_next_temp_and_load.
have uYx : Y *m xot \in unitmx.
  rewrite unitmx_mul sdd_unit //=; have [uX ->] := invP Xx; by rewrite unitmx_inv.
rewrite /inv uYx -/(inv _).
set ih := fun i => mode_eqb (om i) HEATING && _; set ic := fun i => mode_eqb (om i) COOLING && _.
set nt := fun i => ~~ _ && _.
set c := fun i => _ || _; set r := fun i => _ || _.
have cE : c =1 (fun i => ~~ nt i).
  move=> i; rewrite /c /nt /ih /ic; move: (rh0 i) (rc0 i); case: (om i) => //= a b.
    by rewrite (b erefl) andbT negbK.
  by rewrite (a erefl) andbT !orbF andbT negbK.
have rE : r =1 xpred0.
  by move=> i; rewrite /r /ih /ic; move: (rh0 i) (rc0 i); case: (om i) => //= a b; rewrite ?a ?b ?andbF.
set ts := vwhere ic _ _.
have [[[t0 l0] lr0] E1] := glt_conv_total brl brc ts 0 0 cE rE; rewrite E1.
have lr0E i : lr0 i 0 = 0 by have [_ [_ ->]] := glt_theta_set E1 i; rewrite ?mxE ?rE.
have o1 i : (caph i 0 < lr0 i 0) = false by rewrite lr0E ltNge caph0.
have o2 i : (lr0 i 0 < - capc i 0) = false by rewrite lr0E ltNge oppr_le0 capc0.
apply: glt_conv_total => i; rewrite ?o1 ?o2 /=; [exact: (cE i) | exact: (rE i)].
Qed.

End Solve.

Section TickTotal.
Variable F : realFieldType.
Variables ni nj nm : nat.
Add Field Ffield : (ffield_theory F).
Ltac fring := ffold F; ring.
Ltac ffield := ffold F; field.
Variables (dt : F) (h : house F ni nj nm) (q : pp F ni nj).
Hypothesis Hb : physical_boundaries h.
Hypothesis Hr : physical_rooms dt h.
Hypothesis Hq : make_pp h dt = Some q.

Lemma c_air_gt0 : 0 < c_air F. Proof. by rewrite /c_air ltr0n. Qed.
Lemma rho_air_gt0 : 0 < rho_air F. Proof. by rewrite /rho_air divr_gt0 // ltr0n. Qed.

Lemma c_rm_dt_gt0 i : 0 < c_rm h i 0 / dt.
Proof.
rewrite /c_rm matE divr_gt0 ?(ph_dt Hr) //.
exact: mulr_gt0 (mulr_gt0 (ph_room Hr i) rho_air_gt0) c_air_gt0.
Qed.

Lemma furn_ge0 i : 0 <= c_sh h i 0 * g_sh h i 0 / (c_sh h i 0 + g_sh h i 0 * dt).
Proof.
have := ltW (ph_c_sh Hr i); have := ph_g_sh Hr i; have := ltW (ph_dt Hr) => d0 g0 c0.
by rewrite divr_ge0 ?mulr_ge0 // addr_ge0 // mulr_ge0.
Qed.

Definition hca j := h_c h j 0 * a_srf h j 0.
Lemma hca_gt0 j : 0 < hca j. Proof. by rewrite mulr_gt0 ?ph_hc ?ph_area. Qed.

Lemma brm_nvE i k : brm_non_vent q i k =
  (if i == k then c_rm h i 0 / dt + c_sh h i 0 * g_sh h i 0 / (c_sh h i 0 + g_sh h i 0 * dt)
                  + \sum_(j | conn h j == i) hca j else 0)
  - \sum_(j | conn h j == i) hca j * wsr q j k.
Proof.
have [_ _ _ _ ->] := ppE Hq; rewrite !addE !vdiagE !matE p_isE.
have -> : \sum_(j | conn h j == i) cmul (h_c h) (cmul (a_srf h) (p_js_is h - wsr q)) j k
  = (if i == k then \sum_(j | conn h j == i) hca j else 0)
    - \sum_(j | conn h j == i) hca j * wsr q j k.
  rewrite (eq_bigr (fun j => hca j * (i == k)%:R - hca j * wsr q j k)).
    by rewrite sumrB -mulr_suml; case: (i == k); rewrite ?mulr1 ?mulr0.
  move=> j /eqP ji; rewrite !cmulE subE mulrA -mulrBr; congr (_ * (_ - _)).
  by rewrite !mxE ji.
by case: (i == k); fring.
Qed.

(* the room matrix *)
Lemma brm_sdd (v_out : 'cV[F]_ni) : (forall i, 0 <= v_out i 0) ->
  sdd (brm_non_vent q + smul (c_air F * rho_air F) (vdiag v_out + v_int h)).
Proof.
move=> v0 i; set cr := c_air F * rho_air F.
have cr0 : 0 < cr by rewrite mulr_gt0 ?c_air_gt0 ?rho_air_gt0.
set S := fun k => \sum_(j | conn h j == i) hca j * wsr q j k.
have S0 k : 0 <= S k by apply: sumr_ge0 => j _; rewrite mulr_ge0 ?(wsr_ge0 Hb Hq) // ltW // hca_gt0.
have SS : \sum_k S k <= \sum_(j | conn h j == i) hca j.
  rewrite /S exchange_big /=; apply: ler_sum => j _; rewrite -mulr_sumr.
  by rewrite -[leRHS]mulr1 ler_wpmul2l ?(wsr_sum Hb Hq) // ltW // hca_gt0.
have E k : k != i -> (brm_non_vent q + smul cr (vdiag v_out + v_int h)) i k = - S k + cr * v_int h i k.
  by move=> nk; rewrite addE brm_nvE smulE addE vdiagE eq_sym (negbTE nk) !add0r.
rewrite (eq_bigr (fun k => `|- S k + cr * v_int h i k|)) => [|k nk]; last by rewrite E.
apply: (@le_lt_trans _ _ (\sum_(k | k != i) (S k + cr * v_int h i k))).
  apply: ler_sum => k nk; apply: le_trans (ler_norm_add _ _) _.
  by rewrite normrN !ger0_norm // mulr_ge0 ?(ltW cr0) ?(ph_v_int Hr).
rewrite addE brm_nvE eqxx smulE addE vdiagE eqxx big_split /= -mulr_sumr.
have := ph_v_int_sum Hr i; rewrite (bigD1 i) //= => vs.
have := SS; rewrite (bigD1 i) //= => {}SS.
have := furn_ge0 i; set f := (_ / (c_sh h i 0 + _)) => f0.
have cE : c_rm h i 0 / dt = cr * (v_room h i 0 / dt).
  by rewrite /c_rm matE /cr; fring.
rewrite cE -/(S i) -subr_gt0; move: SS vs; set A := \sum_(j | _) hca j; set B := \sum_(k | _) S k.
set C := \sum_(k | _) v_int h i k; set D := v_room h i 0 / dt => SS vs.
have -> : cr * D + f + A - S i + cr * (v_out i 0 + v_int h i i) - (B + cr * C)
  = (A - (S i + B)) + cr * (D - (v_int h i i + C)) + (f + cr * v_out i 0 + cr * (v_int h i i + v_int h i i)).
  by fring.
apply: ltr_paddr; first by rewrite !addr_ge0 // mulr_ge0 ?addr_ge0 ?(ph_v_int Hr) ?v0 // ltW.
by apply: ltr_paddl; rewrite ?subr_ge0 // mulr_gt0 // subr_gt0.
Qed.

(* without air exchange between rooms the room matrix is an M-matrix *)
Lemma brm_z v_out : (forall i k, i != k -> v_int h i k = 0) ->
  zmx (brm_non_vent q + smul (c_air F * rho_air F) (vdiag v_out + v_int h)).
Proof.
move=> v0 i k nik; rewrite addE brm_nvE smulE addE vdiagE (negbTE nik) (v0 _ _ nik) !addr0 mulr0 addr0.
rewrite sub0r oppr_le0; apply: sumr_ge0 => j _.
by rewrite mulr_ge0 ?(wsr_ge0 Hb Hq) // ltW // hca_gt0.
Qed.

(* the operative temperature matrix *)
Lemma xot_sdd (hc hr : 'cV[F]_ni) : physical_hum h ->
  (forall i, 0 <= hr i 0) -> (forall i, hr i 0 < hc i 0) ->
  sdd (vdiag (ediv hc (hc + hr)) + cmul (ediv hr (hc + hr)) (f_mrt_hum_is_js h *m wsr q)).
Proof.
move=> Hh hr0 hrc i.
set M := f_mrt_hum_is_js h *m wsr q.
have ME k : M i k = \sum_(j | conn h j == i) f_mrt_hum h j 0 * wsr q j k.
  rewrite /M mxE [RHS]big_mkcond; apply: eq_bigr => j _; rewrite !mxE.
  by case: (_ == _); rewrite ?mul1r ?mul0r.
have M0 k : 0 <= M i k.
  by rewrite ME; apply: sumr_ge0 => j _; rewrite mulr_ge0 ?(ph_fh Hh) ?(wsr_ge0 Hb Hq).
have M1 : \sum_k M i k <= 1.
  apply: le_trans (ph_fh_sum Hh i); under eq_bigr do rewrite ME; rewrite exchange_big /=.
  apply: ler_sum => j _; rewrite -mulr_sumr -[leRHS]mulr1.
  by rewrite ler_wpmul2l ?(ph_fh Hh) ?(wsr_sum Hb Hq).
have s0 : 0 < hc i 0 + hr i 0 by rewrite ltr_paddr // (le_lt_trans (hr0 i)).
set kr := ediv hr (hc + hr); set kc := ediv hc (hc + hr).
have kr0 : 0 <= kr i 0 by rewrite /kr mxE addE divr_ge0 // ltW.
have krc : kr i 0 < kc i 0 by rewrite /kr /kc !mxE ltr_pmul2r // invr_gt0.
rewrite (eq_bigr (fun k => kr i 0 * M i k)) => [|k nk]; last first.
  by rewrite addE vdiagE eq_sym (negbTE nk) add0r cmulE ger0_norm // mulr_ge0.
rewrite -mulr_sumr addE vdiagE eqxx cmulE.
apply: (@le_lt_trans _ _ (kr i 0)).
  rewrite -[leRHS]mulr1 ler_wpmul2l //; apply: le_trans M1.
  by rewrite [leRHS](bigD1 i) //= ler_addr.
by apply: ltr_paddr => //; rewrite mulr_ge0.
Qed.

(* the humidity matrices *)
Lemma brmx_z (v_out g : 'cV[F]_ni) :
  zmx (smul (rho_air F) (vdiag (\matrix_(i, _) (v_room h i 0 / dt + v_out i 0)) - v_int h) + vdiag g).
Proof.
move=> i k nik; rewrite addE smulE subE !vdiagE (negbTE nik) sub0r addr0 mulrN oppr_le0.
exact: mulr_ge0 (ltW rho_air_gt0) (ph_v_int Hr i k).
Qed.

Lemma brmx_sdd (v_out g : 'cV[F]_ni) : (forall i, 0 <= v_out i 0) -> (forall i, 0 <= g i 0) ->
  sdd (smul (rho_air F) (vdiag (\matrix_(i, _) (v_room h i 0 / dt + v_out i 0)) - v_int h) + vdiag g).
Proof.
move=> v0 g0; apply: z_sum_sdd (brmx_z _ _) _ => i.
under eq_bigr do rewrite addE smulE subE.
rewrite big_split /= -mulr_sumr sumrB; apply: ltr_paddr.
  by apply: sumr_ge0 => k _; rewrite vdiagE; case: ifP.
apply: mulr_gt0 rho_air_gt0 _; rewrite subr_gt0.
apply: lt_le_trans (ph_v_int_sum Hr i) _.
rewrite (bigD1 i) //= vdiagE eqxx matE big1 ?addr0 ?ler_addl // => k nk.
by rewrite vdiagE eq_sym (negbTE nk).
Qed.

Lemma g_lat_ge0 i : 0 <= c_lh h i 0 * g_lh h i 0 / (c_lh h i 0 + dt * g_lh h i 0).
Proof.
have := ltW (ph_c_lh Hr i); have := ph_g_lh Hr i; have := ltW (ph_dt Hr) => d0 g0 c0.
by rewrite divr_ge0 ?mulr_ge0 // addr_ge0 // mulr_ge0.
Qed.

(* air flow of the air conditioner *)
Lemma vac_ge0 i qs : 0 <= qs ->
  0 <= get_vac (q_max h i 0) (q_min h i 0) qs (v_max h i 0) (v_min h i 0).
Proof.
move=> qs0; have /andP[q0 qq] := ph_q Hr i; have /andP[v0 vv] := ph_v Hr i; have qv := ph_qv Hr i.
rewrite /get_vac divr_ge0 ?ler0n //; move: q0 qq v0 vv qv.
move: (q_max h i 0) (q_min h i 0) (v_max h i 0) (v_min h i 0) => a b c d.
rewrite -subr_gt0 -(subr_ge0 d c) -(subr_ge0 (b * _)) => b0 ab d0 cd bd.
have /eqP abn : a - b != 0 by rewrite gt_eqF.
have -> : d + (c - d) / (a - b) * (qs - b)
  = (d * (a - b) - b * (c - d) + (c - d) * qs) / (a - b) by ffield.
by rewrite divr_ge0 ?(ltW ab) // addr_ge0 // mulr_ge0.
Qed.


Lemma dehumid_diag (x_sat : F -> F) (lcs tr x : 'cV[F]_ni) : exists w : 'cV[F]_ni,
  (forall i, 0 <= w i 0) /\
  (get_dehumid_coeff x_sat lcs tr (q_max h) (q_min h) (v_max h) (v_min h) x).1 = vdiag w.
Proof.
rewrite /get_dehumid_coeff /=; set w := vwhere _ _ _; exists w; split=> // i.
rewrite /w mxE; case: ifP => _; first by rewrite mxE.
rewrite matE vdiagE eqxx !smulE mulr_ge0 ?(ltW rho_air_gt0) // mulr_ge0 //.
  by rewrite /bf subr_ge0 ler_pdivr_mulr ?ltr0n // mul1r ler_nat.
rewrite matE oppE; case: ifP => // qs; apply: vac_ge0; apply: ltW; apply: lt_trans qs.
by rewrite divr_gt0 ?ltr01 // ltr0n.
Qed.

Variables (ot : ot_fun F ni) (infil : infil_fun F ni) (x_sat : F -> F).
Variables (s : step_data F ni nj) (c : conditions F ni nj nm).
Hypothesis Hh : physical_hum h.
Hypothesis Ha : physical_air h s.
Hypothesis infil_ge0 : forall tr to i, 0 <= infil tr to i 0.
Variables (hc hr lo up : 'cV[F]_ni) (modes : 'I_ni -> mode).
Hypothesis otE : ot (x_r c) (operation_mode c) (theta_r c) (theta_mrt_hum c) (ac_demand s)
  = Some (hc, hr, modes, lo, up).
Hypothesis hr_ge0 : forall i, 0 <= hr i 0.
Hypothesis hr_hc : forall i, hr i 0 < hc i 0.

Lemma v_out_ge0 i :
  0 <= (infil (theta_r c) (theta_o s) + v_mec h s
        + vwhere (fun i => mode_eqb (modes i) STOP_OPEN) (v_ntrl h) 0) i 0.
Proof.
have [v1 v2] := Ha i.
have : 0 <= v_mec h s i 0 by rewrite /v_mec addE.
move: (v_mec h s) => v v3; rewrite !addE !addr_ge0 ?infil_ge0 //.
by rewrite mxE; case: ifP => // _; rewrite mxE.
Qed.

(* every matrix of the step is invertible as soon as the load calculation succeeds *)
Lemma tick_total_gen :
  (forall (v_out : 'cV[F]_ni) xot brc kr',
     (forall i, 0 <= v_out i 0) ->
     let brm := brm_non_vent q + smul (c_air F * rho_air F) (vdiag v_out + v_int h) in
     inv (vdiag (ediv hc (hc + hr)) + cmul (ediv hr (hc + hr)) (f_mrt_hum_is_js h *m wsr q)) = Some xot ->
     kr' = ediv hr (hc + hr) ->
     exists t, calc_next_temp_and_load (is_rad_h h) (is_rad_c h) brc (brm *m xot)
       (brl q + brm *m (xot *m cmul kr' (f_mrt_hum_is_js h *m wsb q)))
       lo up (cap_h h) (cap_c h) modes (ac_demand s) = Some t) ->
  exists r, run_tick ot infil x_sat dt h q s c = Some r.
Proof.
move=> Hc; rewrite /run_tick otE /dot.
have [xot xotE] := sdd_inv (xot_sdd Hh hr_ge0 hr_hc); rewrite xotE.
set v_out := (_ + _ + vwhere _ _ _).
have v0 : forall i, 0 <= v_out i 0 by exact: v_out_ge0.
set brc := (_ + _ *m (_ *m emul _ _)).
have [[[t lc] lr] ->] := Hc v_out xot brc _ v0 xotE erefl.
set g := (\matrix_(i, _) (c_lh h i 0 * _ / _) : 'cV[F]_ni).
have g0 i : 0 <= g i 0 by rewrite /g matE g_lat_ge0.
have [b bE] := sdd_inv (brmx_sdd v0 g0); rewrite bE.
set tr := (_ - _ - _); set x := b *m _.
have [w [w0 wE]] := dehumid_diag x_sat lc tr x.
case E: (get_dehumid_coeff _ _ _ _ _ _ _ _) wE => [d1 d2] /= ->.
have g1 i : 0 <= (g + w) i 0 by rewrite addE addr_ge0.
have [b' b'E] := sdd_inv (brmx_sdd v0 g1).
have -> : forall A : 'M[F]_ni, A + vdiag g + vdiag w = A + vdiag (g + w).
  move=> A; rewrite -addrA; congr (_ + _); apply/matrixP => a e; rewrite addE !vdiagE addE.
  by case: ifP; rewrite ?addr0.
by rewrite b'E; eexists.
Qed.

(* no radiant equipment in use, any number of rooms *)
Lemma tick_total_conv :
  (forall i, modes i = HEATING -> is_rad_h h i = false) -> (forall i, modes i = COOLING -> is_rad_c h i = false) ->
  (forall i, 0 <= cap_h h i 0) -> (forall i, 0 <= cap_c h i 0) ->
  exists r, run_tick ot infil x_sat dt h q s c = Some r.
Proof.
move=> r1 r2 c1 c2; apply: tick_total_gen => v_out xot brc kr' v0 brm xotE _.
by apply: (calc_conv_total (xot_sdd Hh hr_ge0 hr_hc) (brm_sdd v0) xotE).
Qed.

End TickTotal.
