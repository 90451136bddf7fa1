(* What the twin house refutes: the capacity of radiant equipment (C07), the sign of the loads (C08) and the completion of
   the step (C51), for a house of two ordinary rooms. *)
From mathcomp Require Import all_ssreflect ssralg ssrnum zmodp matrix.
From Coq Require Import Ring Field ZArith.
From Verif Require Import Model.OperationMode Model.Numpy Model.Dec Model.NextCondition Model.PreCalc
  Model.HeatExchanger Model.Tick Model.Step Model.OtTarget Model.CoreStep Spec.Physical.
From Verif Require Import Lemmas.FieldTac Lemmas.NumpyL Lemmas.DecL Lemmas.NextConditionL Lemmas.TickBalance Lemmas.MMatrix Lemmas.TickTotal
  Lemmas.LoadRefute Lemmas.OtTargetL Lemmas.StepProps Lemmas.ModeL Lemmas.ColdL Lemmas.ColdTarget Examples.House2 Examples.Twin.
Set Implicit Arguments. Unset Strict Implicit. Unset Printing Implicit Defensive.
Import Order.TTheory GRing.Theory Num.Theory.
Local Open Scope ring_scope.

Section TwinL.
Variable F : realFieldType.
Add Field Ffield : (ffield_theory F).
Ltac fring := ffold F; ring.
Variable e0 : F.
Hypothesis e0_ge0 : 0 <= e0.
Variable x_sat : F -> F.

Definition kc : F := h_hum_c F / (h_hum_c F + h_hum_r F).
Definition kr : F := h_hum_r F / (h_hum_c F + h_hum_r F).
Lemma hc0 : 0 < h_hum_c F. Proof. by rewrite dec_gt0. Qed.
Lemma hcr0 : 0 < h_hum_c F + h_hum_r F. Proof. by rewrite addr_gt0 ?hc0 ?h_hum_r_gt0. Qed.
Lemma kc0 : 0 < kc. Proof. by rewrite divr_gt0 ?hc0 ?hcr0. Qed.
Lemma kr0 : 0 < kr. Proof. by rewrite divr_gt0 ?h_hum_r_gt0 ?hcr0. Qed.
Lemma kcr1 : kc + kr = 1. Proof. by rewrite -mulrDl divff // gt_eqF // hcr0. Qed.
Lemma kc3 : kc <= 3%:R * kr.
Proof.
rewrite /kc /kr mulrA ler_pmul2r ?invr_gt0 ?hcr0 //.
rewrite /h_hum_r /h_hum_c [X in X ^+ 3]dec_add exprS exprS expr1 (dec_nat F 4) (dec_nat F 3) !dec_mul.
by apply: dec_le; vm_compute.
Qed.

Definition v0 : F := 1 / 1000%:R + 1 / 100%:R.
Definition g : F := tw_g v0.
Lemma g_gt0 : 0 < g.
Proof.
have n0 (n : nat) : 0 < n.+1%:R :> F by exact: ltr0Sn.
have c0 : 0 < c_air F by exact: n0.
have r0 : 0 < rho_air F by exact: divr_gt0 (n0 _) (n0 _).
have z0 : 0 < v0 by exact: addr_gt0 (divr_gt0 ltr01 (n0 _)) (divr_gt0 ltr01 (n0 _)).
apply: addr_gt0; last exact: mulr_gt0 (mulr_gt0 c0 r0) z0.
apply: addr_gt0; first exact: divr_gt0 (mulr_gt0 (mulr_gt0 (n0 _) r0) c0) (n0 _).
exact: divr_gt0 (mulr_gt0 (n0 _) (n0 _)) (addr_gt0 (n0 _) (mulr_gt0 (n0 _) (n0 _))).
Qed.

Section Setup.
Variables (w : F) (rad : bool) (cap ac : 'cV[F]_2).
Hypotheses (w0 : 0 <= w) (w1 : w <= 1) (ac0 : forall i, 0 < ac i 0).
Local Notation H := (twin w rad cap).
Local Notation run := (core_step e0 (@infil2 F) x_sat 900%:R H (tw_step ac) (tw_cond F)).

Lemma twin_setup : exists q xot (md : 'I_2 -> mode) (lo up : 'cV[F]_2),
  [/\ make_pp H 900%:R = Some q,
      inv (vdiag (const_mx kc) + cmul (const_mx kr) (f_mrt_hum_is_js H *m wsr q)) = Some xot,
      forall i : 'I_2, md i = HEATING /\ lo i 0 = tgt e0,
      forall c' o, run = Some (c', o) -> operation_mode c' = md /\
        calc_next_temp_and_load (fun _ => rad) (fun _ => rad) 0 (tw_a w rad cap q v0 xot) (tw_b w rad cap q kr v0 xot)
          lo up cap cap md ac = Some (o_theta_ot o, o_l_cs o, o_l_rs o)
    & (exists t, calc_next_temp_and_load (fun _ => rad) (fun _ => rad) 0 (tw_a w rad cap q v0 xot) (tw_b w rad cap q kr v0 xot)
          lo up cap cap md ac = Some t) -> exists c' o, run = Some (c', o)].
Proof.
have [q Hq] := make_pp_total 900%:R (twin_boundaries w rad cap).
have [md [lo [up [otE mdE]]]] := cold_ot e0_ge0 ac0.
have r0 i : 0 <= (const_mx (h_hum_r F) : 'cV[F]_2) i 0 by rewrite mxE ltW // h_hum_r_gt0.
have rc i : (const_mx (h_hum_r F) : 'cV[F]_2) i 0 < (const_mx (h_hum_c F) : 'cV[F]_2) i 0.
  by rewrite !mxE h_hum_r_lt_c.
have kcE : ediv (const_mx (h_hum_c F)) (const_mx (h_hum_c F) + const_mx (h_hum_r F)) = const_mx kc :> 'cV[F]_2.
  by apply/matrixP => i j; rewrite !mxE.
have krE : ediv (const_mx (h_hum_r F)) (const_mx (h_hum_c F) + const_mx (h_hum_r F)) = const_mx kr :> 'cV[F]_2.
  by apply/matrixP => i j; rewrite !mxE.
have [xot xotE] := sdd_inv (xot_sdd (twin_boundaries w rad cap) Hq (twin_hum rad cap w0 w1) r0 rc).
rewrite kcE krE in xotE.
have voE : v_out_of (@infil2 F) H (tw_step ac) (tw_cond F) md = const_mx v0.
  apply/matrixP => i j; rewrite (ord1 j) !mxE.
  by have [-> _] := mdE i; rewrite /= addr0 addr0.
exists q, xot, md, lo, up; split=> //.
  move=> c' o; rewrite /core_step => /stepP[q' []]; rewrite Hq => -[<-] Ht.
  have [xot' []] := cold_tick (tw_cold_state F) (tw_cold_data ac) Ht otE.
  by rewrite kcE krE xotE => -[<-] e1; rewrite voE => e2.
move=> Hc; have [c' [o Ht]] : exists c' o, run_tick (get_ot_target_and_h_hum e0 (ni := 2)) (@infil2 F) x_sat 900%:R H q (tw_step ac) (tw_cond F) = Some (c', o).
  apply: (cold_total _ (tw_cold_state F) (tw_cold_data ac) (twin_boundaries w rad cap) (twin_rooms w rad cap) Hq (twin_hum rad cap w0 w1) (twin_air w rad cap ac) _ otE r0 rc).
    by move=> tr to i; rewrite mxE divr_ge0 ?ler01 ?ler0n.
  by move=> xot'; rewrite kcE krE xotE voE => -[<-].
by exists c', o; rewrite /core_step (stepI Hq Ht).
Qed.

End Setup.

Lemma mul2 (M : 'M[F]_2) a b i : (M *m col2 a b) i 0 = M i 0 * a + M i 1 * b.
Proof. by rewrite mxE sum2 !mxE. Qed.

Definition half : F := 2%:R^-1.
Lemma half2 : half + half = 1.
Proof. by rewrite -mulr2n -[_ *+ 2]mulr_natr mulVf // pnatr_eq0. Qed.
Lemma half_ge0 : 0 <= half. Proof. by rewrite invr_ge0 ler0n. Qed.
Lemma half_le1 : half <= 1. Proof. by rewrite -half2 ler_addl half_ge0. Qed.

Section House.
Variables (w : F) (rad : bool) (cap : 'cV[F]_2) (q : pp F 2 4) (xot : 'M[F]_2).
Hypothesis Hq : make_pp (twin w rad cap) 900%:R = Some q.
Hypothesis Hx : inv (vdiag (const_mx kc) + cmul (const_mx kr) (f_mrt_hum_is_js (twin w rad cap) *m wsr q)) = Some xot.
Local Notation A := (tw_a w rad cap q v0 xot).
Local Notation B := (tw_b w rad cap q kr v0 xot).

Lemma u18 : exists u : F, [/\ 18%:R * u = 1, 2%:R^-1 = 9%:R * u, 6%:R^-1 = 3%:R * u & 9%:R^-1 = 2%:R * u].
Proof.
exists 18%:R^-1; have e : 18%:R * 18%:R^-1 = 1 :> F by rewrite mulfV // pnatr_eq0.
have inv_u (m n : nat) : (m * n = 18)%N -> (m%:R : F)^-1 = n%:R * 18%:R^-1.
  move=> mn; apply: (mulfI (x := m%:R)); first by rewrite pnatr_eq0; case: m mn.
  by rewrite mulrA -natrM mn e mulfV // pnatr_eq0; case: m mn.
by split=> //; exact: inv_u.
Qed.

Lemma mode_row (s T l x y t n : F) i : s = 1 \/ s = -1 ->
  5%:R / 2%:R * x = (1 / 6%:R + s / 9%:R) * (8%:R * T + 5%:R * x + l / 12%:R) ->
  5%:R / 2%:R * y = (1 / 6%:R - s / 9%:R) * (l / 12%:R) ->
  t = kc * T + kr * (w * ((x + y) / 2%:R) + (1 - w) * ((x - y) / 2%:R)) -> n = (g + 96%:R) * T - 48%:R * x ->
  (A i 0 + s * A i 1) * t - (B i 0 + s * B i 1) * l = if i == 0 then n else s * n.
Proof.
move=> sE Ex Ey tE nE; have /(congr1 (fun v : 'cV_2 => v i 0)) := twin_mode Hq Hx sE Ex Ey tE nE.
rewrite /= addE oppE !mul2 [col2 _ _ _ _]mxE => <-.
by move: (A i 0) (A i 1) (B i 0) (B i 1) => a b c e; fring.
Qed.

(* equal temperatures in both rooms *)
Lemma a_even i : A i 0 + A i 1 = g.
Proof.
have [u [u1 e2 e6 e9]] := u18.
have := @mode_row 1 1 0 2%:R 0 1 g i (or_introl erefl).
rewrite !(mul1r, mulr1, mulr0, mul0r, subr0, addr0) => ->; first by case: ifP.
- rewrite mulfVK ?pnatr_eq0 // e6 e9 -mulrDl -natrD -natrM -natrD mulrAC -natrM -[(_ * _)%N]/(18 * 5)%N natrM.
  by rewrite mulrAC u1 mul1r.
- by [].
- by rewrite divff ?pnatr_eq0 // !mulr1 [w + _]addrC subrK mulr1 kcr1.
by rewrite -natrM -addrA subrr addr0.
Qed.

(* opposite temperatures *)
Definition lam_n : F := (g + 96%:R) * 5%:R - 48%:R.
Definition lam_t : F := kc * 5%:R + kr * half.
Lemma lam_t_gt0 : 0 < lam_t.
Proof. by rewrite addr_gt0 // mulr_gt0 ?kc0 ?kr0 ?ltr0Sn // invr_gt0 ltr0Sn. Qed.
Definition lam : F := lam_n / lam_t.
Lemma a_odd i : A i 0 - A i 1 = if i == 0 then lam else - lam.
Proof.
have [u [u1 e2 e6 e9]] := u18.
have E : (A i 0 + (-1) * A i 1) * lam_t - (B i 0 + (-1) * B i 1) * 0 = if i == 0 then lam_n else (-1) * lam_n.
  apply: (@mode_row (-1) 5%:R 0 1 0) => //; first by right.
  - by rewrite e2 e6 e9; clear; fring.
  - by rewrite mul0r !mulr0.
  - by rewrite addr0 subr0 [w * _ + _]addrC -mulrDl subrK !mul1r.
  by rewrite mulr1.
have tn : lam_t != 0 by rewrite gt_eqF ?lam_t_gt0.
apply: (mulIf tn); move: E; rewrite mulr0 subr0 !mulN1r => ->.
by rewrite /lam; case: ifP => _; rewrite ?mulNr divfK.
Qed.

Lemma lam_gt : g < lam.
Proof.
rewrite /lam ltr_pdivl_mulr ?lam_t_gt0 //.
have t1 : lam_t < 5%:R.
  have -> : 5%:R = kc * 5%:R + kr * 5%:R by rewrite -mulrDl kcr1 mul1r.
  rewrite ltr_add2l ltr_pmul2l ?kr0 //; apply: le_lt_trans half_le1 _; exact: ltr1n.
apply: lt_trans (_ : g * 5%:R < _); first by rewrite ltr_pmul2l ?g_gt0.
rewrite /lam_n; move: g => G.
by rewrite mulrDl -addrA ltr_addl -natrM subr_gt0 ltr_nat.
Qed.

(* without radiant equipment *)
Lemma a10 : A 1 0 * 2%:R = g - lam.
Proof. by have := a_even 1; have := a_odd 1; rewrite /= => <- <-; move: (A 1 0) (A 1 1) => a b; fring. Qed.
Lemma a11 : A 1 1 * 2%:R = g + lam.
Proof.
have e1 := a_even 1; have e2 := a_odd 1; rewrite /= in e2.
rewrite -e1 -[lam]opprK -e2; move: (A 1 0) (A 1 1) => a b; fring.
Qed.
Lemma odd_even_inv (M : 'M[F]_2) a b : a != 0 -> b != 0 -> (forall i, M i 0 + M i 1 = a) ->
  (forall i, M i 0 - M i 1 = if i == 0 then b else - b) -> exists V, inv M = Some V.
Proof.
move=> a0 b0 ev od; apply: inj_inv => v Mv.
have r i : M i 0 * v 0 0 + M i 1 * v 1 0 = 0.
  by have := congr1 (fun z : 'cV_2 => z i 0) Mv; rewrite /= mxE sum2 [X in _ = X]mxE.
have [e0' e1 d0 d1] : [/\ M 0 0 + M 0 1 = a, M 1 0 + M 1 1 = a, M 0 0 - M 0 1 = b & M 1 0 - M 1 1 = - b].
  by split; rewrite ?ev ?od.
have n2 : (2%:R : F) != 0 by rewrite pnatr_eq0.
have s0 : v 0 0 + v 1 0 = 0.
  apply/eqP; have : a * (v 0 0 + v 1 0) * 2%:R == 0; last by rewrite !mulf_eq0 (negbTE a0) (negbTE n2) orbF.
  apply/eqP; transitivity (2%:R * ((M 0 0 * v 0 0 + M 0 1 * v 1 0) + (M 1 0 * v 0 0 + M 1 1 * v 1 0))); last by rewrite !r addr0 mulr0.
  have x0 : M 0 1 = a - M 0 0 by rewrite -e0'; fring.
  have x1 : M 1 1 = a - M 1 0 by rewrite -e1; fring.
  have x2 : M 1 0 * 2%:R = a - b.
    by apply: subr0_eq; move/eqP: d1; rewrite x1 -subr_eq0 => /eqP <-; fring.
  have x3 : M 0 0 * 2%:R = a + b.
    by apply: subr0_eq; move/eqP: d0; rewrite x0 -subr_eq0 => /eqP <-; fring.
  rewrite x0 x1; transitivity ((M 0 0 * 2%:R + M 1 0 * 2%:R) * (v 0 0 - v 1 0) + 4%:R * a * v 1 0); last by fring.
  by rewrite x2 x3; fring.
have v1 : v 1 0 = - v 0 0 by apply/eqP; rewrite -addr_eq0 addrC s0.
have v00 : v 0 0 = 0.
  have : b * v 0 0 = 0 by rewrite -[RHS](r 0) v1 -d0; fring.
  by move/eqP; rewrite mulf_eq0 (negbTE b0) => /eqP.
by apply/matrixP => i j; rewrite (ord1 j) [RHS]mxE; move: i; apply: all2; rewrite ?v1 v00 ?oppr0.
Qed.

Lemma a_unit : exists V, inv A = Some V.
Proof.
by apply: (odd_even_inv _ _ a_even a_odd); rewrite gt_eqF ?(lt_trans g_gt0 lam_gt) ?g_gt0.
Qed.

End House.

(* C08: room 1 asks for less heat than it gets from room 0 *)
Definition d1 : F := (lam - g) / (2%:R * (lam + g)).
Lemma d1_gt0 : 0 < d1.
Proof.
have lg := lam_gt; have g0 := g_gt0.
by rewrite divr_gt0 ?subr_gt0 // mulr_gt0 ?ltr0Sn // addr_gt0 // (lt_trans g0).
Qed.
Lemma d1_lt1 : d1 < 1.
Proof.
have lg := lam_gt; have g0 := g_gt0; have l0 := lt_trans g0 lg.
have p0 : 0 < 2%:R * (lam + g) by exact: mulr_gt0 (ltr0Sn _ 1) (addr_gt0 l0 g0).
rewrite /d1 ltr_pdivr_mulr // -subr_gt0.
have -> : 1 * (2%:R * (lam + g)) - (lam - g) = lam + (g + g + g).
  by move: g lam => a b; fring.
exact: addr_gt0 l0 (addr_gt0 (addr_gt0 g0 g0) g0).
Qed.

Lemma twin_cools : exists c' o,
  [/\ core_step e0 (@infil2 F) x_sat 900%:R (twin half false 0) (tw_step (col2 1 d1)) (tw_cond F) = Some (c', o),
      forall i, operation_mode c' i = HEATING, o_l_rs o = 0 & o_l_cs o 1 0 < 0].
Proof.
have ac0 i : 0 < col2 1 d1 i 0 by move: i; apply: all2; rewrite mxE /= ?ltr01 ?d1_gt0.
have [q [xot [md [lo [up [Hq Hx mdE fw bw]]]]]] := twin_setup false 0 half_ge0 half_le1 ac0.
have [c' [o [Ho _]]] : exists c' o, core_step e0 (@infil2 F) x_sat 900%:R (twin half false 0) (tw_step (col2 1 d1)) (tw_cond F) = Some (c', o)
    /\ forall i, operation_mode c' i <> HEATING_AND_COOLING.
  apply: step_completes; first [exact: twin_boundaries | exact: twin_rooms | exact: twin_air |
    exact: twin_hum half_ge0 half_le1 | by move=> tr to i; rewrite mxE divr_ge0 ?ler01 ?ler0n | by move=> i; rewrite mxE |
    by left | by []].
exists c', o; have [omE cE] := fw _ _ Ho.
have tnE : tw_a half false 0 q v0 xot *m (0 : 'cV[F]_2) = 0 by rewrite mulmx0.
have hh i : heats lo md 0 i by rewrite /heats; have [-> ->] := mdE i; rewrite mxE tgt_gt0.
have cap0 : forall i, 0 <= (0 : 'cV[F]_2) i 0 by move=> i; rewrite mxE.
have lr0 : o_l_rs o = 0.
  apply/matrixP => i j; rewrite (ord1 j) [RHS]mxE; apply: (calc_convective cE cap0 cap0 tnE).
  by rewrite hh.
split=> //; first by move=> i; rewrite omE; have [-> _] := mdE i.
have t i : o_theta_ot o i 0 = tgt e0 * col2 1 d1 i 0.
  by have [-> //] := calc_set cE i tnE; rewrite /tset; have [_ ->] := mdE i; rewrite [X in _ + X * _]mxE mul0r addr0.
have /(congr1 (fun w : 'cV_2 => w 1 0)) := calc_balance cE.
rewrite /= lr0 mulmx0 !addr0 mxE sum2 !t ![col2 _ _ _ _]mxE /= => <-.
have T0 := tgt_gt0 e0_ge0; have lg := lam_gt; have g0 := g_gt0; have l0 := lt_trans g0 lg.
have lgn : lam + g != 0 by apply: lt0r_neq0; exact: addr_gt0 l0 g0.
have n2 : (2%:R : F) != 0 by rewrite pnatr_eq0.
have key : (tw_a half false 0 q v0 xot 1 0 * (tgt e0 * 1) + tw_a half false 0 q v0 xot 1 1 * (tgt e0 * d1)) * 4%:R
   = tgt e0 * (g - lam).
  have e10 := a10 Hq Hx; have e11 := a11 Hq Hx.
  transitivity (tgt e0 * ((tw_a half false 0 q v0 xot 1 0 * 2%:R) * 2%:R + (tw_a half false 0 q v0 xot 1 1 * 2%:R) * (d1 * 2%:R))).
    by move: (tw_a _ _ _ _ _ _ 1 0) (tw_a _ _ _ _ _ _ 1 1) => a b; fring.
  rewrite e10 e11.
  have -> : d1 * 2%:R = (lam - g) / (lam + g) by rewrite /d1 invfM mulrA mulrAC mulfVK // ?divfK.
  by congr (_ * _); rewrite [g + lam]addrC mulrCA mulfV //; move: g lam => a b; fring.
have k0 : tgt e0 * (g - lam) < 0 by rewrite pmulr_rlt0 ?subr_lt0.
by move: k0; rewrite -key pmulr_llt0 // ltr0Sn.
Qed.


(* C51: opposite outputs of the two floors may leave no trace in the operative temperatures *)
Definition t5 : F := 48%:R / (g + 96%:R).
Definition q5 : F := 40%:R - 8%:R * t5.
Definition y5 : F := q5 / 9%:R.
Definition w5 : F := half - (half + kc * t5 / kr) / y5.

Lemma g96 : 0 < g + 96%:R. Proof. exact: addr_gt0 g_gt0 (ltr0Sn _ _). Qed.
Lemma t5_gt0 : 0 < t5. Proof. exact: divr_gt0 (ltr0Sn _ _) g96. Qed.
Lemma t5_le : t5 <= half.
Proof.
rewrite ler_pdivr_mulr ?g96 // /half mulrC ler_pdivl_mulr ?ltr0Sn // -natrM; apply: ltW.
by have := g_gt0; move: g => a a0; rewrite ltr_addr.
Qed.
Lemma q5_ge : 36%:R <= q5.
Proof.
rewrite /q5 ler_subr_addr -ler_subr_addl -natrB //.
apply: le_trans (_ : 8%:R * half <= _); first by rewrite ler_pmul2l ?ltr0Sn ?t5_le.
by rewrite /half ler_pdivr_mulr ?ltr0Sn // -natrM ler_nat.
Qed.
Lemma y5_ge : 4%:R <= y5.
Proof. by rewrite /y5 ler_pdivl_mulr ?ltr0Sn // -natrM q5_ge. Qed.
Lemma y5_gt0 : 0 < y5. Proof. exact: lt_le_trans (ltr0Sn _ _) y5_ge. Qed.

Lemma w5_le : w5 <= 1.
Proof.
apply: le_trans half_le1; rewrite /w5 ger_addl oppr_le0; apply: divr_ge0 (ltW y5_gt0).
apply: addr_ge0 half_ge0 _; apply: divr_ge0 (ltW kr0); apply: mulr_ge0 (ltW kc0) (ltW t5_gt0).
Qed.
Lemma w5_ge0 : 0 <= w5.
Proof.
rewrite /w5 subr_ge0 ler_pdivr_mulr ?y5_gt0 //.
have k : kc * t5 / kr <= 3%:R * half.
  rewrite ler_pdivr_mulr ?kr0 //; apply: le_trans (_ : 3%:R * kr * half <= _); last by rewrite mulrAC.
  exact: ler_pmul (ltW kc0) (ltW t5_gt0) kc3 t5_le.
apply: le_trans (_ : half * 4%:R <= _); last by rewrite ler_pmul2l ?y5_ge // invr_gt0 ltr0Sn.
have -> : half * 4%:R = half + 3%:R * half by fring.
by rewrite ler_add2l.
Qed.

Section Singular.
Variables (rad : bool) (cap : 'cV[F]_2) (q : pp F 2 4) (xot : 'M[F]_2).
Hypothesis Hq : make_pp (twin w5 rad cap) 900%:R = Some q.
Hypothesis Hx : inv (vdiag (const_mx kc) + cmul (const_mx kr) (f_mrt_hum_is_js (twin w5 rad cap) *m wsr q)) = Some xot.
Local Notation B := (tw_b w5 rad cap q kr v0 xot).

Lemma b_odd i : B i 0 = B i 1.
Proof.
have [u [u1 e2 e6 e9]] := u18.
have n12 : (12%:R : F) != 0 by rewrite pnatr_eq0.
have := @mode_row w5 rad cap q xot Hq Hx (-1) t5 (12%:R * q5) 1 y5 0 0 i (or_intror erefl).
have -> : 12%:R * q5 / 12%:R = q5 by rewrite mulrAC mulfV // mul1r.
move=> E; have {}E : (B i 0 - B i 1) * (12%:R * q5) = 0.
  move: E; rewrite !mulN1r !mulr0 oppr0 if_same sub0r => E.
  apply/eqP; rewrite -oppr_eq0 E //.
  - by rewrite e2 e6 e9 /q5; move: t5 => t; clear; fring.
  - rewrite e2 e6 e9 /y5 e9; transitivity (5%:R * u * (18%:R * u) * q5); last by rewrite u1; fring.
    by fring.
  - have -> : w5 * ((1 + y5) / 2%:R) + (1 - w5) * ((1 - y5) / 2%:R) = half + (w5 - half) * y5.
      rewrite -[2%:R^-1]/half; transitivity (half + (w5 * (half + half) - half) * y5); last by rewrite half2 mulr1.
      by move: half w5 y5 => a b c; fring.
    have -> : (w5 - half) * y5 = - (half + kc * t5 / kr).
      by rewrite /w5 addrAC subrr add0r mulNr divfK // gt_eqF ?y5_gt0.
    rewrite opprD addrA subrr add0r mulrN [kr * _]mulrC divfK ?subrr //.
    by rewrite gt_eqF ?kr0.
  by rewrite /t5 mulrC divfK ?mulr1 ?subrr // gt_eqF ?g96.
move/eqP: E; rewrite !mulf_eq0 (negbTE n12) /= [q5 == 0]gt_eqF ?orbF; first by rewrite subr_eq0 => /eqP.
exact: lt_le_trans (ltr0Sn _ _) q5_ge.
Qed.
End Singular.

Lemma twin_stops (cap : 'cV[F]_2) : core_step e0 (@infil2 F) x_sat 900%:R (twin w5 true cap) (tw_step (const_mx 1)) (tw_cond F) = None.
Proof.
have ac0 i : 0 < (const_mx 1 : 'cV[F]_2) i 0 by rewrite mxE ltr01.
have [q [xot [md [lo [up [Hq Hx mdE fw _]]]]]] := twin_setup true cap w5_ge0 w5_le ac0.
case E: (core_step _ _ _ _ _ _ _) => [[c' o]|//]; exfalso.
have [_ cE] := fw _ _ E; have bE := b_odd Hq Hx.
have tnE : tw_a w5 true cap q v0 xot *m (0 : 'cV[F]_2) = 0 by rewrite mulmx0.
have hh i : heats lo md 0 i by rewrite /heats; have [-> ->] := mdE i; rewrite mxE tgt_gt0.
have [th0 [lc0 [lr0 [E1 _]]]] := calc_cases cE tnE.
move: E1; rewrite /get_load_and_temp; set x1 := (_ - _ - _); case X: (inv x1) => [x1i|//] _.
have [_ xx] := inv_mulV X.
have x0 : x1 *m col2 1 (-1) = 0.
  apply/matrixP => i j; rewrite (ord1 j) [RHS]mxE mul2 /x1 !addE !oppE !matE !hh /= bE.
  by rewrite /cools; have [-> _] := mdE 0; have [-> _] := mdE 1; rewrite /=; fring.
have : col2 1 (-1) = 0 :> 'cV[F]_2 by rewrite -[LHS]mul1mx -xx -mulmxA x0 mulmx0.
by move/(congr1 (fun v : 'cV_2 => v 0 0)); rewrite /= !mxE /= => /eqP; rewrite oner_eq0.
Qed.

(* C07: capping the floor of room 0 asks more of the floor of room 1, which is not capped again *)
Definition rho : F := kr / (2%:R * kc).
Lemma rho_gt0 : 0 < rho. Proof. exact: divr_gt0 kr0 (mulr_gt0 (ltr0Sn _ 1) kc0). Qed.
Definition k7 : F := (g + 96%:R) * rho + 48%:R.
Lemma k7_gt0 : 0 < k7. Proof. exact: addr_gt0 (mulr_gt0 g96 rho_gt0) (ltr0Sn _ _). Qed.
Definition l_even : F := 12%:R * (4%:R + 8%:R * rho).
Definition l_odd : F := 12%:R * (40%:R + 8%:R * rho).
Lemma l_even_gt0 : 0 < l_even.
Proof. exact: mulr_gt0 (ltr0Sn _ _) (addr_gt0 (ltr0Sn _ _) (mulr_gt0 (ltr0Sn _ _) rho_gt0)). Qed.
Lemma l_lt : l_even < l_odd.
Proof. by rewrite /l_even /l_odd; move: rho => r; rewrite ltr_pmul2l ?ltr0Sn // ltr_add2r ltr_nat. Qed.
Lemma l_odd_gt0 : 0 < l_odd. Proof. exact: lt_trans l_even_gt0 l_lt. Qed.
Definition mu_even : F := k7 / l_even.
Definition mu_odd : F := k7 / l_odd.
Lemma mu_odd_gt0 : 0 < mu_odd. Proof. exact: divr_gt0 k7_gt0 l_odd_gt0. Qed.
Lemma mu_lt : mu_odd < mu_even.
Proof. by rewrite /mu_odd /mu_even ltr_pmul2l ?k7_gt0 // ltf_pinv ?posrE ?l_lt ?l_even_gt0 ?l_odd_gt0. Qed.
Lemma mu_even_gt0 : 0 < mu_even. Proof. exact: lt_trans mu_odd_gt0 mu_lt. Qed.

Lemma glt_some (kt B : 'M[F]_2) k ts lcs lrs (nt c r : 'I_2 -> bool) V : inv B = Some V -> B 0 0 != 0 -> B 1 1 != 0 ->
  (forall i, nt i = false) -> (forall i, c i = ~~ r i) ->
  exists t, get_load_and_temp kt 1%:M B k nt ts c lcs r lrs = Some t.
Proof.
move=> VE b0 b1 n0 cr; rewrite /get_load_and_temp.
set x1 := (_ - _ - _); suff [W ->] : exists W, inv x1 = Some W by eexists.
have [_ VB] := inv_mulV VE.
have xE i j : x1 i j = - (if r j then B i j else (i == j)%:R).
  rewrite /x1 !addE !oppE !matE n0 cr [1%:M i j]mxE; case: (r j); rewrite /= ?(mulr0, mulr1, sub0r, oppr0, add0r, addr0, subr0) //.
apply: inj_inv => v xv.
have rw i : (if r 0 then B i 0 else (i == 0)%:R) * v 0 0 + (if r 1 then B i 1 else (i == 1)%:R) * v 1 0 = 0.
  have := congr1 (fun z : 'cV_2 => z i 0) xv; rewrite /= mxE sum2 !xE [X in _ = X]mxE !mulNr -opprD => /eqP.
  by rewrite oppr_eq0 => /eqP.
suff [z0 z1] : v 0 0 = 0 /\ v 1 0 = 0.
  by apply/matrixP => i j; rewrite (ord1 j) [RHS]mxE; move: i; apply: all2.
have := rw 0; have := rw 1; case: (r 0); case: (r 1); rewrite ?(mul1r, mul0r, add0r, addr0) => e1 e0'.
- have Bv : B *m v = 0.
    by apply/matrixP => i j; rewrite (ord1 j) [RHS]mxE mxE sum2; move: i; apply: all2.
  have -> : v = 0 by rewrite -[v]mul1mx -VB -mulmxA Bv mulmx0.
  by rewrite !mxE.
- move/eqP: e0'; rewrite mulf_eq0 (negbTE b0) => /eqP z; split=> //.
  by move: e1; rewrite z mulr0 add0r.
- move/eqP: e1; rewrite mulf_eq0 (negbTE b1) => /eqP z; split=> //.
  by move: e0'; rewrite z mulr0 addr0.
by [].
Qed.

(* two rooms, each with a radiant share of b in the balance of its own room and of a in the other's *)
Section Pair.
Variables (A B : 'M[F]_2) (a b m T L G : F) (lo up : 'cV[F]_2) (md : 'I_2 -> mode).
Hypothesis A_inv : exists V, inv A = Some V.
Hypothesis B_inv : exists V, inv B = Some V.
Hypothesis A_row : forall i, A i 0 + A i 1 = G.
Hypothesis B0 : B 0 0 = b /\ B 0 1 = a.
Hypothesis B1 : B 1 0 = a /\ B 1 1 = b.
Hypotheses (a_gt0 : 0 < a) (b_gt0 : 0 < b) (L_gt0 : 0 < L) (T_gt0 : 0 < T).
Hypothesis LE : G * T = (a + b) * L.
Hypothesis mdE : forall i, md i = HEATING /\ lo i 0 = T.
Local Notation cap := (col2 (half * L) L).
Local Notation calc := (calc_next_temp_and_load (fun _ => true) (fun _ => true) 0 A B lo up cap cap md (const_mx 1)).

Lemma hlt1 : 0 < half :> F. Proof. by rewrite invr_gt0 ltr0Sn. Qed.
Lemma hL : half * L < L.
Proof. by rewrite -[X in _ < X]mul1r ltr_pmul2r // -half2 ltr_addl hlt1. Qed.

Lemma pair_total : exists t, calc = Some t.
Proof.
have [V VE] := B_inv; have [W WE] := A_inv.
rewrite /calc_next_temp_and_load WE /dot mulmx0.
set nt := fun i => ~~ _ && _; set c := fun i => _ || _; set r := fun i => _ || _.
have n0 i : nt i = false by rewrite /nt mxE; have [-> ->] := mdE i; rewrite T_gt0.
have cr i : c i = ~~ r i by rewrite /c /r mxE; have [-> ->] := mdE i; rewrite T_gt0.
have [b00 b11] : B 0 0 != 0 /\ B 1 1 != 0 by have [-> _] := B0; have [_ ->] := B1; rewrite gt_eqF.
set ts := vwhere _ _ (vwhere _ _ _).
have [[[t0 l0] lr] E] := glt_some A 0 ts 0 0 VE b00 b11 n0 cr.
rewrite E; apply: (glt_some _ _ _ _ _ VE) => // i.
by rewrite -/(c i) -/(r i) cr; case: (r i); rewrite ?andbT ?andbF ?orbF ?orbT //; do 2!case: (_ < _).
Qed.

Lemma pair_over theta lc lr : calc = Some (theta, lc, lr) -> L < lr 1 0.
Proof.
move=> H; have [V VE] := B_inv.
have tnE : A *m (0 : 'cV[F]_2) = 0 by rewrite mulmx0.
have hh i : heats lo md 0 i by rewrite /heats; have [-> ->] := mdE i; rewrite mxE T_gt0.
have cc i : cools up md 0 i = false by rewrite /cools; have [-> _] := mdE i.
have [th0 [lc0 [lr0 [E1 E2]]]] := calc_cases H tnE.
have t0 i : th0 i 0 = T.
  have [e _] := glt_theta_set E1 i; rewrite e ?hh // !mxE hh cc /=.
  by have [_ ->] := mdE i; rewrite mulr1 mul0r addr0.
have t i : theta i 0 = T.
  have [e _] := glt_theta_set E2 i; rewrite e ?hh // !mxE hh cc /=.
  by have [_ ->] := mdE i; rewrite mulr1 mul0r addr0.
have z i : lc0 i 0 = 0.
  by have [_ [e _]] := glt_theta_set E1 i; rewrite e ?mxE // hh cc.
have lr0E : lr0 = const_mx L.
  have [_ VB] := inv_mulV VE.
  have e : B *m lr0 = B *m const_mx L.
    apply/matrixP => i j; rewrite (ord1 j).
    have /(congr1 (fun w : 'cV_2 => w i 0)) := glt_balance E1.
    rewrite /= !mul1mx addr0 addE z add0r => <-.
    rewrite mxE sum2 !t0 -mulrDl A_row LE [RHS]mxE sum2 ![const_mx _ _ _]mxE -mulrDl.
    by congr (_ * _); move: i; apply: all2; [have [-> ->] := B0; rewrite addrC | have [-> ->] := B1].
  by rewrite -[LHS]mul1mx -VB -mulmxA e mulmxA VB mul1mx.
have l0 i : lr0 i 0 = L by rewrite lr0E mxE.
have u0 : (L < - (half * L)) = false.
  by rewrite ltNge (le_trans _ (ltW L_gt0)) // oppr_le0 mulr_ge0 ?half_ge0 ?ltW.
have u1 : (L < - L) = false by rewrite ltNge (le_trans _ (ltW L_gt0)) // oppr_le0 ltW.
have [_ [_ f0]] := glt_theta_set E2 0; have [_ [f1 _]] := glt_theta_set E2 1.
have {}f0 : lr 0 0 = half * L by rewrite f0 !mxE ?l0 /= ?u0 ?hL ?andbF.
have {}f1 : lc 1 0 = 0 by rewrite f1 !mxE // l0 /= u1 ltxx hh cc /=.
have /(congr1 (fun w : 'cV_2 => w 1 0)) := glt_balance E2.
rewrite /= !mul1mx addr0 addE f1 add0r mxE sum2 !t -mulrDl A_row LE mxE sum2 f0.
have [-> ->] := B1 => e.
have k : b * L < b * lr 1 0.
  have -> : b * lr 1 0 = b * L + a * (L - half * L) by apply/esym/subr0_eq; move/eqP: e; rewrite -subr_eq0 => /eqP <-; move: half => h; fring.
  by rewrite ltr_addl mulr_gt0 // subr_gt0 hL.
by move: k; rewrite ltr_pmul2l.
Qed.
End Pair.

Section Capacity.
Variables (cap : 'cV[F]_2) (q : pp F 2 4) (xot : 'M[F]_2).
Hypothesis Hq : make_pp (twin half true cap) 900%:R = Some q.
Hypothesis Hx : inv (vdiag (const_mx kc) + cmul (const_mx kr) (f_mrt_hum_is_js (twin half true cap) *m wsr q)) = Some xot.
Local Notation A := (tw_a half true cap q v0 xot).
Local Notation B := (tw_b half true cap q kr v0 xot).

Lemma floors s Q i : s = 1 \/ s = -1 ->
  5%:R / 2%:R = (1 / 6%:R + s / 9%:R) * (8%:R * - rho + 5%:R + Q) ->
  (B i 0 + s * B i 1) * (12%:R * Q) = if i == 0 then k7 else s * k7.
Proof.
move=> sE El; have n2 : (2%:R : F) != 0 by rewrite pnatr_eq0.
have n5 : (5%:R : F) != 0 by rewrite pnatr_eq0.
have n12 : (12%:R : F) != 0 by rewrite pnatr_eq0.
have qE : 12%:R * Q / 12%:R = Q by rewrite mulrAC mulfV // mul1r.
set y := (1 / 6%:R - s / 9%:R) * Q * (2%:R / 5%:R).
have E : (A i 0 + s * A i 1) * 0 - (B i 0 + s * B i 1) * (12%:R * Q) = if i == 0 then - k7 else s * - k7.
  apply: (mode_row Hq Hx (T := - rho) (x := 1) (y := y) i sE); rewrite ?qE.
  - by rewrite !mulr1.
  - by rewrite /y mulrC -[LHS]mulrA [X in _ * X]mulrA divfK // divff // mulr1.
  - have -> : 1 - half = half by rewrite -{1}half2 addrK.
    have -> : half * ((1 + y) / 2%:R) + half * ((1 - y) / 2%:R) = half * (half + half).
      by rewrite -[2%:R^-1]/half; move: half y => h z; fring.
    rewrite half2 mulr1; have -> : kc * - rho = - (kr * half); last by rewrite addrC subrr.
    have kn : kc != 0 by rewrite gt_eqF ?kc0.
    rewrite mulrN /rho invfM -/half; move: kc kr half kn => x z h xn; congr (- _).
    by rewrite mulrC -!mulrA mulVf // mulr1.
  by rewrite /k7; move: rho g => r a; fring.
by apply: oppr_inj; move: E; rewrite mulr0 sub0r => ->; case: ifP => _ //; rewrite mulrN.
Qed.

Lemma b_sum i : B i 0 + B i 1 = mu_even.
Proof.
have [u [u1 e2 e6 e9]] := u18.
have E := @floors 1 (4%:R + 8%:R * rho) i (or_introl erefl).
have n0 : l_even != 0 by rewrite gt_eqF ?l_even_gt0.
apply: (mulIf n0); rewrite /mu_even divfK // -[X in (_ + X) * _]mul1r E; first by rewrite mul1r if_same.
by rewrite e2 e6 e9; move: rho => r; clear; fring.
Qed.

Lemma b_diff i : B i 0 - B i 1 = if i == 0 then mu_odd else - mu_odd.
Proof.
have [u [u1 e2 e6 e9]] := u18.
have E := @floors (-1) (40%:R + 8%:R * rho) i (or_intror erefl).
have n0 : l_odd != 0 by rewrite gt_eqF ?l_odd_gt0.
apply: (mulIf n0); rewrite -[B i 1]mul1r -mulNr E; last by rewrite e2 e6 e9; move: rho => r; clear; fring.
by rewrite /mu_odd; case: ifP => _; rewrite ?mulNr ?mul1r divfK.
Qed.

Definition b_own : F := (mu_even + mu_odd) * half.
Definition b_other : F := (mu_even - mu_odd) * half.
Lemma half_sum x y : x * half + y * half = (x + y) * half. Proof. by rewrite mulrDl. Qed.
Lemma b_own_gt0 : 0 < b_own. Proof. exact: mulr_gt0 (addr_gt0 mu_even_gt0 mu_odd_gt0) hlt1. Qed.
Lemma b_other_gt0 : 0 < b_other. Proof. by apply: mulr_gt0 hlt1; rewrite subr_gt0 mu_lt. Qed.
Lemma b_total : b_other + b_own = mu_even.
Proof. by rewrite /b_other /b_own -[RHS]mulr1 -half2; move: half mu_even mu_odd => h x y; fring. Qed.
Lemma of_sums x y : x = ((x + y) + (x - y)) * half /\ y = ((x + y) - (x - y)) * half.
Proof. by split; rewrite -[LHS]mulr1 -half2; move: half => h; fring. Qed.
Lemma b_row0 : B 0 0 = b_own /\ B 0 1 = b_other.
Proof.
by have [e1 e2] := of_sums (B 0 0) (B 0 1); split; [rewrite e1|rewrite e2]; rewrite b_sum b_diff.
Qed.
Lemma b_row1 : B 1 0 = b_other /\ B 1 1 = b_own.
Proof.
by have [e1 e2] := of_sums (B 1 0) (B 1 1); split; [rewrite e1|rewrite e2]; rewrite b_sum b_diff /= ?opprK.
Qed.
Lemma b_unit : exists V, inv B = Some V.
Proof. by apply: (odd_even_inv _ _ b_sum b_diff); rewrite gt_eqF ?mu_even_gt0 ?mu_odd_gt0. Qed.

End Capacity.

Definition l7 : F := g * tgt e0 / mu_even.
Lemma l7_gt0 : 0 < l7. Proof. exact: divr_gt0 (mulr_gt0 g_gt0 (tgt_gt0 e0_ge0)) mu_even_gt0. Qed.
Definition cap7 : 'cV[F]_2 := col2 (half * l7) l7.

Lemma twin_over : exists c' o,
  [/\ core_step e0 (@infil2 F) x_sat 900%:R (twin half true cap7) (tw_step (const_mx 1)) (tw_cond F) = Some (c', o),
      forall i, operation_mode c' i = HEATING & cap7 1 0 < o_l_rs o 1 0].
Proof.
have ac0 i : 0 < (const_mx 1 : 'cV[F]_2) i 0 by rewrite mxE ltr01.
have [q [xot [md [lo [up [Hq Hx mdE fw bw]]]]]] := twin_setup true cap7 half_ge0 half_le1 ac0.
have LE : g * tgt e0 = (b_other + b_own) * l7.
  by rewrite b_total /l7 [RHS]mulrC divfK // gt_eqF ?mu_even_gt0.
have T0 := tgt_gt0 e0_ge0.
have [c' [o Ho]] := bw (pair_total _ _ (a_unit Hq Hx) (b_unit Hq Hx) (b_row0 Hq Hx) (b_row1 Hq Hx) b_own_gt0 T0 mdE).
exists c', o; have [omE cE] := fw _ _ Ho.
split=> //; first by move=> i; rewrite omE; have [-> _] := mdE i.
rewrite [X in X < _]mxE /=.
by apply: (pair_over (b_unit Hq Hx) (a_even Hq Hx) (b_row0 Hq Hx) (b_row1 Hq Hx) b_other_gt0 b_own_gt0 l7_gt0 T0 LE mdE cE).
Qed.


(* the three houses and steps are physical *)
Lemma c7_ex : exists (h : house F 2 4 1) (s : step_data F 2 4) (c c' : conditions F 2 4 1) o,
  [/\ [/\ physical_boundaries h, physical_rooms 900%:R h, physical_air h s, physical_hum h & physical_radiant h],
      (forall i, 0 < cap_h h i 0) /\ (forall i, 0 < cap_c h i 0), (forall i k, v_int h i k = 0) /\ ac_demand s = const_mx 1,
      core_step e0 (@infil2 F) x_sat 900%:R h s c = Some (c', o) & exists i, cap_h h i 0 < o_l_rs o i 0].
Proof.
have [c' [o [H1 H2 H3]]] := twin_over.
exists (twin half true cap7), (tw_step (const_mx 1)), (tw_cond F), c', o.
have c0 : forall i, 0 < cap7 i 0 by apply: all2; rewrite [cap7 _ _]mxE /= ?l7_gt0 // mulr_gt0 ?l7_gt0 ?hlt1.
split=> //; last by exists 1.
- split; [exact: twin_boundaries|exact: twin_rooms|exact: twin_air|exact: twin_hum half_ge0 half_le1|exact: twin_radiant].
- by split=> // i k; rewrite mxE.
Qed.

Lemma c8_ex : exists (h : house F 2 4 1) (s : step_data F 2 4) (c c' : conditions F 2 4 1) o,
  [/\ [/\ physical_boundaries h, physical_rooms 900%:R h, physical_air h s & physical_hum h],
      (forall i, is_rad_h h i = false /\ is_rad_c h i = false), (forall i k, v_int h i k = 0) /\ (forall i, 0 < ac_demand s i 0 <= 1),
      core_step e0 (@infil2 F) x_sat 900%:R h s c = Some (c', o) & exists i, operation_mode c' i = HEATING /\ o_l_cs o i 0 + o_l_rs o i 0 < 0].
Proof.
have [c' [o [H1 H2 H3 H4]]] := twin_cools.
exists (twin half false 0), (tw_step (col2 1 d1)), (tw_cond F), c', o; split=> //.
- split; [exact: twin_boundaries|exact: twin_rooms|exact: twin_air|exact: twin_hum half_ge0 half_le1].
- split=> [i k|]; first by rewrite mxE.
  by apply: all2; rewrite [col2 _ _ _ _]mxE /= ?ltr01 ?lexx // d1_gt0 ltW ?d1_lt1.
by exists 1; split=> //; rewrite H3 [X in _ + X]mxE addr0.
Qed.

Lemma c51_ex : exists (h : house F 2 4 1) (s : step_data F 2 4) (c : conditions F 2 4 1),
  [/\ [/\ physical_boundaries h, physical_rooms 900%:R h, physical_air h s, physical_hum h & physical_radiant h],
      (forall i, 0 < cap_h h i 0) /\ (forall i, 0 < cap_c h i 0), (forall i k, v_int h i k = 0) /\ ac_demand s = const_mx 1,
      (forall i, operation_mode c i <> HEATING_AND_COOLING) & core_step e0 (@infil2 F) x_sat 900%:R h s c = None].
Proof.
exists (twin w5 true (const_mx 1000%:R)), (tw_step (const_mx 1)), (tw_cond F).
have c0 : forall i, 0 < (const_mx 1000%:R : 'cV[F]_2) i 0 by move=> i; rewrite mxE ltr0Sn.
split=> //; last exact: twin_stops.
- split; [exact: twin_boundaries|exact: twin_rooms|exact: twin_air|exact: twin_hum w5_ge0 w5_le|exact: twin_radiant].
- by split=> // i k; rewrite mxE.
Qed.

(* with only one of the floors in use the step completes *)
Lemma twin_one_ex : let h := twin half true (const_mx 1000%:R) in let s := tw_step (col2 1 0) in
  [/\ physical_radiant h, is_rad_h h 0 && is_rad_h h 1, (forall i k, i != k -> v_int h i k = 0),
      forall k, k != 0 -> ac_demand s k 0 <= 0
    & exists c' o, core_step e0 (@infil2 F) x_sat 900%:R h s (tw_cond F) = Some (c', o)].
Proof.
move=> h s.
have one : forall k : 'I_2, k != 0 -> ac_demand s k 0 <= 0 by apply: all2 => //; rewrite /= [col2 _ _ _ _]mxE.
split=> //; [exact: twin_radiant | by move=> i k _; rewrite mxE |].
have [c' [o [Ho _]]] : exists c' o, core_step e0 (@infil2 F) x_sat 900%:R h s (tw_cond F) = Some (c', o)
    /\ forall i, operation_mode c' i <> HEATING_AND_COOLING; last by exists c', o.
apply: step_completes; first [exact: twin_boundaries | exact: twin_rooms | exact: twin_air |
    exact: twin_hum half_ge0 half_le1 | by move=> tr to i; rewrite mxE divr_ge0 ?ler01 ?ler0n | by move=> i; rewrite mxE ler0n |
    by [] | idtac].
by right; split; [exact: twin_radiant | by move=> i k _; rewrite mxE | exists 0].
Qed.

End TwinL.
