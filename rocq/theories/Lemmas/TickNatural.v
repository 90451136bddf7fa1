(* The step with the equipment off, and what the equipment adds to it (C06, C07, C08). *)
From mathcomp Require Import all_ssreflect ssralg ssrnum zmodp matrix.
From Coq Require Import Ring Field.
From Verif Require Import Model.OperationMode Model.Numpy Model.NextCondition Model.PreCalc
  Model.HeatExchanger Model.Tick Spec.Physical Spec.Natural.
From Verif Require Import Lemmas.FieldTac Lemmas.NumpyL Lemmas.NextConditionL Lemmas.TickL
  Lemmas.TickBalance Lemmas.MMatrix Lemmas.TickTotal.
Set Implicit Arguments. Unset Strict Implicit. Unset Printing Implicit Defensive.
Import Order.TTheory GRing.Theory Num.Theory.
Local Open Scope ring_scope.

Section CalcOff.
Variable F : realFieldType.
Variable n : nat.

Lemma calc_all_off rh rc (brc : 'cV[F]_n) brm brl (lo up caph capc : 'cV[F]_n) om ac kti :
  inv brm = Some kti ->
  (forall i, 0 <= caph i 0) -> (forall i, 0 <= capc i 0) ->
  (forall i, om i <> HEATING /\ om i <> COOLING) ->
  calc_next_temp_and_load rh rc brc brm brl lo up caph capc om ac = Some (kti *m brc, 0, 0).
Proof.
move=> kE ch cc omE; rewrite /calc_next_temp_and_load kE.
have h0 i : mode_eqb (om i) HEATING = false by have [] := omE i; case: (om i).
have c0 i : mode_eqb (om i) COOLING = false by have [] := omE i; case: (om i).
have key (nt c r : 'I_n -> bool) ts (lrs : 'cV[F]_n) : nt =1 xpredT -> c =1 xpred0 -> r =1 xpred0 ->
   (forall i, lrs i 0 = 0) ->
   get_load_and_temp brm 1%:M brl brc nt ts c 0 r lrs = Some (kti *m brc, 0, 0).
  move=> ntE cE rE lrsE; rewrite /get_load_and_temp.
  have -> : ind F nt = const_mx 1 by apply/matrixP => i j; rewrite !mxE ntE.
  have -> : ind F c = 0 by apply/matrixP => i j; rewrite !mxE cE.
  have -> : ind F r = 0 by apply/matrixP => i j; rewrite !mxE rE.
  have -> : vwhere nt 0 ts = 0 by apply/matrixP => i j; rewrite !mxE ntE.
  have -> : vwhere c (0 : 'cV[F]_n) 0 = 0 by apply/matrixP => i j; rewrite !mxE if_same.
  have -> : vwhere r 0 lrs = 0 by apply/matrixP => i j; rewrite !mxE rE lrsE.
  have -> : rmul brm (const_mx 1) = brm by apply/matrixP => i j; rewrite !mxE mulr1.
  have rm0 (A : 'M[F]_n) : rmul A 0 = 0 by apply/matrixP => i j; rewrite !mxE mulr0.
  rewrite !rm0 !subr0 kE /dot !mulmx0 oppr0 !add0r; congr Some; congr (_, _, _);
    by apply/matrixP => i j; rewrite !mxE ?(mulr1, mulr0, mul0r, subrr, addr0).
set g1 := get_load_and_temp _ _ _ _ _ _ _ _ _ _.
have -> : g1 = Some (kti *m brc, 0, 0).
  by apply: key => i; rewrite ?h0 ?c0 ?mxE.
apply: key => i; rewrite ?h0 ?c0 ?mxE //.
- by rewrite !ltNge ch oppr_le0 cc.
- by rewrite !ltNge ch oppr_le0 cc.
- by rewrite !ltNge ch oppr_le0 cc.
Qed.

Section One.
Variables (rh rc : 'I_n -> bool) (brc : 'cV[F]_n) (brm brl : 'M[F]_n).
Variables (lo up caph capc : 'cV[F]_n) (om : 'I_n -> mode) (ac : 'cV[F]_n).
Variables (theta lc lr : 'cV[F]_n).
Hypothesis H : calc_next_temp_and_load rh rc brc brm brl lo up caph capc om ac = Some (theta, lc, lr).
Hypothesis caph_ge0 : forall i, 0 <= caph i 0.
Hypothesis capc_ge0 : forall i, 0 <= capc i 0.

(* no other room has radiant equipment in use *)
Lemma calc_lr_one i : (forall k, k != i -> rh k = false /\ rc k = false) ->
  - capc i 0 <= lr i 0 <= caph i 0.
Proof.
move=> one.
have tnE : brm *m (invmx brm *m brc) = brc by rewrite mulKVmx // (calc_unit H).
have [th0 [lc0 [lr0 [E1 E2]]]] := calc_cases H tnE.
have lr0E k : k != i -> lr0 k 0 = 0.
  move=> nk; have [r1 r2] := one k nk; have [_ [_ e]] := glt_theta_set E1 k.
  by rewrite e ?mxE // r1 r2 !andbF.
have ov k : k != i -> (caph k 0 < lr0 k 0) = false by move=> nk; rewrite lr0E // ltNge caph_ge0.
have un k : k != i -> (lr0 k 0 < - capc k 0) = false.
  by move=> nk; rewrite lr0E // ltNge oppr_le0 capc_ge0.
have [_ [_ lrE]] := glt_theta_set E2 i.
have mid : - capc i 0 <= caph i 0 by rewrite (le_trans _ (caph_ge0 i)) // oppr_le0.
case o2 : (lr0 i 0 < - capc i 0).
  by rewrite lrE ?o2 // !mxE o2 lexx mid.
case o1 : (caph i 0 < lr0 i 0).
  by rewrite lrE ?o1 ?o2 ?andbF // !mxE o1 o2 lexx mid.
have ova k : (caph k 0 < lr0 k 0) = false by case: (eqVneq k i) => [->//|/ov].
have una k : (lr0 k 0 < - capc k 0) = false by case: (eqVneq k i) => [->//|/un].
have E3 := E2; rewrite (glt_ext _ _ _ _ _ _ (c' := fun i =>
    (heats lo om (invmx brm *m brc) i && ~~ rh i) || (cools up om (invmx brm *m brc) i && ~~ rc i)) _
  (r' := fun i => (heats lo om (invmx brm *m brc) i && rh i) || (cools up om (invmx brm *m brc) i && rc i))
  (lrs' := 0)) in E3.
- move: E3; rewrite E1 => -[_ _ <-].
  by rewrite leNgt o2 leNgt o1.
- by move=> j; rewrite ova una.
- by move=> j; rewrite ova una.
- by apply/matrixP => j l; rewrite !mxE ova una.
Qed.

End One.
End CalcOff.

Section TickNatural.
Variable F : realFieldType.
Variables ni nj nm : nat.
Add Field Ffield : (ffield_theory F).
Ltac fring := ffold F; ring.

Variable ot : ot_fun F ni.
Variable infil : infil_fun F ni.
Variable x_sat : F -> F.
Variables (dt : F) (h : house F ni nj nm) (q : pp F ni nj) (s : step_data F ni nj).
Variables (c c' : conditions F ni nj nm) (o : outputs F ni nj).
Hypothesis Ht : run_tick ot infil x_sat dt h q s c = Some (c', o).
Hypothesis caph : forall i, 0 <= cap_h h i 0.
Hypothesis capc : forall i, 0 <= cap_c h i 0.

Lemma off_modeE m : mode_eqb (off_mode m) STOP_OPEN = mode_eqb m STOP_OPEN.
Proof. by case: m. Qed.

Lemma off_mode_off m : off_mode m <> HEATING /\ off_mode m <> COOLING.
Proof. by case: m. Qed.

(* the natural step completes, and relates to the balance that the load calculation solves *)
Lemma natural_step : exists c0 o0 brc_ot xot hc hr md lo up,
  let v_out := o_v_leak o + v_mec h s + o_v_ntrl o in
  let brm := brm_non_vent q + smul (c_air F * rho_air F) (vdiag v_out + v_int h) in
  let kc := ediv hc (hc + hr) in let kr := ediv hr (hc + hr) in
  [/\ run_tick (ot_off ot) infil x_sat dt h q s c = Some (c0, o0) /\ o_l_cs o0 = 0 /\ o_l_rs o0 = 0,
      ot (x_r c) (operation_mode c) (theta_r c) (theta_mrt_hum c) (ac_demand s)
        = Some (hc, hr, md, lo, up) /\ operation_mode c' = md,
      inv (vdiag kc + cmul kr (f_mrt_hum_is_js h *m wsr q)) = Some xot,
      (brm *m xot) *m o_theta_ot o0 = brc_ot &
      calc_next_temp_and_load (is_rad_h h) (is_rad_c h) brc_ot (brm *m xot)
        (brl q + brm *m (xot *m (cmul kr (f_mrt_hum_is_js h *m wsb q)))) lo up (cap_h h) (cap_c h)
        md (ac_demand s) = Some (o_theta_ot o, o_l_cs o, o_l_rs o)].
Proof.
move: Ht; rewrite /run_tick.
case otE: (ot _ _ _ _ _) => [[[[[hc hr] md] lo] up]|//].
set vn := vwhere (fun i => mode_eqb (md i) STOP_OPEN) _ _.
case xotE: (inv _) => [xot|//].
set brc_ot := (_ + dot _ (dot xot (emul _ _))).
set brm_ot := dot _ xot.
set brl_ot := (_ + dot _ (dot xot (cmul _ _))).
case cE: (calc_next_temp_and_load _ _ _ _ _ _ _ _ _ _ _) => [[[th lc] lr]|//].
case bE: (inv _) => [b|//].
case dE: (get_dehumid_coeff _ _ _ _ _ _ _ _) => [d1 d2].
case b2E: (inv _) => [b2|//] [<- oE].
have uB := calc_unit cE.
have [kti kE] : exists k, inv brm_ot = Some k by rewrite /inv uB; eexists.
have [BK _] := inv_mulV kE.
rewrite /ot_off otE xotE.
have vE : vwhere (fun i => mode_eqb (off_mode (md i)) STOP_OPEN) (v_ntrl h) 0 = vn.
  by apply/matrixP => i j; rewrite !mxE off_modeE.
rewrite vE -/brc_ot -/brm_ot -/brl_ot.
rewrite (calc_all_off _ _ _ _ _ _ _ kE caph capc (fun i => off_mode_off (md i))).
rewrite bE.
have dE0 tr x : get_dehumid_coeff x_sat 0 tr (q_max h) (q_min h) (v_max h) (v_min h) x = (0, 0).
  have z : (1 / 1000%:R < (- 0 : F)) = false.
    by rewrite oppr0; apply/negbTE; rewrite -leNgt divr_ge0 ?ler01 ?ler0n.
  rewrite /get_dehumid_coeff; congr (_, _).
    apply/matrixP => i j; rewrite !mxE; case: ifP => // _; case: ifP => // _.
    by rewrite ?eqxx ?mxE z !mulr0.
  by apply/matrixP => i j; rewrite !mxE; case: ifP => // _; rewrite z ?(mulr0, mul0r).
rewrite dE0 addr0 bE.
eexists; eexists; exists brc_ot, xot, hc, hr, md, lo, up; split.
- by split; first by reflexivity.
- by [].
- exact: xotE.
- by rewrite -oE /= mulmxA BK mul1mx.
by rewrite -oE /=.
Qed.

(* C06 for one room *)
Lemma natural_load : exists c0 o0 hc hr md lo up,
  [/\ run_tick (ot_off ot) infil x_sat dt h q s c = Some (c0, o0) /\ o_l_cs o0 = 0 /\ o_l_rs o0 = 0,
      ot (x_r c) (operation_mode c) (theta_r c) (theta_mrt_hum c) (ac_demand s)
        = Some (hc, hr, md, lo, up) /\ operation_mode c' = md &
  forall i, let tn := o_theta_ot o0 i 0 in let a := ac_demand s i 0 in
    let heated := md i = HEATING /\ tn < lo i 0 in
    let cooled := md i = COOLING /\ up i 0 < tn in
    [/\ heated -> o_theta_ot o i 0 = a * lo i 0 + (1 - a) * tn,
        cooled -> o_theta_ot o i 0 = a * up i 0 + (1 - a) * tn,
        ~ heated -> ~ cooled -> o_l_cs o i 0 = 0 /\ o_l_rs o i 0 = 0 &
        [/\ heated -> is_rad_h h i = false -> o_l_rs o i 0 = 0,
            cooled -> is_rad_c h i = false -> o_l_rs o i 0 = 0,
            heated -> is_rad_h h i -> o_l_cs o i 0 = 0 \/ o_l_rs o i 0 = cap_h h i 0 \/ o_l_rs o i 0 = - cap_c h i 0 &
            cooled -> is_rad_c h i -> o_l_cs o i 0 = 0 \/ o_l_rs o i 0 = cap_h h i 0 \/ o_l_rs o i 0 = - cap_c h i 0]]].
Proof.
have [c0 [o0 [brc_ot [xot [hc [hr [md [lo [up /= [H1 H2 H3 H4 H5]]]]]]]]]] := natural_step.
exists c0, o0, hc, hr, md, lo, up; split; [exact: H1|exact: H2|move=> i; set tn := o_theta_ot o0 i 0; set heated := (md i = HEATING /\ _); set cooled := (md i = COOLING /\ _)].
have hP : heated <-> heats lo md (o_theta_ot o0) i.
  by rewrite /heated /heats; case: (md i) => /=; split=> // -[].
have cP : cooled <-> cools up md (o_theta_ot o0) i.
  by rewrite /cooled /cools; case: (md i) => /=; split=> // -[].
have [S1 S2] := calc_set H5 i H4.
have conv := calc_convective H5 caph capc H4 (i := i); have rad := calc_radiative H5 H4 (i := i).
split.
- by move=> /hP /S1 ->; rewrite /tset /tn; fring.
- by move=> /cP /S2 ->; rewrite /tset /tn; fring.
- move=> nh nc; apply: (calc_off H5 caph capc H4); apply/negP.
    by move/hP.
  by move/cP.
split.
- by move=> /hP hh rE; apply: conv; rewrite hh rE.
- by move=> /cP hh rE; apply: conv; rewrite hh rE orbT.
- by move=> /hP hh rE; apply: rad; rewrite hh rE.
- by move=> /cP hh rE; apply: rad; rewrite hh rE orbT.
Qed.

End TickNatural.
