(* Steady states of a house (C62). *)
From mathcomp Require Import all_ssreflect ssralg ssrnum zmodp matrix.
From Coq Require Import Ring Field.
From Verif Require Import Model.OperationMode Model.Numpy Model.NextCondition Model.PreCalc
  Model.HeatExchanger Model.Tick Model.Step Model.OtTarget Model.CoreStep Spec.Physical Spec.StepEq Spec.Steady.
From Verif Require Import Lemmas.FieldTac Lemmas.NumpyL Lemmas.NextConditionL Lemmas.TickL
  Lemmas.TickBalance Lemmas.MMatrix Lemmas.TickTotal Lemmas.TickEquil Lemmas.TickEnergy Lemmas.StepL Lemmas.StepProps Lemmas.CoreStepL.
Set Implicit Arguments. Unset Strict Implicit. Unset Printing Implicit Defensive.
Import Order.TTheory GRing.Theory Num.Theory.
Local Open Scope ring_scope.

(* the maximum principle for rooms and surfaces *)
Section MaxPrinciple.
Variable F : realFieldType.
Add Field Ffield1 : (ffield_theory F).
Variables ni nj : nat.
Variable rm : 'I_nj -> 'I_ni.
Variable g : 'I_ni -> F.
Variables a hc hr w A T : 'I_nj -> F.
Variable k : 'I_nj -> option ('I_nj * F).
Hypothesis g0 : forall i, 0 < g i.
Hypothesis a0 : forall j, 0 <= a j.
Hypothesis hc0 : forall j, 0 < hc j.
Hypothesis hr0 : forall j, 0 <= hr j.
Hypothesis w0 : forall j, 0 < w j.
Hypothesis A0 : forall j, 0 <= A j.
Hypothesis k0 : forall j l coef, k j = Some (l, coef) -> 0 <= T j * coef <= 1.

Definition wmean (t : 'I_nj -> F) i : F := (\sum_(j | rm j == i) w j * t j) / \sum_(j | rm j == i) w j.

Definition linked (r : 'I_ni -> F) (t e : 'I_nj -> F) : Prop :=
  [/\ forall i, g i * r i = \sum_(j | rm j == i) a j * (t j - r i),
      forall j, (hc j + hr j) * e j = hc j * r (rm j) + hr j * wmean t (rm j) &
      forall j, t j = A j * ((e j - t j) * (hc j + hr j)) + T j * (if k j is Some (l, coef) then coef * e l else 0)].

Lemma wmean_le t (M : F) j : (forall l, t l <= M) -> wmean t (rm j) <= M.
Proof.
move=> tM; have p : 0 < \sum_(l | rm l == rm j) w l.
  rewrite (bigD1 j) //=; apply: ltr_paddr (w0 j); apply: sumr_ge0 => l _; exact/ltW/w0.
rewrite /wmean ler_pdivr_mulr // mulr_sumr; apply: ler_sum => l _.
by rewrite mulrC ler_pmul2r ?w0.
Qed.

Lemma sublinked_nonpos r t e : (forall i, g i * r i <= \sum_(j | rm j == i) a j * (t j - r i)) ->
  (forall j, (hc j + hr j) * e j = hc j * r (rm j) + hr j * wmean t (rm j)) ->
  (forall j, t j = A j * ((e j - t j) * (hc j + hr j)) + T j * (if k j is Some (l, coef) then coef * e l else 0)) ->
  (forall i, r i <= 0) /\ (forall j, t j <= 0).
Proof.
move=> Er Ee Et; pose f (x : 'I_ni + 'I_nj) : F := match x with inl i => r i | inr j => t j end.
suff H : forall x, f x <= 0 by split=> [i|j]; [exact: (H (inl i))|exact: (H (inr j))].
move=> x0; case: (@arg_maxP _ F _ x0 predT f isT) => x _ mx.
have {}mx y : f y <= f x by exact: mx.
apply: le_trans (mx x0) _; rewrite leNgt; apply/negP => M0; set M := f x in mx M0.
have rM i : r i < M.
  have := mx (inl i); rewrite le_eqVlt => /orP[/eqP rE|//]; exfalso.
  have : g i * r i <= 0.
    apply: le_trans (Er i) _; rewrite -oppr_ge0 -sumrN; apply: sumr_ge0 => j _; rewrite -mulrN mulr_ge0 //.
    by rewrite opprB subr_ge0 [r i]rE; exact: (mx (inr j)).
  by rewrite pmulr_rle0 // [r i]rE leNgt M0.
have eM j : e j < M.
  have h0 : 0 < hc j + hr j by apply: ltr_paddr.
  rewrite -(ltr_pmul2l h0) Ee mulrDl; apply: ltr_le_add; first by rewrite ltr_pmul2l.
  by apply: ler_wpmul2l => //; apply: wmean_le => l; exact: (mx (inr l)).
move: (erefl (f x)); rewrite -{2}/M; case: x @M mx M0 rM eM => [i|j] M mx M0 rM eM E.
  by have := rM i; rewrite -[r i]/M ltxx.
have := Et j; rewrite -[t j]/M => tE.
have q0 : A j * ((e j - M) * (hc j + hr j)) <= 0.
  have h0 : 0 < hc j + hr j by apply: ltr_paddr.
  by rewrite mulr_ge0_le0 // mulr_le0_ge0 ?(ltW h0) // subr_le0 ltW.
have {tE q0} : M <= T j * (if k j is Some (l, coef) then coef * e l else 0).
  by rewrite {1}tE ger_addr.
case kE: (k j) => [[l coef]|]; last by rewrite mulr0 leNgt M0.
have /andP[c0 c1] := k0 kE; rewrite mulrA => Mle.
case: (lerP (e l) 0) => el.
  have := le_trans Mle (mulr_ge0_le0 c0 el); by rewrite leNgt M0.
have : T j * coef * e l <= e l by rewrite ger_pmull.
by move=> /(le_trans Mle)/le_lt_trans/(_ (eM l)); rewrite ltxx.
Qed.

Lemma linked_nonpos r t e : linked r t e -> (forall i, r i <= 0) /\ (forall j, t j <= 0).
Proof. by case=> Er; apply: sublinked_nonpos => i; rewrite Er. Qed.

Lemma wmeanN t i : wmean (fun j => - t j) i = - wmean t i.
Proof. by rewrite /wmean; under eq_bigr do rewrite mulrN; rewrite sumrN mulNr. Qed.

Lemma linked_opp r t e : linked r t e -> linked (fun i => - r i) (fun j => - t j) (fun j => - e j).
Proof.
case=> Er Ee Et; split=> [i|j|j].
- rewrite mulrN Er -sumrN; apply: eq_bigr => j _; by rewrite -opprD mulrN.
- rewrite wmeanN mulrN Ee opprD; by congr (_ + _); rewrite mulrN.
- rewrite {1}Et opprD; congr (_ + _); first by rewrite -opprD mulNr mulrN.
  by rewrite -mulrN; congr (_ * _); case: (k j) => [[l coef]|]; rewrite ?oppr0 // mulrN.
Qed.

Lemma linked_zero r t e : linked r t e -> [/\ forall i, r i = 0, forall j, t j = 0 & forall j, e j = 0].
Proof.
move=> L; have [r1 t1] := linked_nonpos L; have [r2 t2] := linked_nonpos (linked_opp L).
have rE i : r i = 0 by apply: le_anti; rewrite r1 -oppr_le0 r2.
have tE j : t j = 0 by apply: le_anti; rewrite t1 -oppr_le0 t2.
split=> // j; case: L => _ Ee _.
have h0 : 0 < hc j + hr j by apply: ltr_paddr.
have := Ee j; rewrite rE mulr0 add0r /wmean big1 ?mul0r ?mulr0 => [/eqP|l _]; last by rewrite tE mulr0.
by rewrite mulf_eq0 gt_eqF //= => /eqP.
Qed.

End MaxPrinciple.

Section Steady.
Variable F : realFieldType.
Variables ni nj nm : nat.
Add Field Ffield : (ffield_theory F).
Ltac fring := ffold F; ring.
Ltac ffield := ffold F; field.
Variable e0 : F.
Variable infil : infil_fun F ni.
Variable x_sat : F -> F.
Variables (dt : F) (h : house F ni nj nm) (s : step_data F ni nj).
Hypothesis Hb : physical_boundaries h.

Lemma rm_eq j (i : 'I_ni) : (room_of Hb j == i) = (conn h j == i).
Proof. by []. Qed.

Lemma hi_ne0 j : h_c h j 0 + h_r h j 0 <> 0.
Proof. by apply/eqP; rewrite gt_eqF // addr_gt0 ?(ph_hc Hb) ?(ph_hr Hb). Qed.

Lemma mrt_wmean (t : 'cV[F]_nj) i : mean_radiant h t i = wmean (room_of Hb) (fun j => a_srf h j 0 * h_r h j 0) (fun j => t j 0) i.
Proof. by []. Qed.

Lemma wmeanB rm w (t u : 'I_nj -> F) (i : 'I_ni) : wmean rm w (fun j => t j - u j) i = wmean rm w t i - wmean rm w u i.
Proof. by rewrite /wmean; under eq_bigr do rewrite mulrBr; rewrite sumrB mulrBl. Qed.

Lemma mrt_surfE (o : outputs F ni nj) i : mrt_surf h o i = mean_radiant h (o_theta_s o) i.
Proof.
rewrite /mrt_surf /mean_radiant mulr_suml [RHS]big_mkcond /=; apply: eq_bigr => j _.
by rewrite f_mrtE -/(ah_sum h i); case: ifP; rewrite ?mul0r // mulrAC.
Qed.

Lemma half_r : 1 - r_sol_fnt F = 1 / 2%:R.
Proof.
have /eqP n0 : 2%:R != 0 :> F by rewrite pnatr_eq0.
rewrite /r_sol_fnt; ffield; exact: n0.
Qed.

Lemma sunE j (i : 'I_ni) : conn h j = i :> nat -> q_sol_js h s j 0 = sun_on_surface h s j i.
Proof.
move=> ji; rewrite (q_sol_jsE _ ji) /sun_on_surface a_abs_sum half_r; case: ifP => // _.
by rewrite mul1r mulrCA mulrA.
Qed.

Lemma rear_diff (c c' : conditions F ni nj nm) j :
  rear_temperature h s c' j - rear_temperature h s c j =
  if k_ei h j is Some (l, coef) then coef * (theta_ei c' l 0 - theta_ei c l 0) else 0.
Proof.
by rewrite /rear_temperature; case: (k_ei h j) => [[l coef]|]; fring.
Qed.

(* the equivalent temperatures of two states *)
Lemma ei_diff v g lc lr c ts c2 ts2 : steady_state h s v g lc lr c ts -> steady_state h s v g lc lr c2 ts2 ->
  forall j, (h_c h j 0 + h_r h j 0) * (theta_ei c2 j 0 - theta_ei c j 0) =
  h_c h j 0 * (theta_r c2 (room_of Hb j) 0 - theta_r c (room_of Hb j) 0)
  + h_r h j 0 * (mean_radiant h ts2 (room_of Hb j) - mean_radiant h ts (room_of Hb j)).
Proof.
move=> S S2 j; have ji : conn h j = room_of Hb j by [].
have e1 := ss_surface S ji; have e2 := ss_surface S2 ji; rewrite (ss_ei S) in e1; rewrite (ss_ei S2) in e2.
have {e1}e1 : (h_c h j 0 + h_r h j 0) * theta_ei c j 0 = h_c h j 0 * theta_r c (room_of Hb j) 0 + h_r h j 0 * mean_radiant h ts (room_of Hb j)
  + (sun_on_surface h s j (room_of Hb j) + flr h j 0 * (1 - beta h (room_of Hb j) 0) * lr (room_of Hb j) / a_srf h j 0).
  transitivity ((theta_ei c j 0 - ts j 0) * (h_c h j 0 + h_r h j 0) + ts j 0 * (h_c h j 0 + h_r h j 0)); first by fring.
  rewrite e1; fring.
have {e2}e2 : (h_c h j 0 + h_r h j 0) * theta_ei c2 j 0 = h_c h j 0 * theta_r c2 (room_of Hb j) 0 + h_r h j 0 * mean_radiant h ts2 (room_of Hb j)
  + (sun_on_surface h s j (room_of Hb j) + flr h j 0 * (1 - beta h (room_of Hb j) 0) * lr (room_of Hb j) / a_srf h j 0).
  transitivity ((theta_ei c2 j 0 - ts2 j 0) * (h_c h j 0 + h_r h j 0) + ts2 j 0 * (h_c h j 0 + h_r h j 0)); first by fring.
  rewrite e2; fring.
rewrite mulrBr e1 e2; fring.
Qed.

(* two steady states under the same conditions are the same *)
Lemma steady_unique v g lc lr c ts c2 ts2 :
  (forall i, 0 < v i) -> (forall j, 0 <= resistance h j) -> (forall j k coef, k_ei h j = Some (k, coef) -> 0 <= coef <= 1) ->
  steady_state h s v g lc lr c ts -> steady_state h s v g lc lr c2 ts2 ->
  [/\ forall i, theta_r c2 i 0 = theta_r c i 0, forall j, ts2 j 0 = ts j 0, forall j, theta_ei c2 j 0 = theta_ei c j 0
    & forall j, q_srf c2 j 0 = q_srf c j 0].
Proof.
move=> v0 R0 k0 S S2.
have L : linked (room_of Hb) (fun i => cap_air F * v i) (fun j => h_c h j 0 * a_srf h j 0) (fun j => h_c h j 0) (fun j => h_r h j 0)
  (fun j => a_srf h j 0 * h_r h j 0) (resistance h) (fun=> 1) (k_ei h)
  (fun i => theta_r c2 i 0 - theta_r c i 0) (fun j => ts2 j 0 - ts j 0) (fun j => theta_ei c2 j 0 - theta_ei c j 0).
  split=> [i|j|j].
  - have := ss_room S i; have := ss_room S2 i.
    have -> : \sum_(j | room_of Hb j == i) h_c h j 0 * a_srf h j 0 * (ts2 j 0 - ts j 0 - (theta_r c2 i 0 - theta_r c i 0)) =
      (\sum_(j | conn h j == i) h_c h j 0 * a_srf h j 0 * (ts2 j 0 - theta_r c2 i 0))
      - \sum_(j | conn h j == i) h_c h j 0 * a_srf h j 0 * (ts j 0 - theta_r c i 0).
      by rewrite -sumrB; apply: eq_bigr => j _; fring.
    move: (\sum_(j | _) _) (\sum_(j | _) _) => X2 X1 E2 E1.
    apply: subr0_eq; match type of E1 with ?l1 = _ => match type of E2 with ?l2 = _ => transitivity (l1 - l2) end end; first by fring.
    by rewrite E1 E2 subrr.
  - by rewrite wmeanB -!mrt_wmean (ei_diff S S2).
  - rewrite mul1r -rear_diff; have := ss_wall S j; have := ss_wall S2 j.
    rewrite (ss_ei S) (ss_ei S2) => E2 E1; apply: subr0_eq.
    match type of E1 with ?l1 = ?r1 => match type of E2 with ?l2 = ?r2 => transitivity ((l2 - r2) - (l1 - r1)) end end; first by fring.
    by rewrite E1 E2 !subrr.
have [] := linked_zero _ _ _ _ _ _ _ L.
- move=> i; rewrite mulr_gt0 // /cap_air mulr_gt0 ?c_air_gt0 ?rho_air_gt0 //.
- by move=> j; rewrite mulr_ge0 // ltW ?(ph_hc Hb) ?(ph_area Hb).
- by move=> j; exact: (ph_hc Hb).
- by move=> j; exact/ltW/(ph_hr Hb).
- by move=> j; rewrite mulr_gt0 ?(ph_hr Hb) ?(ph_area Hb).
- exact: R0.
- by move=> j l coef E; rewrite mul1r; exact: k0 E.
move=> rE tE eE; have tE' j : ts2 j 0 = ts j 0 by apply/eqP; rewrite -subr_eq0 tE.
have eE' j : theta_ei c2 j 0 = theta_ei c j 0 by apply/eqP; rewrite -subr_eq0 eE.
split=> // [i|j]; first by apply/eqP; rewrite -subr_eq0 rE.
by rewrite (ss_ei S) (ss_ei S2) tE' eE'.
Qed.

(* a steady state accounts for the loads by transmission and ventilation losses *)
Lemma steady_textbook v g lc lr c ts (i : 'I_ni) : steady_state h s v g lc lr c ts ->
  (forall j, 0 <= resistance h j) ->
  (exists j, conn h j = i :> nat /\ is_solar_abs h j) -> (lr i != 0 -> \sum_(j | conn h j == i) flr h j 0 = 1) ->
  textbook_balance h s v g lc lr c i.
Proof.
move=> S R0 [j0 [ji0 aj0]] fl; rewrite /textbook_balance.
have qE j : q_srf c j 0 = u_value h j * (theta_ei c j 0 - rear_temperature h s c j).
  have /eqP r0 : resistance h j + 1 / (h_c h j 0 + h_r h j 0) != 0.
    by rewrite gt_eqF // ltr_paddl // divr_gt0 ?ltr01 // addr_gt0 ?(ph_hc Hb) ?(ph_hr Hb).
  have h0 := @hi_ne0 j; have E1 := ss_wall S j; have E2 := ss_ei S j.
  have -> : theta_ei c j 0 - rear_temperature h s c j = (resistance h j + 1 / (h_c h j 0 + h_r h j 0)) * q_srf c j 0.
    rewrite mulrDl -E1 E2; ffield; exact: h0.
  by rewrite /u_value -[1 / (resistance h j + _)]/(1 / _) div1r mulKf //; apply/eqP.
under eq_bigr do rewrite -mulrA -qE.
have -> : \sum_(j | conn h j == i) a_srf h j 0 * q_srf c j 0 =
  - (\sum_(j | conn h j == i) h_c h j 0 * a_srf h j 0 * (ts j 0 - theta_r c i 0))
  + (\sum_(j | conn h j == i) a_srf h j 0 * h_r h j 0 * (mean_radiant h ts i - ts j 0))
  + (\sum_(j | conn h j == i) a_srf h j 0 * sun_on_surface h s j i)
  + (1 - beta h i 0) * lr i * \sum_(j | conn h j == i) flr h j 0.
  rewrite mulr_sumr -sumrN -!big_split /=; apply: eq_bigr => j /eqP ji.
  have /eqP a0 : a_srf h j 0 != 0 by rewrite gt_eqF ?(ph_area Hb).
  rewrite (ss_surface S ji); ffield; exact: a0.
have -> : \sum_(j | conn h j == i) a_srf h j 0 * h_r h j 0 * (mean_radiant h ts i - ts j 0) = 0.
  under eq_bigr do rewrite mulrBr; rewrite sumrB -mulr_suml /mean_radiant.
  have w0 : 0 < \sum_(j | conn h j == i) a_srf h j 0 * h_r h j 0.
    rewrite (bigD1 j0) ?ji0 //=; apply: ltr_paddr; last by rewrite mulr_gt0 ?(ph_area Hb) ?(ph_hr Hb).
    by apply: sumr_ge0 => j _; rewrite mulr_ge0 // ltW ?(ph_area Hb) ?(ph_hr Hb).
  by rewrite mulrC divfK ?subrr // gt_eqF.
have -> : \sum_(j | conn h j == i) a_srf h j 0 * sun_on_surface h s j i = q_trs_sol s i 0 / 2%:R.
  have w0 : 0 < \sum_(j | (conn h j == i) && is_solar_abs h j) a_srf h j 0.
    rewrite (bigD1 j0) ?ji0 ?eqxx //=; apply: ltr_paddr; last by rewrite (ph_area Hb).
    by apply: sumr_ge0 => j _; exact/ltW/(ph_area Hb).
  transitivity (\sum_(j | (conn h j == i) && is_solar_abs h j) a_srf h j 0 *
     (q_trs_sol s i 0 / 2%:R / \sum_(k | (conn h k == i) && is_solar_abs h k) a_srf h k 0)).
    rewrite [RHS]big_mkcondr /=; apply: eq_bigr => j _; rewrite /sun_on_surface; case: ifP; rewrite ?mulr0 //.
  by rewrite -mulr_suml mulrC divfK // gt_eqF.
have -> : (1 - beta h i 0) * lr i * (\sum_(j | conn h j == i) flr h j 0) = (1 - beta h i 0) * lr i.
  by case: (eqVneq (lr i) 0) => [->|/fl ->]; rewrite ?mulr0 ?mul0r ?mulr1.
have := ss_room S i; move: (\sum_(j | _) _) => X E.
have /eqP n0 : 2%:R != 0 :> F by rewrite pnatr_eq0.
apply: subr0_eq; match type of E with ?l = _ => transitivity l end; last exact: E.
by ffield; exact: n0.
Qed.

Variables (c c' : conditions F ni nj nm) (o : outputs F ni nj).
Hypothesis Hs : core_step e0 infil x_sat dt h s c = Some (c', o).
Hypothesis Hr : physical_rooms dt h.
Hypothesis Hw : unit_response h.
Hypothesis Ha : sides_alike h.
Hypothesis no_int : forall i k, v_int h i k = 0.

Let v i := air_from_outside h s o i.
Let g i := q_gen s i 0 + o_q_hum o i 0.
Let lc i := o_l_cs o i 0.
Let lr i := o_l_rs o i 0.

Lemma one_r j m : 1 - r_ms h j m <> 0.
Proof. by apply/eqP; rewrite subr_eq0 eq_sym; case: Hw. Qed.

Lemma step_parts j (i : 'I_ni) : conn h j = i :> nat -> q_srf c' j 0 =
  h_c h j 0 * (theta_r c' i 0 - o_theta_s o j 0) + h_r h j 0 * (mean_radiant h (o_theta_s o) i - o_theta_s o j 0)
  + sun_on_surface h s j i + flr h j 0 * (1 - beta h i 0) * lr i / a_srf h j 0.
Proof.
move=> ji; have [q [Hq Ht]] := stepP Hs.
by rewrite (q_srf_parts Ht Hb ji) mrt_surfE (sunE ji) mulrA.
Qed.

Lemma step_q j : q_srf c' j 0 = (theta_ei c' j 0 - o_theta_s o j 0) * (h_c h j 0 + h_r h j 0).
Proof. by have [q [Hq Ht]] := stepP Hs; exact: (q_srfE Ht). Qed.

(* the past of walls that have seen nothing else *)
Lemma steady_past (q rear : F) j :
  (forall m, theta_dsh_a c' j m = phi_a1 h j m / (1 - r_ms h j m) * q) ->
  (forall m, theta_dsh_t c' j m = phi_t1 h j m / (1 - r_ms h j m) * rear) ->
  o_theta_s o j 0 = phi_a0 h j 0 * q_srf c' j 0 + phi_t0 h j 0 * rear_temperature h s c' j
    + (resistance h j - phi_a0 h j 0) * q + (1 - phi_t0 h j 0) * rear.
Proof.
move=> aE tE; have [sE _] := core_surface Hs Hb (Ha (j := j)); move: sE; rewrite /surface_response => ->.
rewrite -!addrA; congr (_ + (_ + _)).
under eq_bigr do rewrite aE tE.
rewrite big_split /= -!mulr_suml addrC; congr (_ * _ + _ * _).
  by rewrite /resistance addrC subrK.
by apply/eqP; rewrite eq_sym subr_eq addrC; apply/eqP/esym; have [_ ->] := Hw.
Qed.

Lemma unchanged_steady : unchanged c c' -> steady_state h s v g lc lr c' (o_theta_s o).
Proof.
case=> u1 u2 u3 u4 u5 u6.
have aE j m : theta_dsh_a c' j m = phi_a1 h j m / (1 - r_ms h j m) * q_srf c' j 0.
  have [_ /(_ m) [E _]] := core_surface Hs Hb (Ha (j := j)); have r0 := @one_r j m.
  move: E; rewrite -u5 -u4 => E; have {}E : theta_dsh_a c' j m * (1 - r_ms h j m) = phi_a1 h j m * q_srf c' j 0.
    by rewrite mulrBr mulr1 {1}E; fring.
  by rewrite mulrAC -E mulfK //; apply/eqP.
have tE j m : theta_dsh_t c' j m = phi_t1 h j m / (1 - r_ms h j m) * rear_temperature h s c' j.
  have [_ /(_ m) [_ E]] := core_surface Hs Hb (Ha (j := j)); have r0 := @one_r j m.
  move: E; rewrite -u6.
  have -> : (if k_ei h j is Some (k, coef) then coef * theta_ei c k 0 else 0) + k_eo h j 0 * theta_o_sol s j 0 = rear_temperature h s c' j.
    by rewrite /rear_temperature; case: (k_ei h j) => [[k coef]|//]; rewrite u3.
  move=> E; have {}E : theta_dsh_t c' j m * (1 - r_ms h j m) = phi_t1 h j m * rear_temperature h s c' j.
    by rewrite mulrBr mulr1 {1}E; fring.
  by rewrite mulrAC -E mulfK //; apply/eqP.
have fE i : g_sh h i 0 * (theta_frt c' i 0 - theta_r c' i 0) = q_trs_sol s i 0 / 2%:R.
  have [E _] := core_furniture Hs i Hr; move: E; rewrite /furniture_heat_balance u2 subrr mulr0 mul0r => E.
  apply: subr0_eq; match type of E with _ = ?r => transitivity (- r) end; last by rewrite -E oppr0.
  by fring.
split=> //.
- by move=> j; rewrite (steady_past (aE j) (tE j)); fring.
- exact: step_parts.
- exact: step_q.
- move=> i; have E0 : heat_stored dt h c c' i = 0 by rewrite /heat_stored u1 subrr mulr0 mul0r.
  have := core_heat_no_int Hs Hr (no_int i); rewrite /documented_heat_balance E0.
  rewrite /heat_from_rooms big1 ?mulr0 ?addr0 => [|k _]; last by rewrite no_int mul0r.
  rewrite /heat_gain /heat_from_outside /heat_from_inside /heat_from_furniture /heat_from_equipment fE -/(v i) -/(g i) -/(lc i) -/(lr i) => E.
  rewrite [RHS]E /heat_from_surfaces; move: (\sum_(j | _) _) => X; fring.
Qed.

Lemma steady_unchanged ts : (forall i, 0 <= v i) -> steady_state h s v g lc lr c ts -> unchanged c c' /\ forall j, o_theta_s o j 0 = ts j 0.
Proof.
move=> v0 S.
have aE j m : theta_dsh_a c' j m = phi_a1 h j m / (1 - r_ms h j m) * q_srf c j 0.
  have [_ /(_ m) [E _]] := core_surface Hs Hb (Ha (j := j)); have r0 := @one_r j m.
  by rewrite E (ss_a S); ffield; exact: r0.
have tE j m : theta_dsh_t c' j m = phi_t1 h j m / (1 - r_ms h j m) * rear_temperature h s c j.
  have [_ /(_ m) [_ E]] := core_surface Hs Hb (Ha (j := j)); have r0 := @one_r j m.
  by rewrite E (ss_t S) -/(rear_temperature h s c j); move: (rear_temperature h s c j) => X; ffield; exact: r0.
pose gg i := v_room h i 0 * cap_air F / dt + cap_air F * v i + c_sh h i 0 * g_sh h i 0 / (c_sh h i 0 + dt * g_sh h i 0).
have /eqP dt0 : dt != 0 by rewrite gt_eqF // (ph_dt Hr).
have L : linked (room_of Hb) gg (fun j => h_c h j 0 * a_srf h j 0) (fun j => h_c h j 0) (fun j => h_r h j 0)
  (fun j => a_srf h j 0 * h_r h j 0) (fun j => phi_a0 h j 0) (fun j => phi_t0 h j 0) (k_ei h)
  (fun i => theta_r c' i 0 - theta_r c i 0) (fun j => o_theta_s o j 0 - ts j 0) (fun j => theta_ei c' j 0 - theta_ei c j 0).
  split=> [i|j|j].
  - have E1 := ss_room S i; have E3 := ss_furniture S i; have [E4 _] := core_furniture Hs i Hr.
    have := core_heat_no_int Hs Hr (no_int i); rewrite /documented_heat_balance /heat_stored.
    rewrite /heat_from_rooms big1 ?mulr0 ?addr0 => [|k _]; last by rewrite no_int mul0r.
    rewrite /heat_gain /heat_from_outside /heat_from_inside /heat_from_furniture /heat_from_equipment -/(v i) -/(g i) -/(lc i) -/(lr i) /heat_from_surfaces => E2.
    have -> : \sum_(j | room_of Hb j == i) h_c h j 0 * a_srf h j 0 * (o_theta_s o j 0 - ts j 0 - (theta_r c' i 0 - theta_r c i 0)) =
      (\sum_(j | conn h j == i) h_c h j 0 * a_srf h j 0 * (o_theta_s o j 0 - theta_r c' i 0))
      - \sum_(j | conn h j == i) h_c h j 0 * a_srf h j 0 * (ts j 0 - theta_r c i 0).
      by rewrite -sumrB; apply: eq_bigr => j _; fring.
    move: (\sum_(j | _) _) (\sum_(j | _) _) E1 E2 => X2 X1 E1 E2.
    have /eqP f0 := frt_ne0 i Hr.
    (* furniture *)
    have E5 : g_sh h i 0 * (theta_frt c' i 0 - theta_r c' i 0) - q_trs_sol s i 0 / 2%:R
      = - (c_sh h i 0 * g_sh h i 0 / (c_sh h i 0 + dt * g_sh h i 0) * (theta_r c' i 0 - theta_r c i 0)).
      have {E4}E4 : c_sh h i 0 * (theta_frt c' i 0 - theta_frt c i 0) / dt = g_sh h i 0 * (theta_r c' i 0 - theta_frt c' i 0) + g_sh h i 0 * (theta_frt c i 0 - theta_r c i 0).
        by rewrite E3; exact: E4.
      rewrite -E3; have {}E4 : (c_sh h i 0 + dt * g_sh h i 0) * (theta_frt c' i 0 - theta_frt c i 0) = dt * g_sh h i 0 * (theta_r c' i 0 - theta_r c i 0).
        have /(congr1 (fun z => z * dt)) := E4; rewrite divfK; last exact/eqP.
        by move=> E; rewrite mulrDl E; fring.
      have {}E4 : theta_frt c' i 0 = theta_frt c i 0 + dt * g_sh h i 0 * (theta_r c' i 0 - theta_r c i 0) / (c_sh h i 0 + dt * g_sh h i 0).
        rewrite -E4 mulrAC mulfV ?mul1r; last exact/eqP.
        by rewrite [RHS]addrC subrK.
      by rewrite E4; ffield; exact: f0.
    rewrite /gg; move: (c_sh h i 0 * g_sh h i 0 / (c_sh h i 0 + dt * g_sh h i 0)) E5 => K E5.
    apply: subr0_eq.
    match type of E1 with ?l1 = ?r1 => match type of E2 with ?l2 = ?r2 => match type of E5 with ?l5 = ?r5 =>
      transitivity ((l2 - r2) - (r1 - l1) + (l5 - r5)) end end end; last by rewrite E1 E2 E5 !subrr addr0.
    move: (q_trs_sol s i 0 / 2%:R) => Q.
    by ffield; exact: dt0.
  - rewrite wmeanB -!mrt_wmean; have ji : conn h j = room_of Hb j by [].
    have E1 := ss_surface S ji; have E2 := step_parts ji; rewrite (ss_ei S) in E1; rewrite step_q in E2.
    move: E1 E2; move: (sun_on_surface _ _ _ _) (_ / a_srf h j 0) => X Y E1 E2.
    apply: subr0_eq.
    match type of E1 with ?l1 = ?r1 => match type of E2 with ?l2 = ?r2 => transitivity ((l2 - r2) - (l1 - r1)) end end; first by fring.
    by rewrite E1 E2 !subrr.
  - rewrite -rear_diff; have E1 := ss_wall S j; have E2 := steady_past (aE j) (tE j).
    have E3 := ss_ei S j; have E4 := step_q j; rewrite E3 in E1; rewrite E3 E4 in E2.
    apply: subr0_eq.
    match type of E1 with ?l1 = ?r1 => match type of E2 with ?l2 = ?r2 => transitivity ((l2 - r2) - (l1 - r1)) end end; first by fring.
    by rewrite {1}E2 E1 !subrr.
have [] := linked_zero _ _ _ _ _ _ _ L.
- move=> i; rewrite /gg -addrA; apply: ltr_paddr.
    apply: addr_ge0; first by rewrite mulr_ge0 // /cap_air mulr_ge0 // ltW ?c_air_gt0 ?rho_air_gt0.
    rewrite divr_ge0 ?mulr_ge0 ?addr_ge0 //; try exact/ltW/(ph_c_sh Hr); try exact: (ph_g_sh Hr); try exact/ltW/(ph_dt Hr).
    by rewrite mulr_ge0 ?(ltW (ph_dt Hr)) ?(ph_g_sh Hr).
  by rewrite divr_gt0 ?(ph_dt Hr) // mulr_gt0 ?(ph_room Hr) // /cap_air mulr_gt0 ?c_air_gt0 ?rho_air_gt0.
- by move=> j; rewrite mulr_ge0 // ltW ?(ph_hc Hb) ?(ph_area Hb).
- by move=> j; exact: (ph_hc Hb).
- by move=> j; exact/ltW/(ph_hr Hb).
- by move=> j; rewrite mulr_gt0 ?(ph_hr Hb) ?(ph_area Hb).
- exact: (ph_phi_a0 Hb).
- by move=> j l coef E; have [e1 ->] := ph_k Hb E; rewrite mulr_ge0 ?(ph_phi_t0 Hb).
move=> rE tsE eE; have rE' i : theta_r c' i 0 = theta_r c i 0 by apply/eqP; rewrite -subr_eq0 rE.
have tsE' j : o_theta_s o j 0 = ts j 0 by apply/eqP; rewrite -subr_eq0 tsE.
have eE' j : theta_ei c' j 0 = theta_ei c j 0 by apply/eqP; rewrite -subr_eq0 eE.
split=> //; split=> //.
- move=> i; have [E _] := core_furniture Hs i Hr; have E3 := ss_furniture S i.
  move: E; rewrite /furniture_heat_balance -E3 rE' => E.
  have /eqP : (c_sh h i 0 / dt + g_sh h i 0) * (theta_frt c' i 0 - theta_frt c i 0) = 0.
    by rewrite mulrDl mulrAC E; fring.
  rewrite mulf_eq0 gt_eqF /= ?subr_eq0 => [/eqP //|]; apply: ltr_paddr; first exact: (ph_g_sh Hr).
  by rewrite divr_gt0 ?(ph_c_sh Hr) ?(ph_dt Hr).
- by move=> j; rewrite step_q (ss_ei S) eE' tsE'.
- by move=> j m; rewrite aE (ss_a S).
- by move=> j m; rewrite tE (ss_t S).
Qed.

End Steady.
