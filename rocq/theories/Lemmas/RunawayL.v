(* Two rooms that exchange air: the calculation runs away (C72, C73). *)
From Coq Require Import ZArith Lia.
From mathcomp Require Import all_ssreflect ssralg ssrnum zmodp matrix.
From Coq Require Import Ring Field.
From Verif Require Import Model.OperationMode Model.Numpy Model.NextCondition Model.PreCalc Model.Tick Model.Step Model.OtTarget Model.CoreStep
  Model.Ground Model.CoreCalc Model.Dec Model.Py Model.CoreLoop Spec.Physical Spec.StepEq Spec.Coil Spec.Simulation Spec.Forget.
From Verif Require Import Lemmas.FieldTac Lemmas.NumpyL Lemmas.NextConditionL Lemmas.TickL Lemmas.TickBalance Lemmas.MMatrix Lemmas.TickTotal
  Lemmas.TickEquil Lemmas.TickEnergy Lemmas.TickMoist Lemmas.StepL Lemmas.StepProps Lemmas.CoreCalcL Lemmas.HumidityL Lemmas.ForgetL Examples.RunEx.
Set Implicit Arguments. Unset Strict Implicit. Unset Printing Implicit Defensive.
Import Order.TTheory GRing.Theory Num.Theory.
Local Open Scope ring_scope.

Section Runaway.
Variable F : realFieldType.
Add Field Ffield : (ffield_theory F).
Ltac fring := ffold F; ring.
Ltac ffield := ffold F; field.

(* two equal rooms of 30 m3, each with one well insulated outer wall of 10 m2; every hour the rooms exchange 48 m3 of air
   and each gets 6 m3 of outdoor air by ventilation and 6 m3 by infiltration *)
Definition twins : house F 2 2 1 := {|
  v_room := const_mx 30%:R; beta := 0; v_vent_ex := const_mx (1 / 20%:R / 30%:R);
  v_int := \matrix_(i, k) (if i == k then 0 else 2%:R / 5%:R / 30%:R);
  v_ntrl := const_mx (1 / 10%:R); c_sh := const_mx (900%:R * 10%:R); g_sh := const_mx 10%:R;
  c_lh := const_mx 18%:R; g_lh := const_mx (1 / 50%:R);
  is_rad_h := fun _ => false; cap_h := 0; is_rad_c := fun _ => false; cap_c := 0;
  q_min := const_mx 500%:R; q_max := const_mx 3000%:R; v_min := const_mx 6%:R; v_max := const_mx 11%:R;
  conn := fun j => j; a_srf := const_mx 10%:R;
  phi_a0 := const_mx (39%:R / 4%:R); phi_a1 := 0; phi_t0 := const_mx 1; phi_t1 := 0; r_ms := 0;
  h_c := const_mx 4%:R; h_r := const_mx 5%:R; flr := const_mx 1; is_solar_abs := fun _ => true;
  f_mrt_hum := const_mx 1; k_eo := const_mx 1; k_ei := fun _ => None |}.
Definition draught : infil_fun F 2 := fun _ _ => const_mx (1 / 20%:R / 30%:R).

(* outdoor air at T with humidity x; an appliance of 100 W in the first room; nobody at home *)
Definition appliance (x T : F) : step_data F 2 2 := {|
  theta_o := T; x_o := x; v_mec_local := 0; q_gen := \matrix_(i, _) (if i == 0 then 100%:R else 0); x_gen := 0; n_hum := 0;
  ac_demand := 0; q_trs_sol := 0; theta_o_sol := const_mx T |}.

Lemma num0 (n : nat) : (n.+1%:R : F) <> 0. Proof. by apply/eqP; rewrite pnatr_eq0. Qed.
Lemma sq30 : 900%:R = 30%:R * 30%:R :> F. Proof. by rewrite -natrM. Qed.

Lemma twins_boundaries : physical_boundaries twins.
Proof. by split=> //= j; rewrite ?mxE ?divr_ge0 ?ltr0n ?ler0n ?ler01. Qed.

Lemma twins_int i : \sum_k v_int twins i k = 2%:R / 5%:R / 30%:R.
Proof.
rewrite !big_ord_recl big_ord0 addr0 !mxE.
by case: i => [[|[|//]]] hi; rewrite ?addr0 ?add0r.
Qed.

Lemma twins_rooms : physical_rooms 900%:R twins.
Proof.
split=> //=; try by move=> i; rewrite ?mxE ?mulr_gt0 ?divr_gt0 ?divr_ge0 ?ltr0n ?ler0n ?ler01 ?ltr01.
- by rewrite ltr0n.
- by move=> i k; rewrite mxE; case: (i == k) => //; rewrite !divr_ge0 ?ler0n.
- move=> i; rewrite twins_int mxE sq30 invfM mulrA mulfV ?pnatr_eq0 // ltr_pmul2r ?invr_gt0 ?ltr0n //.
  by rewrite ltr_pdivr_mulr ?ltr0n // mul1r ltr_nat.
- by move=> i; rewrite !mxE ler0n ltr_nat.
- by move=> i; rewrite !mxE ler0n ler_nat.
- by move=> i; rewrite !mxE -!natrB // -!natrM ler_nat.
Qed.

Lemma twins_air x T : physical_air twins (appliance x T).
Proof. by move=> i; rewrite /= !mxE addr0 !divr_ge0 ?ler01 ?ler0n. Qed.

Lemma twins_hum : physical_hum twins.
Proof.
split=> /= [j|i]; first by rewrite mxE ler01.
rewrite big_mkcond !big_ord_recl big_ord0 !mxE /=.
by case: i => [[|[|//]]] ? /=; rewrite ?addr0 ?add0r.
Qed.

Lemma draught_ge0 tr to i : 0 <= draught tr to i 0.
Proof. by rewrite mxE !divr_ge0 ?ler01 ?ler0n. Qed.

Section Step.
Variables (e0 : F) (x_sat : F -> F) (x T : F) (c c' : conditions F 2 2 1) (o : outputs F 2 2).
Hypothesis Hs : core_step e0 draught x_sat 900%:R twins (appliance x T) c = Some (c', o).

Let ff := free_step (fun i => ltac:(by rewrite mxE) : 0 <= cap_h twins i 0) (fun i => ltac:(by rewrite mxE) : 0 <= cap_c twins i 0) Hs
  (fun i => ltac:(by rewrite mxE) : ac_demand (appliance x T) i 0 <= 0).

Lemma twins_outside i : air_from_outside twins (appliance x T) o i = 1 / 10%:R / 30%:R.
Proof.
have [_ _ w l] := ff; rewrite /air_from_outside w l /= !mxE !addr0 -mulrDl; congr (_ / _).
by apply/eqP; rewrite -mulrDl eqr_div ?pnatr_eq0 // -[1]/(1%:R) -natrD -!natrM.
Qed.

Local Notation u := (cap_air F / 30%:R).
Local Notation q_in i := (if i == 0 then 100%:R else 0).

Lemma one_surface (G : 'I_2 -> F) (i : 'I_2) : \sum_(j | conn twins j == i) G j = G i.
Proof. by rewrite (big_pred1 i). Qed.

Lemma no_sun i : q_sol_js twins (appliance x T) i 0 = 0.
Proof. by rewrite (q_sol_jsE (appliance x T) (erefl : conn twins i = i :> nat)) /= mxE mul0r mulr0. Qed.

Lemma twins_surface i : o_theta_s o i 0 - theta_r c' i 0 = (T - theta_r c' i 0) / 40%:R.
Proof.
have Hb := twins_boundaries; have [q [Hq Ht]] := stepP Hs.
have := radiant_exchange o Hb i; rewrite one_surface /= !mxE => /eqP.
rewrite mulf_eq0 mulf_eq0 !pnatr_eq0 /= subr_eq0 => /eqP mrt.
have := q_srf_parts Ht Hb (erefl : conn twins i = i :> nat); rewrite mrt subrr mulr0 addr0 no_sun.
have [_ -> _ _] := ff; rewrite !mxE !mulr0 ?mul0r !addr0 => qE.
have [a1 t1] := step_response_terms Hs i 0.
have h0 : h_c twins i 0 + h_r twins i 0 != 0 by rewrite gt_eqF // addr_gt0 ?(ph_hc Hb) ?(ph_hr Hb).
have a0 : a_srf twins i 0 != 0 by rewrite gt_eqF ?(ph_area Hb).
have := step_surface Hs h0 a0 (fun k coef => ltac:(by [])).
rewrite /surface_response /rear_temperature big_ord_recl big_ord0 a1 t1 /= !mxE !mul0r !addr0 !mul1r qE.
move: (o_theta_s o i 0) (theta_r c' i 0) => s r; rewrite mulrA mulfVK ?pnatr_eq0 // => E.
apply: (canRL (mulfK _)); first by rewrite pnatr_eq0.
rewrite -[40%:R]/((39 + 1)%:R) natrD mulrDr mulr1 {2}E.
by move: (39%:R : F) => n; fring.
Qed.

Lemma twins_furniture i : theta_frt c' i 0 = (theta_frt c i 0 + theta_r c' i 0) / 2%:R.
Proof.
have f0 : c_sh twins i 0 + 900%:R * g_sh twins i 0 != 0 by rewrite !mxE gt_eqF // addr_gt0 // mulr_gt0 ?ltr0n.
have d0 : 900%:R != 0 :> F by rewrite pnatr_eq0.
have := step_furniture_heat Hs d0 f0; rewrite /furniture_heat_balance /= !mxE mul0r addr0.
move: (theta_frt c' i 0) (theta_frt c i 0) (theta_r c' i 0) => f' f r.
have -> : 900%:R * 10%:R * (f' - f) / 900%:R = 10%:R * (f' - f).
  by move: d0 (10%:R : F) => /eqP; move: (900%:R : F) => n n0 a; ffield.
move=> /(mulfI (_ : 10%:R != 0)); rewrite pnatr_eq0 => /(_ isT) E.
apply: (canRL (mulfK _)); first by rewrite pnatr_eq0.
rewrite mulr_natr mulr2n -[X in _ = _ + X](subrK f') -E; fring.
Qed.

(* the air of room i, with the other room k *)
Lemma twins_room (i k : 'I_2) : i != k -> u * (theta_r c' i 0 - theta_r c i 0) = (1 + u / 10%:R) * (T - theta_r c' i 0)
  - 2%:R / 5%:R * u * theta_r c' k 0 + q_in i + 5%:R * (theta_frt c i 0 - theta_r c' i 0).
Proof.
move=> ik.
have f0 : c_sh twins i 0 + 900%:R * g_sh twins i 0 != 0 by rewrite !mxE gt_eqF // addr_gt0 // mulr_gt0 ?ltr0n.
have := code_heat_balance Hs f0.
rewrite /heat_stored /heat_gain /heat_from_surfaces /heat_from_outside /heat_from_inside /heat_from_furniture
   /heat_from_equipment /heat_from_rooms one_surface twins_surface twins_outside twins_furniture (proj1 (step_hum Hs i)).
have -> : \sum_k0 v_int twins i k0 * theta_r c' k0 0 = 2%:R / 5%:R / 30%:R * theta_r c' k 0.
  rewrite (bigD1 k) //= mxE (negbTE ik) big1 ?addr0 // => l lk; rewrite mxE.
  have -> : i == l; last by rewrite mul0r.
  by move: i k l ik lk {f0} => [[|[|//]] ?] [[|[|//]] ?] [[|[|//]] ?].
have [-> -> _ _] := ff; rewrite /= !mxE !mulr0 !addr0 sq30.
move: (q_in i) (cap_air F) (theta_r c' i 0) (theta_r c i 0) (theta_r c' k 0) (theta_frt c i 0) => Q ca r r0 rk f.
have -> : 4%:R * 10%:R * ((T - r) / 40%:R) = T - r by rewrite -natrM mulrCA mulfV ?pnatr_eq0 // mulr1.
have -> : 10%:R * ((f + r) / 2%:R - r) = 5%:R * (f - r).
  by rewrite -[10%:R]/((5 * 2)%:R) natrM; move: (5%:R : F) (@num0 1) => v n2; ffield.
have -> : 30%:R * ca * (r - r0) / (30%:R * 30%:R) = ca / 30%:R * (r - r0) by move: (30%:R : F) (@num0 29) => v n2; ffield.
by move=> ->; move: (30%:R^-1 : F) (10%:R^-1 : F) (5%:R^-1 : F) => a b d; fring.
Qed.

(* the moisture in the air of room i *)
Lemma twins_moist (i k : 'I_2) : i != k -> x_r c' i 0 - x_r c i 0 = (x - x_r c' i 0) / 10%:R
  + 2%:R / 5%:R * x_r c' k 0 + (x_frt c i 0 - x_r c' i 0) / 4%:R.
Proof.
move=> ik.
have [w [w0 [wc /(_ i) E]]] := humid_rows Hs twins_rooms; move: E.
have -> : w i 0 = 0.
  apply/eqP; apply: contraT => /wc; have [l _ _ _] := ff.
  by rewrite /removed l mxE oppr0 ltNge divr_ge0 ?ler01 ?ler0n.
rewrite -[vout _ _ o i]/(air_from_outside twins (appliance x T) o i) twins_outside (step_x_hum Hs) /glat.
have -> : \sum_k0 v_int twins i k0 * x_r c' k0 0 = 2%:R / 5%:R / 30%:R * x_r c' k 0.
  rewrite (bigD1 k) //= mxE (negbTE ik) big1 ?addr0 // => l lk; rewrite mxE.
  have -> : i == l; last by rewrite mul0r.
  by move: i k l ik lk {wc} => [[|[|//]] ?] [[|[|//]] ?] [[|[|//]] ?].
rewrite /= !mxE !mulr0 !mul0r !addr0 sq30.
have -> : 18%:R * (1 / 50%:R) / (18%:R + 30%:R * 30%:R * (1 / 50%:R)) = rho_air F / (30%:R * 4%:R).
  apply/eqP.
  have -> : 30%:R * 30%:R * (1 / 50%:R) = 18%:R :> F.
    by rewrite mulrA mulr1; apply: (canLR (mulfK _)); rewrite ?pnatr_eq0 // -!natrM.
  rewrite /rho_air -natrD mulrA mulr1 -[_ / 50%:R / _]mulrA -invfM -[_ / 10%:R / _]mulrA -invfM -!natrM eqr_div ?pnatr_eq0 //.
  by rewrite -!natrM.
have r0 : rho_air F != 0 by rewrite gt_eqF ?rho_air_gt0.
move: r0; move: (rho_air F) (x_r c' i 0) (x_r c i 0) (x_r c' k 0) (x_frt c i 0) => r y y0 yk z /eqP r0 E.
have n30 := @num0 29; have n10 := @num0 9; have n5 := @num0 4; have n4 := @num0 3.
apply/eqP; rewrite -subr_eq0; have : r / 30%:R != 0 by rewrite mulf_neq0 ?invr_eq0 ?pnatr_eq0 //; apply/eqP.
move=> rn; rewrite -(mulrI_eq0 _ (mulfI rn)); move: E => /eqP; rewrite -subr_eq0 => /eqP E; apply/eqP; apply: etrans _ E.
move: n30 n10 n5 n4; move: (30%:R : F) (10%:R : F) (5%:R : F) (4%:R : F) (2%:R : F) => a b d e f a0 b0 d0 e0'.
by ffield.
Qed.
End Step.

Lemma cap_range : 14%:R <= cap_air F / 30%:R <= 60%:R.
Proof.
rewrite ler_pdivl_mulr ?ltr0n // ler_pdivr_mulr ?ltr0n // -!natrM /cap_air /c_air /rho_air mulrA.
by rewrite ler_pdivl_mulr ?ltr0n // ler_pdivr_mulr ?ltr0n // -!natrM !ler_nat.
Qed.

Lemma grow (A K g q b a D Df D' m : F) : 0 < A -> 0 <= K -> 0 <= g -> A * D' = K * D + g * Df + q -> 0 <= m -> m <= D -> m <= Df ->
  A * b <= K + g -> A * a <= q -> b * m + a <= D'.
Proof.
move=> A0 K0 g0 E m0 mD mf hb ha; rewrite -(ler_pmul2l A0) E mulrDr mulrA; apply: ler_add => //.
apply: le_trans (ler_wpmul2r m0 hb) _; rewrite mulrDl; apply: ler_add; exact: ler_wpmul2l.
Qed.

Lemma eleven : 11%:R / 10%:R * 2%:R = 1 + 6%:R / 5%:R :> F.
Proof.
have n5 : 5%:R != 0 :> F by rewrite pnatr_eq0.
have -> : 1 + 6%:R / 5%:R = 11%:R / 5%:R :> F by apply: (canRL (mulfK _)); rewrite // mulrDl mul1r divfK // -natrD.
by rewrite mulrAC -natrM; apply/eqP; rewrite eqr_div ?pnatr_eq0 // -!natrM.
Qed.

(* the difference between the rooms *)
Definition apart (m : F) (c : conditions F 2 2 1) : Prop :=
  m <= theta_r c 0 0 - theta_r c 1 0 /\ m <= theta_frt c 0 0 - theta_frt c 1 0.
Definition damp (m : F) (c : conditions F 2 2 1) : Prop := m <= x_r c 0 0 + x_r c 1 0 /\ m <= x_frt c 0 0 + x_frt c 1 0.

(* two states: how much more vapour is in the rooms and in the furniture in the second *)
Definition damper (m : F) (c c2 : conditions F 2 2 1) : Prop :=
  m <= x_r c2 0 0 + x_r c2 1 0 - (x_r c 0 0 + x_r c 1 0) /\ m <= x_frt c2 0 0 + x_frt c2 1 0 - (x_frt c 0 0 + x_frt c 1 0).

(* two states: how much farther the rooms are apart in the second *)
Definition farther (m : F) (c c2 : conditions F 2 2 1) : Prop :=
  m <= theta_r c2 0 0 - theta_r c2 1 0 - (theta_r c 0 0 - theta_r c 1 0) /\
  m <= theta_frt c2 0 0 - theta_frt c2 1 0 - (theta_frt c 0 0 - theta_frt c 1 0).

Section Grow.
Variables (e0 : F) (x_sat : F -> F) (x T : F) (c c' : conditions F 2 2 1) (o : outputs F 2 2).
Hypothesis Hs : core_step e0 draught x_sat 900%:R twins (appliance x T) c = Some (c', o).

Lemma twins_diff : exists t : F, [/\ t = cap_air F / 30%:R / 10%:R &
  (7%:R * t + 6%:R) * (theta_r c' 0 0 - theta_r c' 1 0)
  = 10%:R * t * (theta_r c 0 0 - theta_r c 1 0) + 5%:R * (theta_frt c 0 0 - theta_frt c 1 0) + 100%:R].
Proof.
have e1 := twins_room Hs (isT : (0 : 'I_2) != 1); have e2 := twins_room Hs (isT : (1 : 'I_2) != 0).
move: e1 e2; rewrite /=.
move: (cap_air F / 30%:R) => u.
have [t [t10 t5 tE]] : exists t : F, [/\ u / 10%:R = t, 2%:R / 5%:R * u = 4%:R * t & u = 10%:R * t].
  have tn : 10%:R != 0 :> F by rewrite pnatr_eq0.
  exists (u / 10%:R); split=> //; last by rewrite mulrC divfK.
  by rewrite mulrAC mulrA [2%:R * u]mulrC [4%:R * u]mulrC; apply/eqP; rewrite eqr_div ?pnatr_eq0 // -!mulrA -!natrM.
rewrite t10 t5 tE => e1 e2; exists t; split=> //; move: e1 e2.
move: (theta_r c' 0 0) (theta_r c' 1 0) (theta_r c 0 0) (theta_r c 1 0) (theta_frt c 0 0) (theta_frt c 1 0) => a' b' a b fa fb e1 e2.
move: e1 e2 => /eqP; rewrite -subr_eq0 => /eqP e1 /eqP; rewrite -subr_eq0 => /eqP e2.
apply/eqP; rewrite -subr_eq0; apply/eqP; apply: etrans _ (subrr 0); rewrite -{1}e1 -e2.
by move: (100%:R : F) => w; fring.
Qed.
End Grow.

Lemma tenth_range : 7%:R / 5%:R <= cap_air F / 30%:R / 10%:R /\ cap_air F / 30%:R / 10%:R <= 6%:R.
Proof.
have /andP[u1 u2] := cap_range; split; last by rewrite ler_pdivr_mulr ?ltr0n // -natrM.
rewrite ler_pdivl_mulr ?ltr0n //; apply: le_trans u1.
by rewrite mulrAC -natrM -[(7 * 10)%N]/(14 * 5)%N natrM mulfK ?pnatr_eq0.
Qed.

(* one step of the difference d of the room temperatures and of the difference f of the furniture, gain q *)
Lemma spread (q b t m d f d' : F) : t = cap_air F / 30%:R / 10%:R -> (7%:R * t + 6%:R) * d' = 10%:R * t * d + 5%:R * f + q ->
  0 <= m -> 0 <= b -> m <= d -> m <= f -> (7%:R * 6%:R + 6%:R) * (b * 2%:R) <= q ->
  11%:R / 10%:R * m + b <= d' /\ 11%:R / 10%:R * m + b <= (f + d') / 2%:R.
Proof.
move=> tE E m0 b0 mr mf qb; have [] := tenth_range; rewrite -{}tE => u1 u2.
have t0 : 0 <= t by apply: le_trans u1; rewrite divr_ge0 ?ler0n.
have {E} G : 6%:R / 5%:R * m + b * 2%:R <= d'.
  apply: grow E m0 mr mf _ _ => //.
  - by rewrite ltr_paddl ?ltr0n // mulr_ge0 ?ler0n.
  - by rewrite mulr_ge0 ?ler0n.
  - by rewrite ler0n.
  - rewrite mulrA ler_pdivr_mulr ?ltr0n //; move: u1; rewrite ler_pdivr_mulr ?ltr0n // => u1.
    rewrite -subr_ge0.
    have -> : (10%:R * t + 5%:R) * 5%:R - (7%:R * t + 6%:R) * 6%:R = t * 5%:R - 7%:R + (t * 3%:R - 4%:R) by fring.
    apply: addr_ge0; first by rewrite subr_ge0.
    rewrite subr_ge0 -(ler_pmul2r (_ : 0 < 5%:R)) ?ltr0n // mulrAC; apply: le_trans (_ : 7%:R * 3%:R <= _).
      by rewrite -!natrM ler_nat.
    by rewrite ler_wpmul2r ?ler0n.
  - by apply: le_trans qb; rewrite ler_wpmul2r ?mulr_ge0 ?ler0n // ler_add2r ler_wpmul2l ?ler0n.
split.
  apply: le_trans G; apply: ler_add; last by rewrite ler_pemulr // ler1n.
  by rewrite ler_wpmul2r // ler_pdivr_mulr ?ltr0n // mulrAC ler_pdivl_mulr ?ltr0n // -!natrM ler_nat.
rewrite ler_pdivl_mulr ?ltr0n //.
have -> : (11%:R / 10%:R * m + b) * 2%:R = m + (6%:R / 5%:R * m + b * 2%:R).
  rewrite mulrDl mulrAC eleven mulrDl mul1r.
  by rewrite -addrA.
exact: ler_add.
Qed.

Section Grow1.
Variables (e0 : F) (x_sat : F -> F) (x T : F) (c c' : conditions F 2 2 1) (o : outputs F 2 2).
Hypothesis Hs : core_step e0 draught x_sat 900%:R twins (appliance x T) c = Some (c', o).

Lemma furniture_diff : theta_frt c' 0 0 - theta_frt c' 1 0
  = (theta_frt c 0 0 - theta_frt c 1 0 + (theta_r c' 0 0 - theta_r c' 1 0)) / 2%:R.
Proof. by rewrite !(twins_furniture Hs) -mulrBl; congr (_ / _); fring. Qed.

Lemma apart_step m : 0 <= m -> apart m c -> apart (11%:R / 10%:R * m + 1) c'.
Proof.
move=> m0 [mr mf]; rewrite /apart furniture_diff; have [t [tE E]] := twins_diff Hs.
by apply: (spread tE E) => //; rewrite ?ler01 // mul1r -natrM -natrD -natrM ler_nat.
Qed.

(* a second calculation *)
Lemma apart_two (c2 c2' : conditions F 2 2 1) (o2 : outputs F 2 2) m :
  core_step e0 draught x_sat 900%:R twins (appliance x T) c2 = Some (c2', o2) -> 0 <= m ->
  farther m c c2 -> farther (11%:R / 10%:R * m) c' c2'.
Proof.
move=> Hs2 m0 [mr mf]; rewrite /farther; have [t [tE E]] := twins_diff Hs; have [t2 [tE2 E2]] := twins_diff Hs2.
have eq : t2 = t by rewrite tE.
move: E2; rewrite {}eq => E2 {t2 tE2}.
have fE : theta_frt c2' 0 0 - theta_frt c2' 1 0 - (theta_frt c' 0 0 - theta_frt c' 1 0)
  = (theta_frt c2 0 0 - theta_frt c2 1 0 - (theta_frt c 0 0 - theta_frt c 1 0)
     + (theta_r c2' 0 0 - theta_r c2' 1 0 - (theta_r c' 0 0 - theta_r c' 1 0))) / 2%:R.
  by rewrite !(twins_furniture Hs) !(twins_furniture Hs2); move: (2%:R^-1 : F) => w; fring.
rewrite fE -[11%:R / 10%:R * m]addr0; apply: (@spread 0 0 t m _ _ _ tE _ m0 _ mr mf) => //; last by rewrite mul0r mulr0.
rewrite [LHS]mulrBr E E2.
move: (100%:R : F) => w; fring.
Qed.

Lemma damp_furniture i : x_frt c' i 0 = (x_frt c i 0 + x_r c' i 0) / 2%:R.
Proof.
rewrite (frt_new Hs twins_rooms i) /= !mxE.
have -> : 900%:R * (1 / 50%:R) = 18%:R :> F by rewrite mulrA mulr1; apply: (canLR (mulfK _)); rewrite ?pnatr_eq0 // -!natrM.
by rewrite -mulrDr -natrD -[(18 + 18)%N]/(18 * 2)%N natrM invfM mulrACA mulfV ?pnatr_eq0 // mul1r.
Qed.

Lemma damp_sum : 19%:R * (x_r c' 0 0 + x_r c' 1 0) = 20%:R * (x_r c 0 0 + x_r c 1 0) + 5%:R * (x_frt c 0 0 + x_frt c 1 0) + 4%:R * x.
Proof.
have e1 := twins_moist Hs (isT : (0 : 'I_2) != 1); have e2 := twins_moist Hs (isT : (1 : 'I_2) != 0).
move: e1 e2.
move: (x_r c' 0 0) (x_r c' 1 0) (x_r c 0 0) (x_r c 1 0) (x_frt c 0 0) (x_frt c 1 0) => a' b' a b fa fb e1 e2.
have n10 : 20%:R / 10%:R = 2%:R :> F by apply: (canLR (mulfK _)); rewrite ?pnatr_eq0 // -natrM.
have n5 : 20%:R / 5%:R = 4%:R :> F by apply: (canLR (mulfK _)); rewrite ?pnatr_eq0 // -natrM.
have n4 : 20%:R / 4%:R = 5%:R :> F by apply: (canLR (mulfK _)); rewrite ?pnatr_eq0 // -natrM.
have L y y0 yk z : y - y0 = (x - y) / 10%:R + 2%:R / 5%:R * yk + (z - y) / 4%:R ->
    20%:R * (y - y0) = 2%:R * (x - y) + 8%:R * yk + 5%:R * (z - y).
  move=> ->; rewrite !mulrDr ![20%:R * (_ / _)]mulrCA n10 n4 [20%:R * (_ * _)]mulrA [20%:R * (_ / _)]mulrCA n5 -natrM.
  by rewrite ![_ * 2%:R]mulrC ![_ * 5%:R]mulrC !mulrDr.
move: (L _ _ _ _ e1) (L _ _ _ _ e2) => /eqP; rewrite -subr_eq0 => /eqP f1 /eqP; rewrite -subr_eq0 => /eqP f2.
apply/eqP; rewrite -subr_eq0; apply/eqP; apply: etrans _ (addr0 0); rewrite -{1}f1 -f2; fring.
Qed.

(* one step of a sum d of humidities and of that of the furniture f, sources q *)
Lemma damp_grow (q m d f d' : F) : 19%:R * d' = 20%:R * d + 5%:R * f + q -> 0 <= q -> 0 <= m -> m <= d -> m <= f ->
  11%:R / 10%:R * m <= d' /\ 11%:R / 10%:R * m <= (f + d') / 2%:R.
Proof.
move=> E q0 m0 mr mf.
have G : 6%:R / 5%:R * m + 0 <= d'.
  apply: grow E m0 mr mf _ _; rewrite ?ltr0n ?ler0n ?mulr0 ?mulr_ge0 ?ler0n //.
  by rewrite mulrA ler_pdivr_mulr ?ltr0n // -!natrM -natrD -natrM ler_nat.
rewrite addr0 in G; split.
  apply: le_trans G; rewrite ler_wpmul2r //.
  by rewrite ler_pdivr_mulr ?ltr0n // mulrAC ler_pdivl_mulr ?ltr0n // -!natrM ler_nat.
rewrite ler_pdivl_mulr ?ltr0n // mulrAC eleven mulrDl mul1r; exact: ler_add.
Qed.

Lemma damp_step m : 0 <= x -> 0 <= m -> damp m c -> damp (11%:R / 10%:R * m) c'.
Proof.
move=> x0 m0 [mr mf]; rewrite /damp !damp_furniture -mulrDl.
rewrite addrACA; apply: damp_grow damp_sum _ m0 mr mf; rewrite mulr_ge0 ?ler0n //.
Qed.

Lemma damp_two (c2 c2' : conditions F 2 2 1) m :
  19%:R * (x_r c2' 0 0 + x_r c2' 1 0) = 20%:R * (x_r c2 0 0 + x_r c2 1 0) + 5%:R * (x_frt c2 0 0 + x_frt c2 1 0) + 4%:R * x ->
  (forall i, x_frt c2' i 0 = (x_frt c2 i 0 + x_r c2' i 0) / 2%:R) -> 0 <= m ->
  damper m c c2 -> damper (11%:R / 10%:R * m) c' c2'.
Proof.
move=> E2 f2 m0 [mr mf]; rewrite /damper !damp_furniture !f2.
have -> : (x_frt c2 0 0 + x_r c2' 0 0) / 2%:R + (x_frt c2 1 0 + x_r c2' 1 0) / 2%:R
    - ((x_frt c 0 0 + x_r c' 0 0) / 2%:R + (x_frt c 1 0 + x_r c' 1 0) / 2%:R)
  = (x_frt c2 0 0 + x_frt c2 1 0 - (x_frt c 0 0 + x_frt c 1 0) + (x_r c2' 0 0 + x_r c2' 1 0 - (x_r c' 0 0 + x_r c' 1 0))) / 2%:R.
  by move: (2%:R^-1 : F) => w; fring.
apply: (@damp_grow 0) m0 mr mf => //.
by rewrite [LHS]mulrBr E2 damp_sum; fring.
Qed.
End Grow1.

(* whole calculations *)
Section Run.
Variables (e0 : F) (x_sat : F -> F) (x T x0 : F) (data : seq (step_data F 2 2)) (is_ground : pred 'I_2).
Hypothesis same : forall s, List.In s data -> s = appliance x T.
Variables (td : F) (n_main n_run_up n_build : Z) (g : Z -> ground_conditions F #|is_ground| 1) (c : Z -> conditions F 2 2 1)
  (log : seq (option (conditions F 2 2 1 * outputs F 2 2))).
Hypothesis sim : simulation data e0 draught x_sat 900%:R twins (is_ground := is_ground) td (conditions_init 2 2 1 x0) n_main n_run_up n_build g c log.

Lemma in_data n s : column data n s -> s = appliance x T.
Proof. by move=> H; apply: same; apply: List.nth_error_In H. Qed.

Lemma pow_step (a : F) n : (0 <= n)%Z -> a ^+ Z.to_nat (n + 1) = a * a ^+ Z.to_nat n.
Proof.
move=> n0; have -> : Z.to_nat (n + 1) = (Z.to_nat n).+1 by lia.
by rewrite exprS.
Qed.

Lemma eleven_ge1 k : 1 <= (11%:R / 10%:R : F) ^+ k.
Proof. by apply: exprn_ege1; rewrite ler_pdivl_mulr ?ltr0n // mul1r ler_nat. Qed.

Lemma run_apart n : (- n_build <= n <= n_main)%Z -> apart (10%:R * ((11%:R / 10%:R) ^+ Z.to_nat (n + n_build) - 1)) (c n).
Proof.
move: n; apply: z_ind => [|n Hn IH].
  rewrite Z.add_opp_diag_l /= expr0 subrr mulr0 (sim_c0 sim); split; rewrite /= !mxE subrr //.
have [s [o [Cs [E _]]]] := sim_c sim Hn; rewrite (in_data Cs) in E.
have -> : (n + 1 + n_build = n + n_build + 1)%Z by lia.
rewrite pow_step; last by lia.
have k1 := eleven_ge1 (Z.to_nat (n + n_build)); move: IH k1; move: (_ ^+ _) => k IH k1.
have -> : 10%:R * (11%:R / 10%:R * k - 1) = 11%:R / 10%:R * (10%:R * (k - 1)) + 1.
  have E1 : 10%:R * (11%:R / 10%:R * k) = 11%:R * k by rewrite mulrA mulrCA mulfV ?pnatr_eq0 // mulr1.
  have E2 : 11%:R / 10%:R * (10%:R * (k - 1)) = 11%:R * (k - 1) by rewrite mulrA divfK ?pnatr_eq0.
  by rewrite mulrBr E1 E2; fring.
by apply: (apart_step E) IH; rewrite mulr_ge0 ?ler0n // subr_ge0.
Qed.

Lemma run_damp n : 0 <= x -> 0 <= x0 -> (- n_build <= n <= n_main)%Z -> damp ((11%:R / 10%:R) ^+ Z.to_nat (n + n_build) * (2%:R * x0)) (c n).
Proof.
move=> xp x0p; move: n; apply: z_ind => [|n Hn IH].
  rewrite Z.add_opp_diag_l /= expr0 mul1r (sim_c0 sim); split; rewrite /= !mxE mulr_natl mulr2n //.
have [s [o [Cs [E _]]]] := sim_c sim Hn; rewrite (in_data Cs) in E.
have -> : (n + 1 + n_build = n + n_build + 1)%Z by lia.
rewrite pow_step; last by lia.
rewrite -mulrA; apply: (damp_step E xp) IH; rewrite !mulr_ge0 ?ler0n // (le_trans ler01) // eleven_ge1 //.
Qed.

(* a second calculation with another run-up *)
Variables (x1 td2 : F) (n_run_up2 n_build2 : Z) (g2 : Z -> ground_conditions F #|is_ground| 1) (c2 : Z -> conditions F 2 2 1)
  (log2 : seq (option (conditions F 2 2 1 * outputs F 2 2))).
Hypothesis sim2 : simulation data e0 draught x_sat 900%:R twins (is_ground := is_ground) td2 (conditions_init 2 2 1 x1) n_main n_run_up2 n_build2 g2 c2 log2.

Lemma run_two m n0 n : 0 <= m -> (- n_build <= n0)%Z -> (- n_build2 <= n0)%Z -> (n0 <= n <= n_main)%Z ->
  farther m (c n0) (c2 n0) -> farther ((11%:R / 10%:R) ^+ Z.to_nat (n - n0) * m) (c n) (c2 n).
Proof.
move=> m0 b1 b2 Hn F0; move: n Hn; apply: z_ind => [|n Hn IH]; first by rewrite Z.sub_diag expr0 mul1r.
have [s [o [Cs [E _]]]] := sim_c sim (ltac:(lia) : (- n_build <= n < n_main)%Z).
have [s2 [o2 [Cs2 [E2 _]]]] := sim_c sim2 (ltac:(lia) : (- n_build2 <= n < n_main)%Z).
rewrite (in_data Cs) in E; rewrite (in_data Cs2) in E2.
have -> : (n + 1 - n0 = n - n0 + 1)%Z by lia.
rewrite pow_step; last by lia.
rewrite -mulrA; apply: (apart_two E E2) IH; rewrite mulr_ge0 // (le_trans ler01) // eleven_ge1 //.
Qed.

Lemma run_damp_two m n0 n : 0 <= m -> (- n_build <= n0)%Z -> (- n_build2 <= n0)%Z -> (n0 <= n <= n_main)%Z ->
  damper m (c n0) (c2 n0) -> damper ((11%:R / 10%:R) ^+ Z.to_nat (n - n0) * m) (c n) (c2 n).
Proof.
move=> m0 b1 b2 Hn F0; move: n Hn; apply: z_ind => [|n Hn IH]; first by rewrite Z.sub_diag expr0 mul1r.
have [s [o [Cs [E _]]]] := sim_c sim (ltac:(lia) : (- n_build <= n < n_main)%Z).
have [s2 [o2 [Cs2 [E2 _]]]] := sim_c sim2 (ltac:(lia) : (- n_build2 <= n < n_main)%Z).
rewrite (in_data Cs) in E; rewrite (in_data Cs2) in E2.
have -> : (n + 1 - n0 = n - n0 + 1)%Z by lia.
rewrite pow_step; last by lia.
rewrite -mulrA; apply: (damp_two E (damp_sum E2) (damp_furniture E2)) IH; rewrite mulr_ge0 // (le_trans ler01) // eleven_ge1 //.
Qed.
End Run.

(* the calculation of the twins completes *)
Lemma twins_calc (e0 : F) x_sat (x T x0 : F) k (d b : Z) (is_ground : pred 'I_2) : (0 <= d)%Z -> (0 <= b)%Z ->
  (d * 4 * 24 <= Z.of_nat k)%Z -> (b * 4 * 24 <= Z.of_nat k)%Z -> exists cf log g c,
  [/\ core_calc e0 draught x_sat x0 twins is_ground (nseq k (appliance x T)) 4 d b b = Ok (cf, log), cf = c (d * 4 * 24)%Z &
      simulation (nseq k (appliance x T)) e0 draught x_sat 900%:R twins (is_ground := is_ground) (theta_o_ave (nseq k (appliance x T)))
        (conditions_init 2 2 1 x0) (d * 4 * 24) (b * 4 * 24) (b * 4 * 24) g c log].
Proof.
move=> d0 b0 l1 l2.
have ins s : List.In s (nseq k (appliance x T)) -> s = appliance x T by elim: (k) => [//|m IH] /= [<-|/IH].
have [cf [log H]] : exists cf log,
    core_calc e0 draught x_sat x0 twins is_ground (nseq k (appliance x T)) 4 d b b = Ok (cf, log).
  apply: core_calc_total => //; rewrite ?dt_four ?size_nseq //; try lia.
  - by move=> i; rewrite mxE.
  - by move=> i; rewrite mxE.
  - exact: twins_boundaries.
  - exact: twins_rooms.
  - by move=> s /ins ->; exact: twins_air.
  - exact: twins_hum.
  - exact: draught_ge0.
  by left.
have [g [c [S E]]] := core_calc_run (ltac:(lia) : (0 < 4)%Z) d0 b0 (ltac:(lia) : (b <= b)%Z) H.
by exists cf, log, g, c; split=> //; move: S; rewrite dt_four.
Qed.

(* after a day *)
Lemma day_pow : 4096%:R <= (11%:R / 10%:R : F) ^+ 96.
Proof.
have sq (p q r t : nat) : (0 < q)%N -> (0 < t)%N -> (r * (q * q) <= (p * p) * t)%N -> r%:R / t%:R <= (p%:R / q%:R : F) ^+ 2.
  move=> q0 t0 H; rewrite expr2 mulf_div -!natrM ler_pdivr_mulr ?ltr0n // mulrAC -natrM.
  by rewrite ler_pdivl_mulr ?ltr0n ?muln_gt0 ?q0 // -natrM ler_nat.
have up (u w : F) : 0 <= u -> u <= w -> u ^+ 2 <= w ^+ 2.
  by move=> u0 uw; rewrite ler_expn2r ?nnegrE // (le_trans u0).
have e : 2%:R <= (11%:R / 10%:R : F) ^+ 8.
  rewrite -[8%N]/(2 * 2 * 2)%N 2!exprM.
  apply: le_trans (_ : 2%:R / 1%:R <= _); first by rewrite divr1.
  have s1 := sq 36%N 25%N 2%N 1%N isT isT isT; have s2 := sq 6%N 5%N 36%N 25%N isT isT isT.
  have s3 := sq 11%N 10%N 6%N 5%N isT isT isT.
  by apply: le_trans s1 (up _ _ _ (le_trans s2 (up _ _ _ s3))); rewrite divr_ge0 ?ler0n.
rewrite -[96%N]/(8 * 12)%N exprM; apply: le_trans (_ : 2%:R ^+ 12 <= _); first by rewrite -natrX ler_nat.
by rewrite ler_expn2r ?nnegrE ?exprn_ge0 ?divr_ge0 ?ler0n.
Qed.

Lemma in_nseq x T k s : List.In s (nseq k (appliance x T)) -> s = appliance x T.
Proof. by elim: k => [//|m IH] /= [<-|/IH]. Qed.

Lemma day_more n : (96 <= n)%N -> 4096%:R <= (11%:R / 10%:R : F) ^+ n.
Proof.
move=> n1; have -> : n = (96 + (n - 96))%N by rewrite subnKC.
by rewrite exprD; apply: le_trans day_pow _; rewrite ler_pemulr ?eleven_ge1 // (le_trans ler01) ?eleven_ge1.
Qed.

Lemma far_more (k : F) : 4096%:R <= k -> 40%:R * 1000%:R <= 10%:R * (k - 1).
Proof.
move=> k1; apply: le_trans (_ : 10%:R * 4000%:R <= _).
  have -> : 40%:R = 10%:R * 4%:R :> F by rewrite -natrM.
  by rewrite -mulrA ler_pmul2l ?ltr0n // -natrM ler_nat.
by rewrite ler_pmul2l ?ltr0n // ler_subr_addr; apply: le_trans k1; rewrite -[1]/(1%:R) -natrD ler_nat.
Qed.

Lemma twins_apart (e0 : F) x_sat (x T x0 : F) k (d b : Z) (is_ground : pred 'I_2) : (0 <= d)%Z -> (0 <= b)%Z ->
  (d * 4 * 24 <= Z.of_nat k)%Z -> (b * 4 * 24 <= Z.of_nat k)%Z -> exists cf log,
  [/\ core_calc e0 draught x_sat x0 twins is_ground (nseq k (appliance x T)) 4 d b b = Ok (cf, log),
      10%:R * ((11%:R / 10%:R) ^+ Z.to_nat ((d + b) * 4 * 24) - 1) <= theta_r cf 0 0 - theta_r cf 1 0
    & (0 < d + b)%Z -> 40%:R * 1000%:R <= theta_r cf 0 0 - theta_r cf 1 0].
Proof.
move=> d0 b0 l1 l2; have [cf [log [g [c [E e S]]]]] := twins_calc e0 x_sat x T x0 is_ground d0 b0 l1 l2.
exists cf, log; rewrite e in E *.
have Hn : (- (b * 4 * 24) <= d * 4 * 24 <= d * 4 * 24)%Z by lia.
have [A _] := run_apart (@in_nseq x T k) S Hn.
have eq : (d * 4 * 24 + b * 4 * 24 = (d + b) * 4 * 24)%Z by lia.
rewrite eq in A; split=> //.
move=> p; apply: le_trans A; apply: far_more; apply: day_more; apply/ssrnat.leP; lia.
Qed.

Lemma twins_two (e0 : F) x_sat (x T x0 : F) k (d : Z) (is_ground : pred 'I_2) : (0 <= d)%Z ->
  (d * 4 * 24 <= Z.of_nat k)%Z -> (1 * 4 * 24 <= Z.of_nat k)%Z -> exists cf log cf2 log2,
  [/\ core_calc e0 draught x_sat x0 twins is_ground (nseq k (appliance x T)) 4 d 0 0 = Ok (cf, log),
      core_calc e0 draught x_sat x0 twins is_ground (nseq k (appliance x T)) 4 d 1 1 = Ok (cf2, log2)
    & 40%:R * 1000%:R * (11%:R / 10%:R) ^+ Z.to_nat (d * 4 * 24)
      <= theta_r cf2 0 0 - theta_r cf2 1 0 - (theta_r cf 0 0 - theta_r cf 1 0)].
Proof.
move=> d0 l1 l2; have [cf [log [g [c [E e S]]]]] := twins_calc e0 x_sat x T x0 is_ground d0 (ltac:(lia) : (0 <= 0)%Z) l1 (ltac:(lia) : (0 * 4 * 24 <= Z.of_nat k)%Z).
have [cf2 [log2 [g2 [c2 [E2 e2 S2]]]]] := twins_calc e0 x_sat x T x0 is_ground d0 (ltac:(lia) : (0 <= 1)%Z) l1 l2.
exists cf, log, cf2, log2; split=> //.
have [A B] := run_apart (@in_nseq x T k) S2 (ltac:(lia) : (- (1 * 4 * 24) <= 0 <= d * 4 * 24)%Z).
have F0 : farther (40%:R * 1000%:R) (c 0%Z) (c2 0%Z).
  have e0' : c 0%Z = _ := sim_c0 S.
  have big : 40%:R * 1000%:R <= 10%:R * ((11%:R / 10%:R : F) ^+ Z.to_nat (0 + 1 * 4 * 24) - 1).
    by apply: far_more; apply: day_more.
  rewrite e0'; split; rewrite /= !mxE subrr subr0; exact: le_trans big _.
have [G _] := run_two (@in_nseq x T k) S S2 (mulr_ge0 (ler0n _ 40) (ler0n _ 1000)) (ltac:(lia) : (- (0 * 4 * 24) <= 0)%Z) (ltac:(lia) : (- (1 * 4 * 24) <= 0)%Z)
   (ltac:(lia) : (0 <= d * 4 * 24 <= d * 4 * 24)%Z) F0.
by rewrite e e2 mulrC; move: G; rewrite Z.sub_0_r.
Qed.

Lemma twins_damp (e0 : F) x_sat (x T x0 : F) k (d b : Z) (is_ground : pred 'I_2) : 0 <= x -> 0 <= x0 -> (0 <= d)%Z -> (0 <= b)%Z ->
  (d * 4 * 24 <= Z.of_nat k)%Z -> (b * 4 * 24 <= Z.of_nat k)%Z -> exists cf log,
  [/\ core_calc e0 draught x_sat x0 twins is_ground (nseq k (appliance x T)) 4 d b b = Ok (cf, log),
      (11%:R / 10%:R) ^+ Z.to_nat ((d + b) * 4 * 24) * (2%:R * x0) <= x_r cf 0 0 + x_r cf 1 0
    & (0 < d + b)%Z -> 4096%:R * (2%:R * x0) <= x_r cf 0 0 + x_r cf 1 0].
Proof.
move=> xp x0p d0 b0 l1 l2; have [cf [log [g [c [E e S]]]]] := twins_calc e0 x_sat x T x0 is_ground d0 b0 l1 l2.
exists cf, log; rewrite e in E *.
have Hn : (- (b * 4 * 24) <= d * 4 * 24 <= d * 4 * 24)%Z by lia.
have [A _] := run_damp (@in_nseq x T k) S xp x0p Hn.
have eq : (d * 4 * 24 + b * 4 * 24 = (d + b) * 4 * 24)%Z by lia.
rewrite eq in A; split=> //.
move=> p; apply: le_trans A; apply: ler_wpmul2r; first by rewrite mulr_ge0 ?ler0n.
by apply: day_more; apply/ssrnat.leP; lia.
Qed.

Lemma twins_damp_two (e0 : F) x_sat (x T x0 : F) k (d : Z) (is_ground : pred 'I_2) : 0 <= x -> 0 <= x0 -> (0 <= d)%Z ->
  (d * 4 * 24 <= Z.of_nat k)%Z -> (1 * 4 * 24 <= Z.of_nat k)%Z -> exists cf log cf2 log2,
  [/\ core_calc e0 draught x_sat x0 twins is_ground (nseq k (appliance x T)) 4 d 0 0 = Ok (cf, log),
      core_calc e0 draught x_sat x0 twins is_ground (nseq k (appliance x T)) 4 d 1 1 = Ok (cf2, log2)
    & 4095%:R * (2%:R * x0) * (11%:R / 10%:R) ^+ Z.to_nat (d * 4 * 24) <= x_r cf2 0 0 + x_r cf2 1 0 - (x_r cf 0 0 + x_r cf 1 0)].
Proof.
move=> xp x0p d0 l1 l2; have [cf [log [g [c [E e S]]]]] := twins_calc e0 x_sat x T x0 is_ground d0 (ltac:(lia) : (0 <= 0)%Z) l1 (ltac:(lia) : (0 * 4 * 24 <= Z.of_nat k)%Z).
have [cf2 [log2 [g2 [c2 [E2 e2 S2]]]]] := twins_calc e0 x_sat x T x0 is_ground d0 (ltac:(lia) : (0 <= 1)%Z) l1 l2.
exists cf, log, cf2, log2; split=> //.
have [A B] := run_damp (@in_nseq x T k) S2 xp x0p (ltac:(lia) : (- (1 * 4 * 24) <= 0 <= d * 4 * 24)%Z).
have z0 : 0 <= 2%:R * x0 by rewrite mulr_ge0 ?ler0n.
have F0 : damper (4095%:R * (2%:R * x0)) (c 0%Z) (c2 0%Z).
  have e0' : c 0%Z = _ := sim_c0 S.
  have big : 4095%:R * (2%:R * x0) + 2%:R * x0 <= (11%:R / 10%:R : F) ^+ Z.to_nat (0 + 1 * 4 * 24) * (2%:R * x0).
    rewrite -{2}[2%:R * x0]mul1r -mulrDl ler_wpmul2r // -[1]/(1%:R) -natrD.
    by apply: le_trans (day_more (isT : (96 <= 96)%N)); rewrite ler_nat.
  rewrite e0'; split; rewrite /= !mxE -mulr2n -[x0 *+ 2]mulr_natl ler_subr_addr; exact: le_trans big _.
have [G _] := run_damp_two (@in_nseq x T k) S S2 (mulr_ge0 (ler0n _ 4095) z0) (ltac:(lia) : (- (0 * 4 * 24) <= 0)%Z) (ltac:(lia) : (- (1 * 4 * 24) <= 0)%Z)
   (ltac:(lia) : (0 <= d * 4 * 24 <= d * 4 * 24)%Z) F0.
by rewrite e e2 mulrC; move: G; rewrite Z.sub_0_r.
Qed.
End Runaway.
