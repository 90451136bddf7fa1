(* Witnesses against the unrestricted forms of C02 and C05. *)
From mathcomp Require Import all_ssreflect ssralg ssrnum zmodp matrix.
From Coq Require Import Ring Field.
From Verif Require Import Model.OperationMode Model.Numpy Model.NextCondition Model.PreCalc
  Model.HeatExchanger Model.Tick Model.Step Model.OtTarget Spec.Physical Spec.StepEq Spec.Equil.
From Verif Require Import Lemmas.FieldTac Lemmas.NumpyL Lemmas.NextConditionL Lemmas.TickL
  Lemmas.TickBalance Lemmas.MMatrix Lemmas.TickTotal Lemmas.TickMoist Lemmas.TickEquil Lemmas.StepL.
From Verif Require Import Examples.House2.
Set Implicit Arguments. Unset Strict Implicit. Unset Printing Implicit Defensive.
Import Order.TTheory GRing.Theory Num.Theory.
Local Open Scope ring_scope.

Section TickRefute.
Variable Q : realFieldType.
Add Field Ffield : (ffield_theory Q).
Ltac fring := ffold Q; ring.
Ltac ffield := ffold Q; field.

(* nothing happens outside, nobody is at home, the equipment is not asked for *)
Definition step0 : step_data Q 2 4 := {|
  theta_o := 0; x_o := 0; v_mec_local := 0; q_gen := 0; x_gen := 0; n_hum := 0; ac_demand := 0;
  q_trs_sol := 0; theta_o_sol := 0 |}.

(* all temperatures 0 degree C, except the air of both rooms *)
Definition cond0 (T : Q) : conditions Q 2 4 1 := {|
  operation_mode := fun _ => STOP_CLOSE; theta_r := const_mx T; theta_mrt_hum := 0;
  x_r := const_mx (6%:R / 1000%:R); theta_dsh_a := 0; theta_dsh_t := 0; q_srf := 0;
  theta_frt := 0; x_frt := const_mx (6%:R / 1000%:R); theta_ei := 0 |}.

Lemma ot2_off x om t tm hc hr md lo up : ot2 x om t tm (0 : 'cV[Q]_2) = Some (hc, hr, md, lo, up) ->
  forall i, md i = STOP_CLOSE.
Proof.
rewrite /ot2 /get_ot_target_and_h_hum; case: ifP => // _ [_ _ <- _ _] i.
by rewrite /ot_target_pmv /get_operation_mode mxE ltxx.
Qed.

Section Run.
Variables (V : 'M[Q]_2) (pa pt : Q) (hc : 'I_4 -> Q).
Local Notation h2 := (house2 V pa pt hc).
Variables (T : Q) (c' : conditions Q 2 4 1) (o : outputs Q 2 4).
Hypothesis Hs : step (@ot2 Q) (@infil2 Q) (@x_sat2 Q) 900%:R h2 step0 (cond0 T) = Some (c', o).

Lemma run0_off : o_l_cs o = 0 /\ o_l_rs o = 0.
Proof.
have [q [Hq Ht]] := stepP Hs; apply: (tick_all_off Ht); try by move=> i; rewrite mxE.
case: (run_tickP Ht) => md lo up ? ? v_out ? ? xot kc kr ? ? ? ? ? ? ? ?.
move=> otE mdE *; rewrite mdE; by rewrite (ot2_off otE).
Qed.

Lemma run0_hum : o_q_hum o = 0.
Proof.
have [q [Hq Ht]] := stepP Hs.
case: (run_tickP Ht) => md lo up ? ? v_out ? ? xot kc kr ? ? ? ? ? ? ? ?.
by move=> _ _ _ -> *; apply/matrixP => i j; rewrite !mxE mulr0.
Qed.

Lemma run0_dsh j m : theta_dsh_a c' j m = 0 /\ theta_dsh_t c' j m = 0.
Proof.
have [-> ->] := step_response_terms Hs j m; rewrite /= !mxE.
by split; first fring; case: (ex_k_ei _ _) => [[k e]|]; rewrite ?mxE; fring.
Qed.

Lemma fr_ne0 : 1000%:R + 900%:R * 10%:R != 0 :> Q.
Proof. by rewrite -natrM -natrD pnatr_eq0. Qed.

Lemma run0_frt i : theta_r c' i 0 = 0 -> theta_frt c' i 0 = 0.
Proof.
move=> r0; have d0 : 900%:R != 0 :> Q by rewrite pnatr_eq0.
have := step_furniture_heat Hs (i := i) d0; rewrite /furniture_heat_balance /= r0 !mxE.
move=> /(_ fr_ne0) E; suff /eqP : (1000%:R + 900%:R * 10%:R) * theta_frt c' i 0 = 0.
  by rewrite mulf_eq0 (negbTE fr_ne0) => /eqP.
have {1}-> : 1000%:R = 1000%:R * (900%:R / 900%:R) :> Q by rewrite divff // mulr1.
move: E; move: ((900%:R : Q)^-1) ((2%:R : Q)^-1) => d' h; move: (theta_frt c' i 0) (900%:R : Q) (1000%:R : Q) (10%:R : Q) => z d a b E.
have -> : (a * (d * d') + d * b) * z = d * (a * (z - 0) * d' - (b * (0 - z) + 0 * h)) by fring.
by rewrite E subrr mulr0.
Qed.

(* the code's balance when the rooms end at zero temperature *)
Lemma run0_balance (i : 'I_2) : theta_r c' i 0 = 0 -> (forall k, V i k * theta_r c' k 0 = 0) ->
  (forall j, conn h2 j = i -> o_theta_s o j 0 = 0) -> T = 0.
Proof.
move=> r0 v0 s0; have := code_heat_balance Hs (i := i); rewrite /= !mxE => /(_ fr_ne0).
rewrite /heat_stored /heat_gain /heat_from_surfaces /heat_from_outside /heat_from_inside
  /heat_from_furniture /heat_from_equipment /heat_from_rooms /=.
have [-> ->] := run0_off; rewrite run0_hum r0 run0_frt // !mxE.
rewrite big1 => [|j /eqP /s0 ->]; last by rewrite subr0 mulr0.
rewrite big1 => [|k _]; last by rewrite v0.
rewrite !(subr0, mulr0, addr0, mul0r, sub0r) => /eqP.
have ca : cap_air Q != 0 by rewrite gt_eqF // mulr_gt0 ?(c_air_gt0 Q) ?(rho_air_gt0 Q).
by move: (cap_air Q) ca => cA ca; rewrite !mulf_eq0 invr_eq0 !pnatr_eq0 (negbTE ca) oppr_eq0 /= orbF => /eqP.
Qed.

End Run.

(* air flows from room 1 to room 0 only *)
Definition v10 : 'M[Q]_2 := \matrix_(i, k) (if (i == 0) && (k == 1) then 1 / 60%:R else 0).

Lemma v10_ge0 i k : 0 <= v10 i k.
Proof. by rewrite mxE; case: ifP => // _; rewrite divr_ge0 ?ler01 ?ler0n. Qed.

Lemma v10_sum i : \sum_k v10 i k < 1 / 30%:R.
Proof.
rewrite !big_ord_recl big_ord0 !mxE /= andbF add0r addr0.
case: ifP => _; last by rewrite divr_gt0 ?ltr01 ?ltr0n.
by rewrite ltr_pmul2l ?ltr01 // ltf_pinv ?ltr_nat // posrE ltr0n.
Qed.

(* C02: the documented balance fails for every non-zero temperature T *)
Lemma doc_balance_fails (T : Q) : T != 0 -> exists c' o,
  [/\ physical_boundaries (house2 v10 0 0 (fun _ => 4%:R)),
      physical_rooms 900%:R (house2 v10 0 0 (fun _ => 4%:R)),
      step (@ot2 Q) (@infil2 Q) (@x_sat2 Q) 900%:R (house2 v10 0 0 (fun _ => 4%:R)) step0 (cond0 T) = Some (c', o) &
      ~ documented_heat_balance 900%:R (house2 v10 0 0 (fun _ => 4%:R)) step0 (cond0 T) c' o 0].
Proof.
move=> T0.
have hb : physical_boundaries (house2 v10 0 0 (fun _ => 4%:R)).
  by apply: house2_boundaries => //= *; rewrite ?ler01 ?ltr0n.
have hr := house2_rooms 0 0 (fun _ => 4%:R) v10_ge0 v10_sum.
have [c' [o Hs]] : exists c' o,
  step (@ot2 Q) (@infil2 Q) (@x_sat2 Q) 900%:R (house2 v10 0 0 (fun _ => 4%:R)) step0 (cond0 T) = Some (c', o).
  by apply: house2_step => //= *; rewrite ?ler01 ?ltr0n // ?v10_ge0 ?v10_sum.
exists c', o; split=> // doc.
(* surfaces keep their history temperature 0 *)
have srf j : o_theta_s o j 0 = 0.
  have [q [Hq Ht]] := stepP Hs.
  have h0 : 4%:R + 5%:R != 0 :> Q by rewrite -natrD pnatr_eq0.
  have := surf_response_seen Hq Ht (j := j); rewrite /= !mxE pnatr_eq0 => -> //.
  by rewrite !mul0r !add0r big1 // => m _; have [-> ->] := run0_dsh Hs j m; rewrite addr0.
have r1 : theta_r c' 1 0 = 0.
  move: doc; rewrite (doc_heat_iff Hs); last by rewrite /= !mxE; exact: fr_ne0.
  rewrite /= !big_ord_recl big_ord0 !mxE /= mul0r add0r addr0 => /eqP.
  rewrite mulf_eq0 mulf_eq0 invr_eq0 oner_eq0 pnatr_eq0 /= => /eqP e; rewrite -[RHS]e.
  by congr (theta_r c' _ 0); apply: val_inj.
(* room 1 receives no air from room 0: its own balance *)
by move/eqP: T0; apply; apply: (run0_balance Hs r1) => // k; rewrite mxE mul0r.
Qed.

(* C05: the two sides of the wall between the rooms have different convection coefficients *)
Definition hc23 (j : 'I_4) : Q := if j == 2%N :> nat then 2%:R else 4%:R.
Local Notation h5 := (house2 0 0 (1 / 10%:R) hc23).

Lemma hc23_gt0 j : 0 < hc23 j. Proof. by rewrite /hc23; case: ifP => _; rewrite ltr0n. Qed.

Lemma tenth : 0 <= 1 / 10%:R :> Q /\ 1 / 10%:R <= 1 :> Q.
Proof. by split; [rewrite divr_ge0 ?ler01 ?ler0n | rewrite ler_pdivr_mulr ?ltr0n // mul1r ler1n]. Qed.

Lemma h5_boundaries : physical_boundaries h5.
Proof. by have [t0 t1] := tenth; apply: house2_boundaries => // j; exact: hc23_gt0. Qed.

Lemma inord4 n (H : (n < 4)%N) : inord n = Ordinal H :> 'I_4.
Proof. by apply: val_inj; rewrite /= inordK. Qed.

Section Run5.
Variables (T : Q) (c' : conditions Q 2 4 1) (o : outputs Q 2 4).
Hypothesis Hs : step (@ot2 Q) (@infil2 Q) (@x_sat2 Q) 900%:R h5 step0 (cond0 T) = Some (c', o).
Let j0 : 'I_4 := @Ordinal 4 0 isT.
Let j1 : 'I_4 := @Ordinal 4 1 isT.
Let j2 : 'I_4 := @Ordinal 4 2 isT.
Let j3 : 'I_4 := @Ordinal 4 3 isT.
Let M (i : 'I_2) := (f_mrt_is_js h5 *m o_theta_s o) i 0.

Lemma sum4 (f : 'I_4 -> Q) : \sum_j f j = f j0 + f j1 + f j2 + f j3.
Proof.
rewrite !big_ord_recl big_ord0 addr0 !addrA.
by congr (f _ + f _ + f _ + f _); apply: val_inj.
Qed.

Lemma M_mean : M 0 = (o_theta_s o j0 0 + o_theta_s o j2 0) / 2%:R /\
               M 1 = (o_theta_s o j1 0 + o_theta_s o j3 0) / 2%:R.
Proof.
have ah i : ah_sum h5 i = 120%:R.
  rewrite /ah_sum big_mkcond sum4 /= !mxE -natrM.
  by case: i => [[|[|//]]] /= hi; rewrite ?addr0 ?add0r -?natrD.
have e : (12 * 5)%:R / 120%:R = 2%:R^-1 :> Q.
  by apply/eqP; rewrite -[X in _ == X]mul1r eqr_div ?pnatr_eq0 // mul1r -natrM.
by split; rewrite /M mxE sum4 !f_mrtE /= !ah !mxE -natrM e !mul0r ?addr0 ?add0r mulrDl
  ![_^-1 * _]mulrC.
Qed.

Lemma rearE j k : rear_seen h5 step0 c' o j k
  = (hc23 j * theta_r c' (room_of h5_boundaries k) 0 + 5%:R * M (room_of h5_boundaries k)) / (hc23 j + 5%:R).
Proof.
have qs : q_sol_js h5 step0 k 0 = 0.
  rewrite /q_sol_js /dot; have -> : ediv (q_trs_sol step0) (a_srf_abs h5) = 0.
    by apply/matrixP => a b; rewrite !mxE mul0r.
  by rewrite mulmx0; apply/eqP; rewrite !mxE !mulr0.
have fl : (flr_js_is h5 *m emul (ssub 1 (beta h5)) (o_l_rs o)) k 0 = 0.
  have -> : flr_js_is h5 = 0 by apply/matrixP => a b; rewrite !mxE mul0r.
  by rewrite mul0mx mxE.
rewrite /rear_seen qs fl mul0r !addr0 -mulmxA !(p_jsE h5_boundaries) /M.
by move: (f_mrt_is_js _ *m _) => A; rewrite /= !mxE.
Qed.

Lemma eiE k : theta_ei c' k 0
  = (hc23 k * theta_r c' (room_of h5_boundaries k) 0 + 5%:R * M (room_of h5_boundaries k)) / (hc23 k + 5%:R).
Proof. by have [q [Hq Ht]] := stepP Hs; rewrite (theta_eiE Ht) -rearE. Qed.

Lemma seen5 j : o_theta_s o j 0
  = 1 / 10%:R * (if ex_k_ei Q j is Some (k, coef) then coef * rear_seen h5 step0 c' o j k else 0).
Proof.
have [q [Hq Ht]] := stepP Hs.
rewrite (surf_response_seen Hq Ht (j := j)) /=; first last.
- by rewrite mxE pnatr_eq0.
- by rewrite !mxE gt_eqF // addr_gt0 ?hc23_gt0 ?ltr0n.
rewrite !mxE mul0r add0r mulr0 addr0 big1 ?addr0 // => m _.
by have [-> ->] := run0_dsh Hs j m; rewrite addr0.
Qed.

Lemma doc5 j : surface_response h5 step0 c' o j -> o_theta_s o j 0
  = 1 / 10%:R * (if ex_k_ei Q j is Some (k, coef) then coef * theta_ei c' k 0 else 0).
Proof.
rewrite /surface_response /rear_temperature => ->; rewrite /= !mxE mul0r add0r mulr0 addr0 big1 ?addr0 // => m _.
by have [-> ->] := run0_dsh Hs j m; rewrite addr0.
Qed.

Lemma same_rm (r m : Q) : (2%:R * r + 5%:R * m) / (2%:R + 5%:R) = (4%:R * r + 5%:R * m) / (4%:R + 5%:R) -> r = m.
Proof.
move/eqP; rewrite eqr_div -?natrD ?pnatr_eq0 // => /eqP E.
have : 10%:R * (r - m) = 0 :> Q.
  have -> : 10%:R * (r - m) = (4%:R * r + 5%:R * m) * 7%:R - (2%:R * r + 5%:R * m) * 9%:R.
    have -> : 10%:R = 2%:R + 2%:R + 2%:R + 2%:R + 2%:R :> Q by rewrite -!natrD.
    by ffold Q; ring.
  by rewrite E subrr.
by move/eqP; rewrite mulf_eq0 pnatr_eq0 subr_eq0 => /eqP.
Qed.

Lemma run5_zero : (forall j, surface_response h5 step0 c' o j) -> T = 0.
Proof.
move=> doc.
have k2 : ex_k_ei Q j2 = Some (j3, 1) by rewrite /ex_k_ei /= (@inord4 3 isT).
have k3 : ex_k_ei Q j3 = Some (j2, 1) by rewrite /ex_k_ei /= (@inord4 2 isT).
have c2 : room_of h5_boundaries j2 = 0 by apply: val_inj.
have c3 : room_of h5_boundaries j3 = 1 by apply: val_inj.
have t0 : 1 / 10%:R != 0 :> Q by rewrite mul1r invr_eq0 pnatr_eq0.
have e2 : rear_seen h5 step0 c' o j2 j3 = theta_ei c' j3 0.
  have := doc5 (doc j2); rewrite (seen5 j2) k2 !mul1r; apply: mulfI.
  by rewrite invr_eq0 pnatr_eq0.
have e3 : rear_seen h5 step0 c' o j3 j2 = theta_ei c' j2 0.
  have := doc5 (doc j3); rewrite (seen5 j3) k3 !mul1r; apply: mulfI.
  by rewrite invr_eq0 pnatr_eq0.
have r1 : theta_r c' 1 0 = M 1.
  by move: e2; rewrite rearE eiE c3 /hc23 /=; exact: same_rm.
have r0 : theta_r c' 0 0 = M 0.
  by move: e3; rewrite rearE eiE c2 /hc23 /= => /esym; exact: same_rm.
have s0 : o_theta_s o j0 0 = 0 by rewrite seen5 /= mulr0.
have s1 : o_theta_s o j1 0 = 0 by rewrite seen5 /= mulr0.
have h7 : 2%:R + 5%:R != 0 :> Q by rewrite -natrD pnatr_eq0.
have h9 : 4%:R + 5%:R != 0 :> Q by rewrite -natrD pnatr_eq0.
have s2 : o_theta_s o j2 0 = theta_r c' 1 0 / 10%:R.
  by rewrite seen5 k2 rearE c3 -r1 -mulrDl /hc23 /= mul1r [X in _ * (X / _)]mulrC mulfK // mul1r mulrC.
have s3 : o_theta_s o j3 0 = theta_r c' 0 0 / 10%:R.
  by rewrite seen5 k3 rearE c2 -r0 -mulrDl /hc23 /= mul1r [X in _ * (X / _)]mulrC mulfK // mul1r mulrC.
have [m0 m1] := M_mean; move: m0 m1; rewrite -r0 -r1 s0 s1 s2 s3 !add0r => m0 m1.
have z0 : theta_r c' 0 0 = 0.
  have : theta_r c' 0 0 * 400%:R = theta_r c' 0 0.
    have n2 : 2%:R != 0 :> Q by rewrite pnatr_eq0.
    have n10 : 10%:R != 0 :> Q by rewrite pnatr_eq0.
    have b : theta_r c' 0 0 * 2%:R * 10%:R = theta_r c' 1 0 by rewrite m0 !divfK.
    have a : theta_r c' 1 0 * 2%:R * 10%:R = theta_r c' 0 0 by rewrite {1}m1 !divfK.
    by rewrite -{2}a -b -!mulrA -!natrM.
  move/eqP; rewrite -subr_eq0 -{2}[theta_r c' 0 0]mulr1 -mulrBr mulf_eq0 [_ - 1 == 0]subr_eq0 pnatr_eq1 orbF.
  by move/eqP.
have z1 : theta_r c' 1 0 = 0 by rewrite m1 z0 !mul0r.
apply: (run0_balance Hs z0) => [k|j _]; first by rewrite mxE mul0r.
have zs2 : o_theta_s o j2 0 = 0 by rewrite s2 z1 mul0r.
have zs3 : o_theta_s o j3 0 = 0 by rewrite s3 z0 mul0r.
case: j => [[|[|[|[|//]]]]] hj;
  [rewrite -[RHS]s0|rewrite -[RHS]s1|rewrite -[RHS]zs2|rewrite -[RHS]zs3];
  by congr (o_theta_s o _ 0); apply: val_inj.
Qed.

End Run5.

Lemma doc_surface_fails (T : Q) : T != 0 -> exists c' o,
  [/\ physical_boundaries h5, physical_rooms 900%:R h5,
      step (@ot2 Q) (@infil2 Q) (@x_sat2 Q) 900%:R h5 step0 (cond0 T) = Some (c', o) &
      ~ (forall j, surface_response h5 step0 c' o j)].
Proof.
move=> T0; have [t0 t1] := tenth.
have [c' [o Hs]] : exists c' o,
  step (@ot2 Q) (@infil2 Q) (@x_sat2 Q) 900%:R h5 step0 (cond0 T) = Some (c', o).
  apply: house2_step => // *; rewrite ?hc23_gt0 ?mxE //; exact: sum0_lt.
exists c', o; split=> //.
- exact: h5_boundaries.
- by apply: house2_rooms => [i k|]; [rewrite mxE|exact: sum0_lt].
by move=> doc; case/eqP: T0; exact: run5_zero Hs doc.
Qed.

(* C11: air between rooms destroys equilibrium *)
Definition quiet0 (T : Q) : step_data Q 2 4 := {|
  theta_o := T; x_o := 0; v_mec_local := 0; q_gen := 0; x_gen := 0; n_hum := 0; ac_demand := 0;
  q_trs_sol := 0; theta_o_sol := const_mx T |}.
Definition rest0 (T : Q) : conditions Q 2 4 1 := {|
  operation_mode := fun _ => STOP_CLOSE; theta_r := const_mx T; theta_mrt_hum := const_mx T;
  x_r := const_mx (6%:R / 1000%:R); theta_dsh_a := 0;
  theta_dsh_t := const_mx ((1 - 1 / 10%:R) / 2%:R / (1 - 1 / 2%:R) * T);
  q_srf := 0; theta_frt := const_mx T; x_frt := const_mx (6%:R / 1000%:R); theta_ei := const_mx T |}.
Local Notation h11 V := (house2 V (1 / 50%:R) (1 / 10%:R) (fun _ => 4%:R)).

Lemma half : 1 - 1 / 2%:R = 1 / 2%:R :> Q.
Proof.
apply/eqP; rewrite subr_eq -mulrDl eq_sym -[1 + 1]/(2%:R) divff //.
by rewrite pnatr_eq0.
Qed.

Lemma h11_steady (V : 'M[Q]_2) : steady_walls (h11 V).
Proof.
have n2 : 2%:R != 0 :> Q by rewrite pnatr_eq0.
split=> [j m|j|j] /=.
- by rewrite mxE mul1r invr_eq1 pnatr_eq1.
- rewrite big_ord_recl big_ord0 addr0 !mxE half [1 / 2%:R]mul1r invrK divfK //.
  by rewrite addrC subrK.
by rewrite mxE; case: j => [[|[|[|[|//]]]]] hj /=; rewrite ?addr0 ?add0r.
Qed.

Lemma rest0_at_rest (V : 'M[Q]_2) (T : Q) : at_rest T (h11 V) (rest0 T).
Proof. by split=> *; rewrite /= !mxE. Qed.

Lemma quiet0_quiet (T : Q) : quiet T (quiet0 T).
Proof. by split=> *; rewrite /= ?mxE. Qed.

Lemma h11_boundaries (V : 'M[Q]_2) : physical_boundaries (h11 V).
Proof.
have [t0 t1] := tenth; apply: house2_boundaries => //; first by rewrite divr_ge0 ?ler01 ?ler0n.
by move=> j; rewrite ltr0n.
Qed.

Lemma h11_step (V : 'M[Q]_2) (T : Q) : (forall i k, 0 <= V i k) -> (forall i, \sum_k V i k < 1 / 30%:R) -> exists c' o,
  step (@ot2 Q) (@infil2 Q) (@x_sat2 Q) 900%:R (h11 V) (quiet0 T) (rest0 T) = Some (c', o)
  /\ equipment_off c'.
Proof.
move=> v0 v1; have [t0 t1] := tenth.
have [c' [o Hs]] : exists c' o,
  step (@ot2 Q) (@infil2 Q) (@x_sat2 Q) 900%:R (h11 V) (quiet0 T) (rest0 T) = Some (c', o).
  by apply: house2_step => // *; rewrite ?ltr0n // divr_ge0 ?ler01 ?ler0n.
exists c', o; split=> // i; have [q [Hq Ht]] := stepP Hs.
case: (run_tickP Ht) => md lo up ? ? v_out ? ? xot kc kr ? ? ? ? ? ? ? ?.
by move=> otE -> *; rewrite (ot2_off otE).
Qed.

Lemma rest_fails (T : Q) : T != 0 -> exists c' o,
  [/\ [/\ physical_boundaries (h11 v10), physical_rooms 900%:R (h11 v10) & steady_walls (h11 v10)],
      at_rest T (h11 v10) (rest0 T), quiet T (quiet0 T),
      step (@ot2 Q) (@infil2 Q) (@x_sat2 Q) 900%:R (h11 v10) (quiet0 T) (rest0 T) = Some (c', o)
      /\ equipment_off c' &
      ~ at_rest T (h11 v10) c'].
Proof.
move=> T0; have [c' [o [Hs off]]] := h11_step T v10_ge0 v10_sum; exists c', o; split=> //.
- split; [exact: h11_boundaries|exact: (house2_rooms _ _ _ v10_ge0 v10_sum)|exact: h11_steady].
- exact: rest0_at_rest.
- exact: quiet0_quiet.
move=> [r1 r2 r3 r4 _ _].
have [q [Hq Ht]] := stepP Hs.
have [l1 l2] : o_l_cs o = 0 /\ o_l_rs o = 0.
  by apply: (tick_all_off Ht) => // i; rewrite mxE.
have hum : o_q_hum o = 0.
  case: (run_tickP Ht) => md lo up ? ? v_out ? ? xot kc kr ? ? ? ? ? ? ? ?.
  by move=> _ _ _ -> *; apply/matrixP => i j; rewrite !mxE mulr0.
have srf j : o_theta_s o j 0 = T.
  have := r4 j; rewrite (q_srfE Ht) r3 /= !mxE => /eqP; rewrite mulf_eq0 -natrD pnatr_eq0 orbF subr_eq0.
  by move/eqP.
have := code_heat_balance Hs (i := 0); rewrite /= !mxE => /(_ fr_ne0).
rewrite /heat_stored /heat_gain /heat_from_surfaces /heat_from_outside /heat_from_inside
  /heat_from_furniture /heat_from_equipment /heat_from_rooms /=.
rewrite l1 l2 hum !r1 r2 !mxE subrr.
rewrite big1 => [|j _]; last by rewrite srf subrr mulr0.
rewrite !(subrr, mulr0, addr0, mul0r, sub0r) => /esym/eqP; rewrite oppr_eq0 mulf_eq0.
have ca : cap_air Q != 0 by rewrite gt_eqF // mulr_gt0 ?(c_air_gt0 Q) ?(rho_air_gt0 Q).
rewrite (negbTE ca) /= !big_ord_recl big_ord0 !r1 !mxE /= mul0r add0r addr0 mulf_eq0 (negbTE T0) orbF.
by rewrite mul1r invr_eq0 pnatr_eq0.
Qed.

End TickRefute.
