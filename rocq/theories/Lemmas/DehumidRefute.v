(* Witness against C10 in houses with air paths: a cooled room that receives its moisture from another
   cooled room is humidified by its own coil. *)
From Coq Require Import ZArith.
From mathcomp Require Import all_ssreflect ssralg ssrnum zmodp matrix.
From Coq Require Import Ring Field.
From Verif Require Import Model.OperationMode Model.Numpy Model.NextCondition Model.Dec Model.PreCalc
  Model.HeatExchanger Model.Tick Model.Step Model.OtTarget Model.CoreStep Spec.Physical Spec.Natural Spec.StepEq Spec.Coil.
From Verif Require Import Lemmas.FieldTac Lemmas.NumpyL Lemmas.DecL Lemmas.NextConditionL Lemmas.TickL
  Lemmas.TickBalance Lemmas.MMatrix Lemmas.TickTotal Lemmas.TickMoist Lemmas.TickNatural Lemmas.StepL
  Lemmas.StepProps Lemmas.CoreStepL Lemmas.OtTargetL Lemmas.DehumidL.
From Verif Require Import Examples.House2 Lemmas.TickRefute.
Set Implicit Arguments. Unset Strict Implicit. Unset Printing Implicit Defensive.
Import Order.TTheory GRing.Theory Num.Theory.
Local Open Scope ring_scope.

Section DehumidRefute.
Variable F : realFieldType.
Add Field Ffield : (ffield_theory F).
Ltac fring := ffold F; ring.
Ltac ffield := ffold F; field.

(* air goes from room 1 to room 0; the walls hold their temperature *)
Definition hd : house F 2 4 1 := house2 (@v10 F) 0 0 (fun _ => 4%:R).

(* heat g in the rooms, moisture G in room 1 only, dry and cold outside *)
Definition sd (g : 'cV[F]_2) (G : F) : step_data F 2 4 := {|
  theta_o := 0; x_o := 0; v_mec_local := 0; q_gen := g; x_gen := \col_i (if i == 1 then G else 0); n_hum := 0;
  ac_demand := const_mx 1; q_trs_sol := 0; theta_o_sol := 0 |}.

Definition cd (T : F) : conditions F 2 4 1 := {|
  operation_mode := fun _ => COOLING; theta_r := const_mx T; theta_mrt_hum := const_mx T;
  x_r := 0; theta_dsh_a := 0; theta_dsh_t := 0; q_srf := 0; theta_frt := 0; x_frt := 0; theta_ei := 0 |}.

Definition vo : F := 1 / 1000%:R + (1 / 100%:R + 0) + 0.
Definition phi : F := 900%:R * 10%:R / (1000%:R + 900%:R * 10%:R).
Definition K : F := 30%:R * cap_air F / 900%:R + (4%:R * 12%:R + 4%:R * 12%:R) + cap_air F * vo + 10%:R * (1 - phi).
Definition B (T : F) : F := 30%:R * cap_air F / 900%:R * T.

Section Run.
Variables (ot : ot_fun F 2) (x_sat : F -> F) (g : 'cV[F]_2) (G T : F).
Variables (c' : conditions F 2 4 1) (o : outputs F 2 4).
Hypothesis Hs : step ot (@infil2 F) x_sat 900%:R hd (sd g G) (cd T) = Some (c', o).
Hypothesis closed : forall i, operation_mode c' i <> STOP_OPEN.

Lemma d_dsh j m : theta_dsh_a c' j m = 0 /\ theta_dsh_t c' j m = 0.
Proof.
have [-> ->] := step_response_terms Hs j m; rewrite /= !mxE.
rewrite !(mulr0, mul0r, addr0, add0r); split=> //.
by case: (ex_k_ei _ _) => [[k e]|]; rewrite ?mxE !(mulr0, mul0r, addr0, add0r).
Qed.

Lemma d_srf j : o_theta_s o j 0 = 0.
Proof.
have [q [Hq Ht]] := stepP Hs.
have h0 : 4%:R + 5%:R != 0 :> F by rewrite -natrD pnatr_eq0.
have := surf_response_seen Hq Ht (j := j); rewrite /= !mxE pnatr_eq0 => -> //.
by rewrite !mul0r !add0r big1 // => m _; have [-> ->] := d_dsh j m; rewrite addr0.
Qed.

Lemma d_mrt i : theta_mrt_hum c' i 0 = 0.
Proof. by rewrite (step_mrt Hs) big1 // => j _; rewrite d_srf mulr0. Qed.

Lemma d_hum i : o_q_hum o i 0 = 0 /\ o_x_hum o i 0 = 0.
Proof. by have [-> ->] := step_hum Hs i; rewrite !mxE !mulr0. Qed.

Lemma d_ntrl i : o_v_ntrl o i 0 = 0.
Proof. by have [_ ->] := step_windows Hs i. Qed.

Lemma d_leak i : o_v_leak o i 0 = 1 / 1000%:R.
Proof.
have [q [Hq Ht]] := stepP Hs.
case: (run_tickP Ht) => ? ? ? ? ? ? ? ? ? ? ? ? ? ? ? ? ? ? ?.
by move=> _ _ _ _ _ -> *; rewrite /infil2 mxE.
Qed.

Lemma d_frt i : theta_frt c' i 0 = phi * theta_r c' i 0.
Proof.
have [q [Hq Ht]] := stepP Hs.
case: (run_tickP Ht) => ? ? ? ? ? ? ? ? ? ? ? ? ? ? ? ? ? ? ?.
move=> _ _ _ _ _ _ _ _ _ _ _ _ _ _ _ _ _ _ _ -> *; rewrite /q_sol_frt /phi !mxE /= ?mxE.
by rewrite !(mulr0, mul0r, add0r, addr0) mulrAC.
Qed.

Lemma d_heat (i : 'I_2) : o_l_rs o i 0 = 0 ->
  K * theta_r c' i 0 + cap_air F * (\sum_k v10 F i k * theta_r c' k 0) = B T + g i 0 + o_l_cs o i 0.
Proof.
move=> lr; have := code_heat_balance Hs (i := i); rewrite /= !mxE => /(_ (fr_ne0 F)).
rewrite /heat_stored /heat_gain /heat_from_surfaces /heat_from_outside /heat_from_inside
  /heat_from_furniture /heat_from_equipment /heat_from_rooms /air_from_outside.
have [-> _] := d_hum i; rewrite d_ntrl d_leak d_frt lr.
have -> : \sum_(j < 4 | conn hd j == i) h_c hd j 0 * a_srf hd j 0 * (o_theta_s o j 0 - theta_r c' i 0)
  = - ((4%:R * 12%:R + 4%:R * 12%:R) * theta_r c' i 0).
  rewrite big_mkcond !big_ord_recl big_ord0 !d_srf /= !mxE.
  by case: i {lr} => [[|[|//]]] hi /=; fring.
rewrite /= !mxE -/vo /K /B; move: (\sum_k _) (cap_air F) vo phi (theta_r c' i 0) (o_l_cs o i 0) => S ca v f t l.
move: (900%:R^-1 : F) (30%:R : F) (10%:R : F) (4%:R * 12%:R + 4%:R * 12%:R : F) => d n t10 w E.
have -> : (n * ca * d + w + ca * v + t10 * (1 - f)) * t + ca * S
  = n * ca * (t - T) * d + n * ca * d * T - (- (w * t)) - ca * v * (0 - t) - t10 * (f * t - t) + ca * S by fring.
by rewrite E; fring.
Qed.

End Run.

Lemma cap_gt0 : 0 < cap_air F.
Proof. by rewrite mulr_gt0 ?(c_air_gt0 F) ?(rho_air_gt0 F). Qed.

Lemma vo_ge0 : 0 <= vo.
Proof. by rewrite /vo !addr_ge0 // divr_ge0 ?ler01 ?ler0n. Qed.

Lemma phi_le1 : phi <= 1.
Proof. by rewrite /phi -natrM -natrD ler_pdivr_mulr ?ltr0n // mul1r ler_nat. Qed.

Lemma thirtieth : 30%:R / 900%:R = 1 / 60%:R + 1 / 60%:R :> F.
Proof.
rewrite -mulrDl -[1 + 1 : F]/(2%:R); apply/eqP; rewrite eqr_div ?pnatr_eq0 //.
by rewrite -!natrM eqr_nat.
Qed.

Lemma K_gt : cap_air F * (1 / 60%:R) < K.
Proof.
have s0 : 0 < 1 / 60%:R :> F by rewrite divr_gt0 ?ltr01 ?ltr0n.
rewrite /K; have -> : 30%:R * cap_air F / 900%:R = cap_air F * (1 / 60%:R) + cap_air F * (1 / 60%:R).
  by rewrite -mulrDr -thirtieth [RHS]mulrCA [RHS]mulrA.
rewrite -!addrA ltr_addl; apply: ltr_paddr; last exact: mulr_gt0 cap_gt0 s0.
do 2! (apply: addr_ge0; first by rewrite mulr_ge0 ?ler0n).
apply: addr_ge0; first by rewrite mulr_ge0 ?vo_ge0 ?(ltW cap_gt0).
by rewrite mulr_ge0 ?ler0n // subr_ge0 phi_le1.
Qed.

Lemma K_gt0 : 0 < K.
Proof. by apply: lt_trans K_gt; rewrite mulr_gt0 ?cap_gt0 ?divr_gt0 ?ltr01 ?ltr0n. Qed.

Lemma sum_v10 (y : 'cV[F]_2) :
  \sum_k v10 F 0 k * y k 0 = 1 / 60%:R * y 1 0 /\ \sum_k v10 F 1 k * y k 0 = 0.
Proof.
split; rewrite !big_ord_recl big_ord0 !mxE /= !mul0r ?add0r ?addr0 //.
by congr (_ * y _ _); apply: val_inj.
Qed.

(* humidities *)
Lemma drier_than_coil (D r A e x0 x1 : F) : 0 < r -> r < D -> 0 < A -> 0 < e ->
  D * x1 = D * (D * e / r) - A * (x1 - e) -> D * x0 - r * x1 = - (A * (x0 - e)) -> x0 < e.
Proof.
move=> r0 rD A0 e0 E1 E0; have D0 : 0 < D by exact: lt_trans rD.
have DA : 0 < D + A by exact: addr_gt0.
set y := D * e / r in E1; have ry : r * y = D * e by rewrite /y mulrC divfK // gt_eqF.
have ey : e < y by rewrite /y mulrAC ltr_pmull // ltr_pdivl_mulr // mul1r.
have x1y : x1 < y.
  rewrite -subr_gt0 -(pmulr_rgt0 _ DA).
  have -> : (D + A) * (y - x1) = A * (y - e).
    have -> : (D + A) * (y - x1) = D * y - A * (x1 - e) - D * x1 + A * (y - e) by fring.
    by rewrite -E1 subrr add0r.
  by rewrite mulr_gt0 // subr_gt0.
rewrite -subr_gt0 -(pmulr_rgt0 _ DA).
have -> : (D + A) * (e - x0) = r * (y - x1).
  rewrite [RHS]mulrBr ry; have -> : r * x1 = D * x0 + A * (x0 - e) by rewrite -[A * _]opprK -E0; fring.
  by fring.
by rewrite mulr_gt0 // subr_gt0.
Qed.

Definition Dx : F := rho_air F * (30%:R / 900%:R + vo) + 16%:R * 1 / (16%:R + 900%:R * 1).
Definition rx : F := rho_air F * (1 / 60%:R).

Lemma rx_gt0 : 0 < rx.
Proof. by rewrite mulr_gt0 ?rho_air_gt0 ?divr_gt0 ?ltr01 ?ltr0n. Qed.

Lemma rx_lt : rx < Dx.
Proof.
have -> : Dx = rx + (rx + (rho_air F * vo + 16%:R * 1 / (16%:R + 900%:R * 1))).
  rewrite /Dx /rx thirtieth; move: (_ / (16%:R + _)) (1 / 60%:R) vo (rho_air F) => a b v r; fring.
rewrite ltr_addl; apply: ltr_paddr rx_gt0; apply: addr_ge0.
  by rewrite mulr_ge0 ?vo_ge0 ?(ltW (rho_air_gt0 F)).
by rewrite !mulr1 divr_ge0 ?ler0n // addr_ge0 ?ler0n.
Qed.

(* the data of the witness *)
Definition Lam : F := 1000%:R.
Definition target (e0 : F) : F :=
  get_theta_ot_target e0 (clo_light F) (get_p_v_r (0 : F)) (h_hum_c F + h_hum_r F) (dec F 5%Z 1).
Definition start (e0 : F) : F :=
  get_theta_ot_target e0 (clo_light F) (get_p_v_r (0 : F)) (h_hum_r F + h_hum_c F) 0.
Definition air (e0 : F) : F := target e0 * (h_hum_c F + h_hum_r F) / h_hum_c F.
Definition gd (e0 : F) : 'cV[F]_2 := \col_i
  (K * air e0 - B (start e0) + Lam + (if i == 0 then cap_air F * (1 / 60%:R * air e0) else 0)).
Definition flow_d : F := (6%:R + (11%:R - 6%:R) / (3000%:R - 500%:R) * (Lam - 500%:R)) / 60%:R.
Definition ed (x_sat : F -> F) (e0 : F) : F :=
  x_sat (air e0 - Lam / (c_air F * rho_air F * flow_d * (1 - bypass F))).
Definition Gd (x_sat : F -> F) (e0 : F) : F := Dx * (Dx * ed x_sat e0 / rx).

Lemma hc_gt0 : 0 < h_hum_c F.
Proof. exact: lt_trans (h_hum_r_gt0 F) (h_hum_r_lt_c F). Qed.

Lemma hd_boundaries : physical_boundaries hd.
Proof. by apply: house2_boundaries => //= *; rewrite ?ler01 ?ltr0n. Qed.
Lemma hd_rooms : physical_rooms 900%:R hd.
Proof. exact: (house2_rooms 0 0 (fun _ => 4%:R) (@v10_ge0 F) (@v10_sum F)). Qed.

Section Main.
Variables (e0 : F) (x_sat : F -> F).
Hypothesis e0_ge0 : 0 <= e0.
Hypothesis x_sat_gt0 : forall t, 0 < x_sat t.
Local Notation s := (sd (gd e0) (Gd x_sat e0)).
Local Notation c := (cd (start e0)).

Lemma d_step : exists c' o, core_step e0 (@infil2 F) x_sat 900%:R hd s c = Some (c', o).
Proof.
have [c' [o [H _]]] : exists c' o, step (get_ot_target_and_h_hum e0 (ni := 2)) (@infil2 F) x_sat 900%:R hd s c = Some (c', o)
    /\ forall i, operation_mode c' i <> HEATING_AND_COOLING.
  apply: step_completes => //=.
  - by move=> i; rewrite mxE.
  - by move=> i; rewrite mxE.
  - exact: hd_boundaries.
  - exact: hd_rooms.
  - exact: house2_air.
  - exact: house2_hum.
  - by move=> tr to i; rewrite mxE divr_ge0 ?ler01 ?ler0n.
  - by left.
by exists c', o.
Qed.

Lemma d_ot : exists hc hr md lo up,
  get_ot_target_and_h_hum e0 (ni := 2) (x_r c) (operation_mode c) (theta_r c) (theta_mrt_hum c) (ac_demand s)
    = Some (hc, hr, md, lo, up) /\
  forall i, [/\ md i = COOLING, up i 0 = target e0, hc i 0 = h_hum_c F & hr i 0 = h_hum_r F].
Proof.
have one i : ot_target_pmv e0 (x_r c i 0) (operation_mode c i) (theta_r c i 0) (theta_mrt_hum c i 0) (ac_demand s i 0)
   = Some (COOLING, target e0).
  rewrite /ot_target_pmv /= !mxE /get_operation_mode ltr01.
  have pmvE : get_h_hum_and_pmv e0 (get_p_v_r (0 : F)) (start e0) (start e0) (clo_light F) = 0.
    have d0 : 0 < h_hum_r F + h_hum_c F by rewrite addr_gt0 ?h_hum_r_gt0 ?hc_gt0.
    rewrite /get_h_hum_and_pmv; have -> : (h_hum_r F * start e0 + h_hum_c F * start e0) / (h_hum_r F + h_hum_c F) = start e0.
      by rewrite -mulrDl mulrC mulKf // gt_eqF.
    by apply: pmv_at_target => //; exact: dec_ge0.
  by rewrite pmvE (_ : - _ <= 0 = true) ?oppr_le0 ?dec_ge0.
rewrite /get_ot_target_and_h_hum; case: ifP => [_|/forallP []]; last by move=> i; rewrite one.
do 5 eexists; split; first by reflexivity.
move=> i; split; last by rewrite mxE.
- by rewrite one.
- by rewrite mxE one.
by rewrite mxE.
Qed.

Lemma d_refute : exists c' o,
  [/\ core_step e0 (@infil2 F) x_sat 900%:R hd s c = Some (c', o), 1 / 1000%:R < removed o 0,
      0 < o_l_cl o 0 0 & x_r c' 0 0 < coil_humidity x_sat hd c' o 0].
Proof.
have [c' [o Hs]] := d_step; exists c', o.
have cap0 i : 0 <= cap_h hd i 0 by rewrite mxE.
have cap0' i : 0 <= cap_c hd i 0 by rewrite mxE.
have [c0 [o0 [hc [hr [md [lo [up [[Hs0 [l0 r0]] [otE mdE] ld]]]]]]]] := step_load Hs cap0 cap0'.
have [hc2 [hr2 [md2 [lo2 [up2 [otE2 cool]]]]]] := d_ot.
move: otE; rewrite otE2 => -[_ _ e1 _ e2]; rewrite -e1 in mdE ld; rewrite -e2 in ld.
have closed i : operation_mode c' i <> STOP_OPEN by rewrite mdE; have [-> _ _ _] := cool i.
have hs_gt0 : 0 < h_hum_c F + h_hum_r F by rewrite addr_gt0 ?h_hum_r_gt0 ?hc_gt0.
have hsn : h_hum_c F + h_hum_r F != 0 by rewrite gt_eqF.
have hcn : h_hum_c F != 0 by rewrite gt_eqF ?hc_gt0.
have airE : h_hum_c F * air e0 / (h_hum_c F + h_hum_r F) = target e0.
  rewrite /air; move: hcn hsn; move: (h_hum_c F) (h_hum_r F) (target e0) => a b t /eqP a0 /eqP b0.
  by ffield; split.
have op (t : F) : h_hum_c F * t / (h_hum_c F + h_hum_r F) - target e0 = (t - air e0) * (h_hum_c F / (h_hum_c F + h_hum_r F)).
  by rewrite -airE -mulrBl -mulrBr; fring.
have k0 : 0 < h_hum_c F / (h_hum_c F + h_hum_r F) by rewrite divr_gt0 ?hc_gt0.
(* without equipment both rooms are too warm *)
have [closed0 hE0] : (forall i, operation_mode c0 i <> STOP_OPEN) /\
    forall i, o_h_hum_c o0 i 0 = h_hum_c F /\ o_h_hum_r o0 i 0 = h_hum_r F.
  have [q [Hq Ht]] := stepP Hs0; case: (run_tickP Ht) => ? ? ? ? ? ? ? ? ? ? ? ? ? ? ? ? ? ? ?.
  rewrite {1}/ot_off otE2 => -[<- <- <- _ _] -> *.
  by split=> i; have [m1 _ e3 e4] := cool i; rewrite ?m1 ?e3 ?e4.
have ot0 i : o_theta_ot o0 i 0 = h_hum_c F * theta_r c0 i 0 / (h_hum_c F + h_hum_r F).
  have [h1 h2] := hE0 i; have := step_operative Hs0 (i := i); rewrite h1 h2 => /(_ hsn) ->.
  by rewrite h1 h2 (d_mrt Hs0) mulr0 addr0.
have Kn : K != 0 by rewrite gt_eqF ?K_gt0.
have th0_1 : K * (theta_r c0 1 0 - air e0) = Lam.
  have := d_heat Hs0 closed0 (i := 1); rewrite l0 r0 (proj2 (sum_v10 _)) !mxE /= => /(_ erefl) E.
  by rewrite mulrBr -[K * theta_r _ _ _]addr0 -(mulr0 (cap_air F)) E; fring.
have th0_0 : K * (theta_r c0 0 0 - air e0) = Lam - cap_air F * (1 / 60%:R) * (theta_r c0 1 0 - air e0).
  have := d_heat Hs0 closed0 (i := 0); rewrite l0 r0 (proj1 (sum_v10 _)) !mxE /= => /(_ erefl) E.
  rewrite mulrBr -[K * theta_r _ _ _](addrK (cap_air F * (1 / 60%:R * theta_r c0 1 0))) E.
  by move: (1 / 60%:R) (K * air e0) (cap_air F) (B _) Lam => a b d e f; fring.
have Lam_gt0 : 0 < Lam by rewrite ltr0n.
have w1 : 0 < theta_r c0 1 0 - air e0 by rewrite -(pmulr_rgt0 _ K_gt0) th0_1.
have w0 : 0 < theta_r c0 0 0 - air e0.
  by rewrite -(pmulr_rgt0 _ K_gt0) th0_0 -th0_1 -mulrBl mulr_gt0 // subr_gt0 K_gt.
have warm i : target e0 < o_theta_ot o0 i 0.
  rewrite -subr_gt0 ot0 op mulr_gt0 //.
  by case: i => [[|[|//]]] hi; [have -> : Ordinal hi = 0 by apply: val_inj|have -> : Ordinal hi = 1 by apply: val_inj].
(* with equipment both rooms are at the target *)
have [otT lr0] : (forall i, o_theta_ot o i 0 = target e0) /\ forall i, o_l_rs o i 0 = 0.
  split=> i; have [m1 u1 _ _] := cool i; have := ld i; cbv zeta; rewrite m1 u1 => -[_ A _ [_ C _ _]].
    by rewrite A //= mxE mul1r subrr mul0r addr0.
  by apply: C.
have th i : theta_r c' i 0 = air e0.
  have [h1 h2] := core_h Hs i; have := step_operative Hs (i := i); rewrite h1 h2 => /(_ hsn).
  rewrite /operative_is_mean h1 h2 (d_mrt Hs) mulr0 addr0 otT => /esym/eqP; rewrite -subr_eq0 op mulf_eq0.
  by rewrite (gt_eqF k0) orbF subr_eq0 => /eqP.
have lE i : o_l_cs o i 0 = - Lam.
  have E := d_heat Hs closed (lr0 i); rewrite th in E.
  have {E} : o_l_cs o i 0 = K * air e0 + cap_air F * (\sum_k v10 F i k * theta_r c' k 0) - B (start e0) - gd e0 i 0.
    by rewrite E; fring.
  have [s0 s1] := sum_v10 (theta_r c').
  case: i => [[|[|//]]] hi; [have -> : Ordinal hi = 0 by apply: val_inj|have -> : Ordinal hi = 1 by apply: val_inj].
    by rewrite s0 th !mxE /= => ->; move: (1 / 60%:R) (K * air e0) (cap_air F) (B _) Lam => a b d e f; fring.
  by rewrite s1 !mxE /= => ->; move: (K * air e0) (cap_air F) (B _) Lam => b d e f; fring.
have rm i : removed o i = Lam by rewrite /removed lE opprK.
have fl i : airflow hd o i = flow_d by rewrite /airflow rm /= !mxE.
have ex i : coil_humidity x_sat hd c' o i = ed x_sat e0 by rewrite /coil_humidity rm fl th.
have small : 1 / 1000%:R < Lam.
  by apply: (@le_lt_trans _ _ 1); rewrite ?ltr1n // ler_pdivr_mulr ?ltr0n // mul1r ler1n.
have [x0 [xn xf lc]] := step_latent_cases Hs.
have lw : l_wtr F != 0 by rewrite gt_eqF ?l_wtr_gt0.
set e := ed x_sat e0 in ex; have e_gt0 : 0 < e by exact: x_sat_gt0.
set A := rho_air F * ((1 - bypass F) * flow_d).
have A_gt0 : 0 < A.
  rewrite mulr_gt0 ?rho_air_gt0 // mulr_gt0 ?(bf_lt1 F) // divr_gt0 ?ltr0n //.
  apply: addr_gt0; rewrite ?ltr0n // mulr_gt0 // ?subr_gt0 ?ltr_nat // divr_gt0 // subr_gt0 ltr_nat //.
have rowx (y : 'cV[F]_2) b : (forall i, let vo' := o_v_leak o i 0 + (v_vent_ex hd i 0 + v_mec_local s i 0) + o_v_ntrl o i 0 in
        let g := c_lh hd i 0 * g_lh hd i 0 / (c_lh hd i 0 + 900%:R * g_lh hd i 0) in
        (rho_air F * (v_room hd i 0 / 900%:R + vo') + g) * y i 0 - rho_air F * (\sum_k v_int hd i k * y k 0)
        = rho_air F * (v_room hd i 0 / 900%:R * x_r c i 0 + vo' * x_o s) + g * x_frt c i 0 + x_gen s i 0 + o_x_hum o i 0 + b i) ->
   Dx * y 1 0 = Gd x_sat e0 + b 1 /\ Dx * y 0 0 - rx * y 1 0 = b 0.
  have [s0 s1] := sum_v10 y => H; split.
    have := H 1; cbv zeta; rewrite (d_leak Hs) (d_ntrl Hs closed) (proj2 (d_hum Hs _)) /= !mxE /= s1 -/vo -/Dx.
    by rewrite !(mulr0, add0r, addr0, subr0).
  have := H 0; cbv zeta; rewrite (d_leak Hs) (d_ntrl Hs closed) (proj2 (d_hum Hs _)) /= !mxE /= s0 -/vo -/Dx.
  by rewrite !(mulr0, add0r, addr0, subr0) mulrA.
have [n1 n0] : Dx * x0 1 0 = Gd x_sat e0 + 0 /\ Dx * x0 0 0 - rx * x0 1 0 = 0.
  by apply: (rowx x0 (fun _ => 0)) => i; cbv beta zeta; rewrite addr0; exact: xn.
have [f1 f0] := rowx (x_r c') (fun i => o_l_cl o i 0 / l_wtr F) xf.
have Dx_gt0 : 0 < Dx by exact: lt_trans rx_gt0 rx_lt.
have x01 : x0 1 0 = Dx * e / rx.
  by move: n1; rewrite addr0 /Gd -/e => /(mulfI (lt0r_neq0 Dx_gt0)).
have x00 : x0 0 0 = e.
  have /(mulfI (lt0r_neq0 Dx_gt0)) // : Dx * x0 0 0 = Dx * e.
  have /eqP := n0; rewrite subr_eq0 => /eqP ->; rewrite x01 mulrC divfK //.
  by rewrite gt_eqF ?rx_gt0.
have lcE i : e <= x0 i 0 -> o_l_cl o i 0 = - (l_wtr F * A * (x_r c' i 0 - e)).
  by move=> ei; rewrite lc rm small ex ei fl.
have l0E : o_l_cl o 0 0 = - (l_wtr F * A * (x_r c' 0 0 - e)) by apply: lcE; rewrite x00.
have l1E : o_l_cl o 1 0 = - (l_wtr F * A * (x_r c' 1 0 - e)).
  apply: lcE; rewrite x01 mulrAC ler_pmull // ler_pdivl_mulr ?rx_gt0 // mul1r ltW //; exact: rx_lt.
have lat (y : F) : - (l_wtr F * A * y) / l_wtr F = - (A * y).
  by move: lw; move: (l_wtr F) => l /eqP lw; ffield.
rewrite l0E lat in f0; rewrite l1E lat /Gd -/e in f1.
have lt := drier_than_coil rx_gt0 rx_lt A_gt0 e_gt0 f1 f0.
split=> //; rewrite ?rm ?ex //.
rewrite l0E oppr_gt0 pmulr_rlt0 ?subr_lt0 //.
by apply: mulr_gt0 A_gt0; exact: l_wtr_gt0.
Qed.

Lemma coil_humidifies :
  exists (infil : infil_fun F 2) (h : house F 2 4 1) (s : step_data F 2 4) (c c' : conditions F 2 4 1) (o : outputs F 2 4),
  [/\ core_step e0 infil x_sat 900%:R h s c = Some (c', o),
      [/\ physical_boundaries h, physical_rooms 900%:R h, physical_air h s, physical_hum h & forall tr to i, 0 <= infil tr to i 0],
      1 / 1000%:R < removed o 0, 0 < o_l_cl o 0 0 & x_r c' 0 0 < coil_humidity x_sat h c' o 0].
Proof.
have [c' [o [H1 H2 H3 H4]]] := d_refute; exists (@infil2 F), hd, s, c, c', o; split=> //; split.
- exact: hd_boundaries.
- exact: hd_rooms.
- exact: house2_air.
- exact: house2_hum.
by move=> tr to i; rewrite mxE divr_ge0 ?ler01 ?ler0n.
Qed.

End Main.
End DehumidRefute.
