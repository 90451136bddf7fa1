(* The two-room house of House2 in a steady state with heat flowing: 132.422706 W in either room, 5 degrees outside, no heating. *)
From Coq Require Import ZArith.
From mathcomp Require Import all_ssreflect ssralg ssrnum zmodp matrix.
From Verif Require Import Model.Dec Model.OperationMode Model.Numpy Model.NextCondition Model.PreCalc Model.Tick Model.Step
  Model.OtTarget Model.CoreStep Spec.Physical Spec.StepEq Spec.Equil Spec.Steady.
From Verif Require Import Lemmas.DecL Lemmas.NumpyL Lemmas.TickL Lemmas.TickBalance Lemmas.TickTotal Lemmas.TickEquil
  Lemmas.StepL Lemmas.StepProps Lemmas.CoreStepL Lemmas.SteadyL Examples.House2 Lemmas.TickRefute Examples.House2Ex.
Set Implicit Arguments. Unset Strict Implicit. Unset Printing Implicit Defensive.
Import Order.TTheory GRing.Theory Num.Theory.
Local Open Scope ring_scope.

Section SteadyEx.
Variable F : realFieldType.
Local Notation d := (dec F).

Definition gain0 : step_data F 2 4 := {|
  theta_o := d 5 0; x_o := 0; v_mec_local := 0; q_gen := const_mx (d 132422706 6); x_gen := 0; n_hum := 0; ac_demand := 0;
  q_trs_sol := 0; theta_o_sol := const_mx (d 5 0) |}.

(* outer walls have the numbers 0 and 1 *)
Definition outer (j : 'I_4) (x y : F) : F := if (j < 2)%N then x else y.
Definition warm0 : conditions F 2 4 1 := {|
  operation_mode := fun _ => STOP_CLOSE; theta_r := const_mx (d 6841 3); theta_mrt_hum := const_mx (d 6 0);
  x_r := const_mx (d 6 3); theta_dsh_a := \matrix_(j, m) outer j (d 36 3) 0;
  theta_dsh_t := \matrix_(j, m) outer j (d 45 1) (d 55944 4);
  q_srf := \col_j outer j (d 9 0) 0; theta_frt := const_mx (d 6841 3); x_frt := const_mx (d 6 3);
  theta_ei := const_mx (d 6216 3) |}.
Definition warm_s : 'cV[F]_4 := \col_j outer j (d 5216 3) (d 6216 3).

Lemma dec_div a k b l c m : (c * b * 10 ^ Z.of_nat k =? a * 10 ^ Z.of_nat (m + l))%Z = true -> (b =? 0)%Z = false -> d a k / d b l = d c m.
Proof.
move=> E b0; have B0 : d b l != 0.
  rewrite decE mulf_neq0 ?invr_eq0 //; last by rewrite gt_eqF // z2f_gt0 //; apply: Z.pow_pos_nonneg => //; exact: Zle_0_nat.
  move/Z.eqb_neq: b0 => b0; case: b b0 E => // p _ _; first by rewrite gt_eqF // z2f_gt0.
  by rewrite -[Z.neg p]/(- Z.pos p)%Z z2f_opp oppr_eq0 gt_eqF // z2f_gt0.
by rewrite -[d c m](mulfK B0) dec_mul; congr (_ / _); apply: dec_eq; rewrite Z.eqb_sym.
Qed.

Lemma one_dec : 1 = d 1 0. Proof. by rewrite -[1]/(1%:R) dec_nat. Qed.
Lemma zero_dec : 0 = d 0 0. Proof. by rewrite -[0]/(0%:R) dec_nat. Qed.
Lemma pa_dec : 1 / 50%:R = d 2 2. Proof. by rewrite dec_nat one_dec (@dec_div _ _ _ _ 2 2). Qed.
Lemma half_dec : 1 / 2%:R = d 5 1. Proof. by rewrite dec_nat one_dec (@dec_div _ _ _ _ 5 1). Qed.
Lemma tenth_dec : 1 / 10%:R = d 1 1. Proof. by rewrite dec_nat one_dec (@dec_div _ _ _ _ 1 1). Qed.
Lemma a1_dec : 1 / 500%:R = d 2 3. Proof. by rewrite dec_nat one_dec (@dec_div _ _ _ _ 2 3). Qed.
Lemma t1_dec : (1 - 1 / 10%:R) / 2%:R = d 45 2.
Proof. by rewrite tenth_dec dec_nat one_dec dec_opp dec_add (@dec_div _ _ _ _ 45 2). Qed.
Lemma cap_dec : cap_air F = d 1206 0.
Proof.
by rewrite /cap_air /c_air /rho_air !dec_nat (@dec_div _ _ _ _ 12 1) // dec_mul; apply: dec_eq.
Qed.

Lemma res_dec j : resistance (hx F) j = d 24 3.
Proof.
rewrite /resistance /= big_ord_recl big_ord0 !mxE pa_dec a1_dec half_dec one_dec dec_opp !dec_add (@dec_div _ _ _ _ 4 3) //.
by rewrite zero_dec !dec_add; apply: dec_eq.
Qed.

Lemma hx_unit : unit_response (hx F).
Proof. by have [e1 e2 _] := h11_steady (0 : 'M[F]_2). Qed.

Lemma hx_alike : sides_alike (hx F).
Proof. by move=> j k coef; rewrite /= !mxE. Qed.

Lemma rear_dec j : rear_temperature (hx F) gain0 warm0 j = outer j (d 5 0) (d 6216 3).
Proof.
by rewrite /rear_temperature /=; case: j => [[|[|[|[|//]]]]] hj; rewrite /= /ex_k_eo /outer /= !mxE /= ?mul1r ?add0r ?mul0r ?addr0.
Qed.

Lemma sum_room (f : 'I_4 -> F) (i : 'I_2) x y : (forall j, f j = outer j x y) -> \sum_(j | conn (hx F) j == i) f j = x + y.
Proof.
move=> fE; rewrite big_mkcond !big_ord_recl big_ord0 /= !fE /outer /=.
by case: i => [[|[|//]]] hi /=; rewrite ?add0r ?addr0.
Qed.

Ltac decs := rewrite ?dec_nat ?(dec_mul, dec_add, dec_opp).

Lemma warm_mrt i : mean_radiant (hx F) warm_s i = d 5716 3.
Proof.
rewrite /mean_radiant (@sum_room _ _ (d 31296 2) (d 37296 2)) => [|j]; last first.
  by rewrite /= !mxE !dec_nat /outer; case: ifP => _; rewrite !dec_mul; apply: dec_eq.
rewrite (@sum_room _ _ (d 60 0) (d 60 0)) => [|j]; last first.
  by rewrite /= !mxE !dec_nat /outer; case: ifP => _; rewrite !dec_mul; apply: dec_eq.
by rewrite !dec_add (@dec_div _ _ _ _ 5716 3).
Qed.

Lemma warm_steady : steady_state (hx F) gain0 (fun=> d 11 3) (fun=> d 132422706 6) (fun=> 0) (fun=> 0) warm0 warm_s.
Proof.
split.
- move=> j; rewrite rear_dec res_dec !mxE /outer; case: ifP => _; rewrite ?zero_dec ?(dec_mul, dec_opp, dec_add); exact: dec_eq.
- move=> j i _; have -> : sun_on_surface (hx F) gain0 j i = 0 by rewrite /sun_on_surface; case: ifP => _ //; rewrite [q_trs_sol _ _ _]mxE !mul0r.
  rewrite warm_mrt !mxE mulr0 mul0r addr0.
  rewrite addr0 /outer; case: ifP => _; rewrite ?zero_dec !dec_nat ?(dec_mul, dec_opp, dec_add); exact: dec_eq.
- move=> j; rewrite !mxE /outer; case: ifP => _; rewrite ?zero_dec !dec_nat ?(dec_mul, dec_opp, dec_add); exact: dec_eq.
- by move=> i; rewrite !mxE subrr mulr0 mul0r.
- move=> i; rewrite (@sum_room _ _ (d (-78) 0) (d (-30) 0)) => [|j]; last first.
    by rewrite /= !mxE !dec_nat /outer; case: ifP => _; rewrite ?(dec_mul, dec_opp, dec_add); exact: dec_eq.
  rewrite cap_dec !mxE mul0r !addr0 mulr0 !addr0 zero_dec ?(dec_mul, dec_opp, dec_add); exact: dec_eq.
- move=> j m; rewrite !mxE a1_dec half_dec one_dec dec_opp dec_add (@dec_div _ _ _ _ 4 3) // /outer.
  by case: ifP => _; rewrite ?mulr0 // dec_mul; apply: dec_eq.
- move=> j m; rewrite rear_dec !mxE t1_dec half_dec one_dec dec_opp dec_add (@dec_div _ _ _ _ 9 1) // /outer.
  by case: ifP => _; rewrite dec_mul; apply: dec_eq.
Qed.

Lemma warm_step_ex : exists c' o,
  [/\ core_step (1 / 8%:R) (@infil2 F) (@x_sat2 F) 900%:R (hx F) gain0 warm0 = Some (c', o),
      (forall i, air_from_outside (hx F) gain0 o i = d 11 3), (forall i, q_gen gain0 i 0 + o_q_hum o i 0 = d 132422706 6),
      (forall i, o_l_cs o i 0 = 0) & (forall i, o_l_rs o i 0 = 0)].
Proof.
have [t0 t1] := tenth F.
have [c' [o Hs]] : exists c' o, step (@ot2 F) (@infil2 F) (@x_sat2 F) 900%:R (hx F) gain0 warm0 = Some (c', o).
  by apply: house2_step => // *; rewrite ?mxE ?ltr0n //; [exact: pa_ge0|exact: sum0_lt].
exists c', o; have [q [Hq Ht]] := stepP Hs.
have off i : operation_mode c' i = STOP_CLOSE.
  case: (run_tickP Ht) => md lo up ? ? v_out ? ? xot kc kr ? ? ? ? ? ? ? ?.
  by move=> otE -> *; rewrite (ot2_off otE).
have [l1 l2] : o_l_cs o = 0 /\ o_l_rs o = 0 by apply: (tick_all_off Ht); try (by move=> i; rewrite mxE); move=> i; rewrite off.
split=> // i; rewrite ?l1 ?l2 ?mxE //.
  case: (run_tickP Ht) => md lo up ? ? v_out ? ? xot kc kr ? ? ? ? ? ? ? ? _ mdE _ _ _ vl _ _ _ _ vn *.
  rewrite /air_from_outside vl vn /= !mxE -mdE off /= ?mxE ?addr0.
  have -> : 1 / 1000%:R = d 1 3 by rewrite dec_nat one_dec (@dec_div _ _ _ _ 1 3).
  have -> : 1 / 100%:R = d 1 2 by rewrite dec_nat one_dec (@dec_div _ _ _ _ 1 2).
  by rewrite dec_add; apply: dec_eq.
case: (run_tickP Ht) => md lo up ? ? v_out ? ? xot kc kr ? ? ? ? ? ? ? ? _ _ _ -> *.
by rewrite !mxE mulr0 addr0.
Qed.

Lemma steady_ext ni nj nm (h : house F ni nj nm) s v g lc lr v2 g2 lc2 lr2 c ts : v2 =1 v -> g2 =1 g -> lc2 =1 lc -> lr2 =1 lr ->
  steady_state h s v g lc lr c ts -> steady_state h s v2 g2 lc2 lr2 c ts.
Proof.
move=> vE gE cE rE S; split; try by case: S.
- by move=> j i ji; rewrite (ss_surface S ji) rE.
- by move=> i; rewrite vE gE cE rE; exact: (ss_room S i).
Qed.

Lemma warm_ex : exists c' o,
  [/\ core_step (1 / 8%:R) (@infil2 F) (@x_sat2 F) 900%:R (hx F) gain0 warm0 = Some (c', o),
      [/\ physical_boundaries (hx F), physical_rooms 900%:R (hx F), unit_response (hx F), sides_alike (hx F) & forall i k, v_int (hx F) i k = 0],
      [/\ forall i, 0 < air_from_outside (hx F) gain0 o i, forall j, 0 <= resistance (hx F) j
        & forall j k coef, k_ei (hx F) j = Some (k, coef) -> 0 <= coef <= 1],
      steady_state (hx F) gain0 (air_from_outside (hx F) gain0 o) (fun i => q_gen gain0 i 0 + o_q_hum o i 0)
        (fun i => o_l_cs o i 0) (fun i => o_l_rs o i 0) warm0 warm_s
    & unchanged warm0 c'].
Proof.
have [c' [o [Hs vE gE lcE lrE]]] := warm_step_ex.
have S := steady_ext vE gE lcE lrE warm_steady.
have a0 i : 0 < air_from_outside (hx F) gain0 o i by rewrite vE; apply: dec_gt0.
exists c', o; split=> //.
- split; [exact: hx_boundaries|exact: hx_rooms|exact: hx_unit|exact: hx_alike|exact: hx_int].
- split=> [//|j|]; first by rewrite res_dec; apply: dec_ge0.
  by case=> [[|[|[|[|//]]]]] hj k coef //= [_ <-]; rewrite ler01 lexx.
have [] // := steady_unchanged (@hx_boundaries F) Hs (@hx_rooms F) hx_unit hx_alike (@hx_int F) _ S.
by move=> i; exact/ltW.
Qed.
End SteadyEx.
