(* Two rooms with a small air path between them; the state of rest of two people in each room (C75). *)
From mathcomp Require Import all_ssreflect ssralg ssrnum zmodp matrix.
From Verif Require Import Model.OperationMode Model.Numpy Model.PreCalc Model.Tick Model.Step Model.OtTarget Model.CoreStep Model.Ground Model.CoreCalc
  Spec.Physical Spec.StepEq Spec.Coil Spec.Forget Spec.Steady Spec.Settle Spec.Damp.
From Verif Require Import Lemmas.ForgetL Lemmas.SettleL Examples.House2 Lemmas.TickRefute Examples.House2Ex Examples.RunEx Examples.HumidEx
  Examples.ForgetEx Examples.SettleEx.
Set Implicit Arguments. Unset Strict Implicit. Unset Printing Implicit Defensive.
Import Order.TTheory GRing.Theory Num.Theory.
Local Open Scope ring_scope.

Section DampEx.
Variable F : realFieldType.
Definition v_small : 'M[F]_2 := \matrix_(i, k) (if (i == 0) && (k == 1) then 1 / 200%:R else 0).
Definition hsmall : house F 2 4 1 := house2 v_small (1 / 50%:R) (1 / 10%:R) (fun _ => 4%:R).

Lemma small_row i : \sum_k v_int hsmall i k <= 1 / 200%:R.
Proof.
rewrite !big_ord_recl big_ord0 addr0 /= !mxE.
by case: i => [[|[|//]]] ? /=; rewrite ?addr0 ?add0r ?divr_ge0 ?ler01 ?ler0n.
Qed.

Lemma small_ge0 i k : 0 <= v_small i k.
Proof. by rewrite mxE; case: ifP => // _; rewrite divr_ge0 ?ler01 ?ler0n. Qed.

Lemma small_rooms : physical_rooms 900%:R hsmall.
Proof.
apply: house2_rooms => [|i]; first exact: small_ge0.
by apply: le_lt_trans (small_row i) _; rewrite !mul1r ltf_pinv ?posrE ?ltr0n // ltr_nat.
Qed.

Lemma small_step (x T : F) (c : conditions F 2 4 1) : (forall i, operation_mode c i <> HEATING_AND_COOLING) -> exists c' o,
  [/\ core_step (1 / 8%:R) (@infil2 F) (@x_sat2 F) 900%:R hsmall (still x T) c = Some (c', o), coils_idle o
    & forall i, air_from_outside hsmall (still x T) o i = 11%:R / 1000%:R].
Proof.
move=> om.
have [|c' [o [H [r [l w]]]]] := @still_ex F v_small x T c om small_ge0.
  by move=> i; apply: le_lt_trans (small_row i) _; rewrite !mul1r ltf_pinv ?posrE ?ltr0n // ltr_nat.
exists c', o; split=> // i; rewrite /air_from_outside l w /= !mxE !addr0.
have -> : 1 / 100%:R = 10%:R / 1000%:R :> F by apply/eqP; rewrite eqr_div ?pnatr_eq0 // mul1r -natrM.
by rewrite -mulrDl -(natrD _ 1 10).
Qed.

Lemma lived_rest T : exists c theta_s, at_rest (@infil2 F) (hout F) (lived T) c theta_s.
Proof.
have vp i : 0 < infil2 0 T i 0 + (v_vent_ex (hout F) i 0 + v_mec_local (lived T) i 0).
  by rewrite ltr_paddl ?infil2_ge0 // !mxE addr0 divr_gt0 ?ltr01 ?ltr0n.
have n0 i : 0 <= n_hum (lived T) i 0 by rewrite mxE ler0n.
have R0 j : 0 <= resistance (hout F) j by apply: leaky_resistance; exact: hout_leaky.
have f0 i : g_sh (hout F) i 0 = 0 -> q_trs_sol (lived T) i 0 = 0 by rewrite mxE => /eqP; rewrite pnatr_eq0.
have k0 j k coef : k_ei (hout F) j = Some (k, coef) -> 0 <= coef <= 1 by [].
have [c [ts [S _]]] := steady_people (@hout_boundaries F) R0 k0 f0 (fun i => q_gen (lived T) i 0) (fun=> 0) (fun=> 0) (conditions_init 2 4 1 0) vp n0.
by exists c, ts.
Qed.

(* room 0 and 1 cooled, the furniture as humid as x *)
Definition cooled (x : F) : conditions F 2 4 1 := {|
  operation_mode := fun _ => COOLING; theta_r := const_mx 30%:R; theta_mrt_hum := const_mx 30%:R;
  x_r := const_mx (6%:R / 1000%:R); theta_dsh_a := 0; theta_dsh_t := const_mx 27%:R;
  q_srf := 0; theta_frt := const_mx 30%:R; x_frt := const_mx x; theta_ei := const_mx 30%:R |}.

Lemma cooled_step x : exists c' o, core_step (1 / 8%:R) (@infil2 F) (@x_sat2 F) 900%:R (hx F) (@step2 F) (cooled x) = Some (c', o).
Proof.
have [t0 t1] := tenth F.
have [c' [o H]] : exists c' o, step (@ot2 F) (@infil2 F) (@x_sat2 F) 900%:R (hx F) (@step2 F) (cooled x) = Some (c', o).
  apply: house2_step => //; [exact: pa_ge0|exact: four_gt0|exact: zero_ge0|exact: sum0_lt].
by exists c', o.
Qed.
End DampEx.
