(* The recorded total heat flow of a surface is not the sum of the recorded parts. *)
From mathcomp Require Import all_ssreflect ssralg ssrnum zmodp matrix.
From Coq Require Import Ring Field.
From Verif Require Import Model.OperationMode Model.Numpy Model.PreCalc Model.Tick Model.Step Model.OtTarget Model.CoreStep
  Model.LogCore Spec.Physical Spec.StepEq Spec.LogBalance.
From Verif Require Import Lemmas.FieldTac Lemmas.NumpyL Lemmas.TickL Lemmas.TickBalance Lemmas.TickTotal
  Lemmas.StepL Lemmas.LogCoreL Examples.House2 Lemmas.TickRefute.
Set Implicit Arguments. Unset Strict Implicit. Unset Printing Implicit Defensive.
Import Order.TTheory GRing.Theory Num.Theory.
Local Open Scope ring_scope.

Section LogRefute.
Variable F : realFieldType.
Local Notation hh := (house2 (0 : 'M[F]_2) 0 0 (fun _ => 4%:R)).

Lemma total_not_sum (T : F) : T != 0 -> exists c' o,
  [/\ physical_boundaries hh, physical_rooms 900%:R hh,
      core_step (1 / 8%:R) (@infil2 F) (@x_sat2 F) 900%:R hh (step0 F) (cond0 T) = Some (c', o)
    & ~ rec_surface_sum hh (log_column hh (step0 F) (c', o)) id 0 0].
Proof.
move=> T0.
have hb : physical_boundaries hh by apply: house2_boundaries => //= *; rewrite ?ler01 ?ltr0n.
have z0 : forall i k, 0 <= (0 : 'M[F]_2) i k by move=> i k; rewrite mxE.
have hr := house2_rooms 0 0 (fun _ => 4%:R) z0 (@sum0_lt F).
have [c' [o Hs]] : exists c' o, step (@ot2 F) (@infil2 F) (@x_sat2 F) 900%:R hh (step0 F) (cond0 T) = Some (c', o).
  by apply: house2_step => //= *; rewrite ?ler01 ?ltr0n // ?z0 ?sum0_lt.
exists c', o; split=> // bad.
have srf j : o_theta_s o j 0 = 0.
  have [q [Hq Ht]] := stepP Hs.
  have h0 : 4%:R + 5%:R != 0 :> F by rewrite -natrD pnatr_eq0.
  have := surf_response_seen Hq Ht (j := j); rewrite /= !mxE pnatr_eq0 => -> //.
  by rewrite !mul0r !add0r big1 // => m _; have [-> ->] := run0_dsh Hs j m; rewrite addr0.
have ts0 : o_theta_s o = 0 by apply/matrixP => a b; rewrite ord1 srf mxE.
have sm : rec_surface_sum hh (log_column hh (step0 F) (c', o)) (fun q => a_srf hh 0 0 * q) 0 0.
  by apply: rec_surface; [exact: Hs | exact: hb | ].
have [] := proj1 (rec_surface_unit sm) bad.
  by rewrite /= mxE => /eqP; rewrite -[1]/(1%:R) eqr_nat.
rewrite /= => q0; move: sm; rewrite /rec_surface_sum /= q0 mulr0.
have [_ rs] := run0_off Hs; rewrite ts0 rs /dot mulmx0 !subr0 !emulE.
rewrite [(0 : 'cV_4) 0 0]mxE [(0 : 'cV_2) 0 0]mxE !mulr0 !addr0.
have -> : q_sol_js hh (step0 F) 0 0 = 0.
  rewrite /q_sol_js /dot; have -> : ediv (q_trs_sol (step0 F)) (a_srf_abs hh) = 0.
    by apply/matrixP => a b; rewrite !mxE mul0r.
  by rewrite mulmx0; apply/eqP; rewrite !mxE !mulr0.
rewrite mul0r addr0 (@p_js_mulE _ _ _ _ hh _ 0 0) // => /esym/eqP.
rewrite /= !mxE !mulf_eq0 !pnatr_eq0 /= => /eqP r0.
by move/eqP: T0; apply; apply: (run0_balance Hs r0) => // k; rewrite mxE mul0r.
Qed.
End LogRefute.
