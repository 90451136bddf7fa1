(* The two-room house of House2.v with an air path from room 1 to room 0, and the same house with its rooms and its boundaries
   listed in the opposite order. *)
From Coq Require Import ZArith.
From mathcomp Require Import all_ssreflect ssralg ssrnum zmodp matrix.
From Verif Require Import Model.OperationMode Model.Numpy Model.PreCalc Model.Tick Model.CoreStep Model.Ground Model.Py Model.CoreLoop
  Model.CoreCalc Spec.Reorder.
From Verif Require Import Examples.House2 Lemmas.CoreCalcL Lemmas.TickRefute Examples.House2Ex Examples.RunEx.
Set Implicit Arguments. Unset Strict Implicit. Unset Printing Implicit Defensive.
Import Order.TTheory GRing.Theory Num.Theory.
Local Open Scope ring_scope.

Section ReorderEx.
Variable F : realFieldType.
Local Notation rho := (@rev_ord 2).
Local Notation tau := (@rev_ord 4).

Definition hv_rev : house F 2 4 1 := {|
  v_room := v_room (hv F); beta := 0; v_vent_ex := v_vent_ex (hv F); v_int := \matrix_(i, k) (if (i == 1) && (k == 0) then 1 / 60%:R else 0);
  v_ntrl := v_ntrl (hv F); c_sh := c_sh (hv F); g_sh := g_sh (hv F); c_lh := c_lh (hv F); g_lh := g_lh (hv F);
  is_rad_h := fun _ => false; cap_h := 0; is_rad_c := fun _ => false; cap_c := 0;
  q_min := q_min (hv F); q_max := q_max (hv F); v_min := v_min (hv F); v_max := v_max (hv F);
  (* boundaries 0 and 1 are now the two sides of the inner wall; 3 takes the sun *)
  conn := fun j => nth 0%N [:: 0; 1; 0; 1]%N j; a_srf := a_srf (hv F);
  phi_a0 := phi_a0 (hv F); phi_a1 := phi_a1 (hv F); phi_t0 := phi_t0 (hv F); phi_t1 := phi_t1 (hv F); r_ms := r_ms (hv F);
  h_c := h_c (hv F); h_r := h_r (hv F); flr := 0; is_solar_abs := fun j => j == 3%:R;
  f_mrt_hum := f_mrt_hum (hv F); k_eo := \col_j nth 0 [:: 0; 0; 1; 1] (j : 'I_4);
  k_ei := fun j => nth None [:: Some (inord 1, 1); Some (inord 0, 1); None; None] j |}.

Lemma hv_revE : reordered_house rho tau (hv F) hv_rev.
Proof.
split=> //=; try by move=> ? *; rewrite ?mxE.
all: try by move=> i; rewrite !mxE.
- by case=> [[|[|//]]] ? [[|[|//]]] ? //=; rewrite !mxE.
- by case=> [[|[|[|[|//]]]]] ? [[|[|//]]] ?.
- by case=> [[|[|[|[|//]]]]] ?.
- by case=> [[|[|[|[|//]]]]] ?; rewrite !mxE.
- case=> [[|[|[|[|//]]]]] ? //=; congr (Some (_, _)); apply: val_inj; by rewrite /= !inordK.
Qed.

Lemma day2E : List.Forall2 (reordered_data rho tau) (day2 F) (day2 F).
Proof. by rewrite /day2; elim: 96%N => [|k IH] /=; constructor=> //; split=> //= i; rewrite !mxE. Qed.

Lemma leak2E : reordered_infil rho (@infil2 F) (@infil2 F).
Proof. by move=> t t2 o _ i; rewrite !mxE. Qed.

Lemma rev_runs (x0 : F) : exists cf log,
  [/\ core_calc (1 / 8%:R) (@infil2 F) (@x_sat2 F) x0 (hv F) ground2 (day2 F) 4 1 1 1 = Ok (cf, log),
      reordered_house rho tau (hv F) hv_rev, List.Forall2 (reordered_data rho tau) (day2 F) (day2 F),
      reordered_infil rho (@infil2 F) (@infil2 F) & v_int hv_rev <> v_int (hv F)].
Proof.
have [cf [log E]] := hv_calc_ex x0; exists cf, log; split=> //; [exact: hv_revE|exact: day2E|exact: leak2E|].
move/matrixP => /(_ 0 1) /eqP; rewrite !mxE /= eq_sym mulf_eq0 invr_eq0 oner_eq0 pnatr_eq0 //.
Qed.

(* a house that looks the same from both rooms: every surface takes the sun, no air path *)
Definition hsym : house F 2 4 1 := {|
  v_room := v_room (hx F); beta := 0; v_vent_ex := v_vent_ex (hx F); v_int := 0;
  v_ntrl := v_ntrl (hx F); c_sh := c_sh (hx F); g_sh := g_sh (hx F); c_lh := c_lh (hx F); g_lh := g_lh (hx F);
  is_rad_h := fun _ => false; cap_h := 0; is_rad_c := fun _ => false; cap_c := 0;
  q_min := q_min (hx F); q_max := q_max (hx F); v_min := v_min (hx F); v_max := v_max (hx F);
  conn := @ex_conn; a_srf := a_srf (hx F);
  phi_a0 := phi_a0 (hx F); phi_a1 := phi_a1 (hx F); phi_t0 := phi_t0 (hx F); phi_t1 := phi_t1 (hx F); r_ms := r_ms (hx F);
  h_c := h_c (hx F); h_r := h_r (hx F); flr := 0; is_solar_abs := fun j => true;
  f_mrt_hum := f_mrt_hum (hx F); k_eo := k_eo (hx F); k_ei := k_ei (hx F) |}.

(* 0 <-> 1, 2 <-> 3 *)
Definition swap4 (j : 'I_4) : 'I_4 := nth j [:: inord 1; inord 0; inord 3; inord 2] j.
Lemma swap4K j : swap4 (swap4 j) = j.
Proof. by case: j => [[|[|[|[|//]]]]] ?; apply: val_inj; rewrite /swap4 /= !inordK /= ?inordK. Qed.

Lemma hsymE : reordered_house rho swap4 hsym hsym.
Proof.
split=> //=; try by move=> ? *; rewrite ?mxE.
all: try by move=> i; rewrite !mxE.
- by case=> [[|[|[|[|//]]]]] ? [[|[|//]]] ?; rewrite /ex_conn /swap4 /= !inordK.
- by case=> [[|[|[|[|//]]]]] ?; rewrite !mxE /ex_k_eo /swap4 /= !inordK.
- by case=> [[|[|[|[|//]]]]] ? //=; rewrite /ex_k_ei /swap4 /= !inordK //=; congr (Some (_, _)); apply: val_inj; rewrite /= !inordK /= ?inordK.
Qed.

Lemma sym_runs (x0 : F) : exists cf log,
  [/\ core_calc (1 / 8%:R) (@infil2 F) (@x_sat2 F) x0 hsym predT (day2 F) 4 1 1 1 = Ok (cf, log),
      reordered_house rho swap4 hsym hsym, injective swap4, List.Forall2 (reordered_data rho swap4) (day2 F) (day2 F) &
      reordered_infil rho (@infil2 F) (@infil2 F)].
Proof.
have [cf [log E]] : exists cf log, core_calc (1 / 8%:R) (@infil2 F) (@x_sat2 F) x0 hsym predT (day2 F) 4 1 1 1 = Ok (cf, log).
  apply: core_calc_total => //.
  - by move=> i; rewrite mxE.
  - by move=> i; rewrite mxE.
  - by case: (hx_boundaries F) => *; split.
  - by rewrite dt_four; case: (hx_rooms F) => *; split.
  - by move=> s /in_day2 -> i; have := house2_air 0 (1 / 50%:R) (1 / 10%:R) (fun _ => 4%:R) (erefl : v_mec_local (@step2 F) = 0) i.
  - by have [a b] := house2_hum (Q := F) 0 (1 / 50%:R) (1 / 10%:R) (fun _ => 4%:R); split; [exact: a | exact: b].
  - by move=> tr to i; rewrite mxE divr_ge0 ?ler01 ?ler0n.
  - by left.
exists cf, log; split=> //; [exact: hsymE|exact: can_inj swap4K| |exact: leak2E].
by rewrite /day2; elim: 96%N => [|k IH] /=; constructor=> //; split=> //= i; rewrite !mxE.
Qed.
End ReorderEx.
