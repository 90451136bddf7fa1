(* Two steps of the same house from different states: the difference shrinks (C73). *)
From Coq Require Import ZArith Ring Field Lia.
From mathcomp Require Import all_ssreflect ssralg ssrnum zmodp matrix.
From Verif Require Import Model.OperationMode Model.Numpy Model.NextCondition Model.PreCalc
  Model.HeatExchanger Model.Tick Model.Step Model.OtTarget Model.CoreStep Model.Ground Spec.Physical Spec.StepEq
  Spec.Simulation Spec.Forget.
From Verif Require Import Lemmas.FieldTac Lemmas.NumpyL Lemmas.NextConditionL Lemmas.TickL Lemmas.TickBalance
  Lemmas.MMatrix Lemmas.TickTotal Lemmas.TickEquil Lemmas.TickEnergy Lemmas.StepL Lemmas.StepProps Lemmas.GroundL.
Set Implicit Arguments. Unset Strict Implicit. Unset Printing Implicit Defensive.
Import Order.TTheory GRing.Theory Num.Theory.
Local Open Scope ring_scope.

Section Scalar.
Variable F : realFieldType.
Add Field Ffield0 : (ffield_theory F).
Ltac fring := ffold F; ring.
Ltac ffield := ffold F; field.

Lemma two_ne0 : (2%:R : F) <> 0. Proof. by apply/eqP; rewrite pnatr_eq0. Qed.
Lemma four_ne0 : (2%:R * 2%:R : F) <> 0. Proof. by apply/eqP; rewrite mulf_neq0 // pnatr_eq0. Qed.
Lemma two_gt0 : 0 < (2%:R : F). Proof. by rewrite ltr0n. Qed.

(* one response term of a wall *)
Lemma wall_term (phi r sg q s : F) : 0 < phi -> 0 < sg -> 0 <= r <= sg ->
  (phi * q + r * s) ^+ 2 / (2%:R * phi) <= sg ^+ 2 * (s ^+ 2 / (2%:R * phi)) + sg * (phi / (sg + r) * q ^+ 2 + q * s).
Proof.
move=> p0 s0 /andP[r0 r1]; rewrite -subr_ge0.
have sr : 0 < sg + r by rewrite ltr_paddr.
have -> : sg ^+ 2 * (s ^+ 2 / (2%:R * phi)) + sg * (phi / (sg + r) * q ^+ 2 + q * s) - (phi * q + r * s) ^+ 2 / (2%:R * phi)
   = (sg - r) / (2%:R * phi * (sg + r)) * (phi * q + (sg + r) * s) ^+ 2.
  have /eqP p1 : phi != 0 by rewrite gt_eqF.
  have /eqP s1 : sg + r != 0 by rewrite gt_eqF.
  by rewrite !expr2; ffield; split; [exact: s1|split; [exact: p1|exact: two_ne0]].
by rewrite mulr_ge0 ?sqr_ge0 // divr_ge0 ?subr_ge0 // ltW // !mulr_gt0 ?two_gt0.
Qed.

(* air and furniture of one room *)
Lemma room_term (C K g v a sg t t' f f' Z : F) : 0 <= K -> 0 <= sg -> sg <= 1 -> - C <= a -> a <= C ->
  (1 - sg ^+ 2) * K <= sg ^+ 2 * g -> (1 - sg ^+ 2) * (C / 2%:R + K) <= sg ^+ 2 * v ->
  C * t' = a * t + g * (f' - t') - v * t' + Z -> K * (f' - f) = g * (t' - f') ->
  (C * t' ^+ 2 + K * f' ^+ 2) / 2%:R <= sg ^+ 2 * ((C * t ^+ 2 + K * f ^+ 2) / 2%:R + Z * t').
Proof.
move=> K0 s0 s1 a1 a2 hg hv Et Ef; rewrite -subr_ge0.
have ZE : Z = C * t' - a * t - g * (f' - t') + v * t' by rewrite Et; fring.
have t4 : 0 <= 1 / (2%:R * 2%:R) :> F by rewrite divr_ge0 ?ler01 // mulr_ge0 ?ler0n.
have s2 : 0 <= 1 - sg ^+ 2 by rewrite subr_ge0 expr_le1.
have -> : sg ^+ 2 * ((C * t ^+ 2 + K * f ^+ 2) / 2%:R + Z * t') - (C * t' ^+ 2 + K * f' ^+ 2) / 2%:R
  = sg ^+ 2 * (((C - a) * (t + t') ^+ 2 + (C + a) * (t - t') ^+ 2) * (1 / (2%:R * 2%:R)) + K / 2%:R * (f - f') ^+ 2
               + f' * (K * (f' - f) - g * (t' - f')) * (- 1))
    + (sg ^+ 2 * g - (1 - sg ^+ 2) * K) * (t' - f') ^+ 2 + (sg ^+ 2 * v - (1 - sg ^+ 2) * (C / 2%:R + K)) * t' ^+ 2
    + (1 - sg ^+ 2) * (K / 2%:R * (t' + (t' - f')) ^+ 2).
  by rewrite ZE !expr2; ffield; split; [exact: two_ne0|exact: four_ne0].
rewrite Ef subrr mulr0 mul0r addr0.
have ca : 0 <= C - a by rewrite subr_ge0.
have ca2 : 0 <= C + a by rewrite -ler_subl_addl sub0r.
have K2 : 0 <= K / 2%:R by rewrite divr_ge0 ?ler0n.
apply: addr_ge0; last by rewrite mulr_ge0 // mulr_ge0 ?sqr_ge0.
apply: addr_ge0; last by rewrite mulr_ge0 ?sqr_ge0 // subr_ge0.
apply: addr_ge0; last by rewrite mulr_ge0 ?sqr_ge0 // subr_ge0.
rewrite mulr_ge0 ?sqr_ge0 // addr_ge0 //; last by rewrite mulr_ge0 ?sqr_ge0.
by rewrite mulr_ge0 // addr_ge0 // mulr_ge0 ?sqr_ge0.
Qed.

(* heat given off by an occupant falls with temperature, by at most 4 W/K *)
Lemma q_hum_slope (t t2 : F) : exists l : F, 0 <= l <= 4%:R /\ q_hum_psn t2 - q_hum_psn t = - l * (t2 - t).
Proof.
pose x (t : F) := 63%:R - 4%:R * (t - 24%:R).
have xE u w : x w - x u = - 4%:R * (w - u) by rewrite /x; move: (63%:R : F) (4%:R : F) (24%:R : F) => a b c; fring.
have main (u w : F) : u < w -> exists l : F, 0 <= l <= 4%:R /\ q_hum_psn w - q_hum_psn u = - l * (w - u).
  move=> uw; have d0 : 0 < w - u by rewrite subr_gt0.
  have xl : x w <= x u by rewrite -subr_le0 xE mulNr oppr_le0 mulr_ge0 ?ler0n // ltW.
  exists ((q_hum_psn u - q_hum_psn w) / (w - u)); split; last by rewrite mulNr divfK ?gt_eqF // opprB.
  apply/andP; split.
    apply: divr_ge0 (ltW d0); rewrite subr_ge0 /q_hum_psn -/(x u) -/(x w) le_minr.
    by apply/andP; split; rewrite le_minl ?xl ?lexx ?orbT.
  rewrite ler_pdivr_mulr // /q_hum_psn -/(x u) -/(x w).
  have -> : 4%:R * (w - u) = x u - x w by rewrite xE mulNr -mulrN opprB.
  case: (lerP (x w) 119%:R) => h1; last by rewrite (min_r (ltW (lt_le_trans h1 xl))) subrr subr_ge0.
  by rewrite ler_sub // le_minl lexx.
case: (ltgtP t t2) => [/main//|/main[l [b E]]|->]; last by exists 0; rewrite lexx ler0n !subrr mulr0.
by exists l; split=> //; rewrite -[LHS]opprB E -mulrN opprB.
Qed.
End Scalar.

Section Step.
Variable F : realFieldType.
Add Field Ffield : (ffield_theory F).
Ltac fring := ffold F; ring.
Ltac ffield := ffold F; field.
Variables ni nj nm : nat.
Variable ot : ot_fun F ni.
Variable infil : infil_fun F ni.
Variable x_sat : F -> F.
Variables (dt : F) (h : house F ni nj nm) (s : step_data F ni nj).
Variables (c c' c2 c2' : conditions F ni nj nm) (o o2 : outputs F ni nj) (sg : F).
Hypothesis H1 : step ot infil x_sat dt h s c = Some (c', o).
Hypothesis H2 : step ot infil x_sat dt h s c2 = Some (c2', o2).
Hypothesis Hb : physical_boundaries h.
Hypothesis Hr : physical_rooms dt h.
Hypothesis Hf : forgetful dt h sg.
Hypothesis Hi : same_idle h c c2.
Hypothesis Ho : same_operation h s o o2.
Hypothesis Ha : aired dt h sg s o.

Local Notation dr' i := (theta_r c2' i 0 - theta_r c' i 0).
Local Notation dr i := (theta_r c2 i 0 - theta_r c i 0).
Local Notation df' i := (theta_frt c2' i 0 - theta_frt c' i 0).
Local Notation df i := (theta_frt c2 i 0 - theta_frt c i 0).
Local Notation ds j := (o_theta_s o2 j 0 - o_theta_s o j 0).
Local Notation dq' j := (q_srf c2' j 0 - q_srf c' j 0).
Local Notation up j m := (upcoming h c2 j m - upcoming h c j m).

Lemma f0 i : c_sh h i 0 + dt * g_sh h i 0 != 0.
Proof. by rewrite gt_eqF // ltr_paddr ?(ph_c_sh Hr) // mulr_ge0 ?(ph_g_sh Hr) // ltW ?(ph_dt Hr). Qed.
Lemma d0 : dt != 0. Proof. by rewrite gt_eqF ?(ph_dt Hr). Qed.

Lemma memory_next j m : memory c2' j m - memory c' j m = up j m.
Proof.
have [a1 t1] := step_response_terms H1 j m; have [a2 t2] := step_response_terms H2 j m.
rewrite /upcoming /memory a1 a2 t1 t2 (fo_single Hf); fring.
Qed.

Lemma idle_next : same_idle h c' c2'.
Proof.
move=> j m p0; apply/eqP; rewrite -subr_eq0; apply/eqP.
have := memory_next j m; rewrite (Hi p0) subrr /upcoming p0 => E.
have -> : 0 * q_srf c2' j 0 + r_ms h j m * memory c2' j m - (0 * q_srf c' j 0 + r_ms h j m * memory c' j m)
  = r_ms h j m * (memory c2' j m - memory c' j m) by move: (memory _ _ _) (memory _ _ _) => x y; fring.
by rewrite E mulr0.
Qed.

Lemma surface_diff j : ds j = phi_a0 h j 0 * dq' j + \sum_m up j m.
Proof.
have h0 : h_c h j 0 + h_r h j 0 != 0 by rewrite gt_eqF // addr_gt0 ?(ph_hc Hb) ?(ph_hr Hb).
have a0 : a_srf h j 0 != 0 by rewrite gt_eqF ?(ph_area Hb).
have k0 k coef : k_ei h j = Some (k, coef) ->
     [/\ h_c h k 0 = h_c h j 0, h_r h k 0 = h_r h j 0 & a_srf h k 0 = a_srf h j 0] by rewrite (fo_single Hf).
have := step_surface H1 h0 a0 k0; have := step_surface H2 h0 a0 k0.
rewrite /surface_response /rear_temperature (fo_single Hf) => -> ->.
have -> : \sum_m up j m = \sum_m (theta_dsh_t c2' j m + theta_dsh_a c2' j m) - \sum_m (theta_dsh_t c' j m + theta_dsh_a c' j m).
  by rewrite -sumrB; apply: eq_bigr => m _; rewrite -memory_next /memory; fring.
fring.
Qed.

(* walls: what is stored is at most what flowed in *)
Lemma wall_step j : wall_gap h c' c2' j <= sg ^+ 2 * wall_gap h c c2 j + sg * (dq' j * ds j).
Proof.
have /andP[s0 s1] := fo_sigma Hf.
have upE m : upcoming h c2' j m - upcoming h c' j m = phi_a1 h j m * dq' j + r_ms h j m * up j m.
  by rewrite -memory_next /upcoming; move: (memory _ _ _) (memory _ _ _) => x y; fring.
have idle : \sum_(m | phi_a1 h j m == 0) up j m = 0 by rewrite big1 // => m /eqP p0; rewrite (Hi p0) subrr.
have tot : \sum_(m | phi_a1 h j m != 0) phi_a1 h j m / (sg + r_ms h j m) <= phi_a0 h j 0.
  apply: le_trans _ (fo_total Hf j); rewrite [leRHS](bigID (fun m => phi_a1 h j m == 0)) /= ler_addr big1 // => m /eqP ->.
  by rewrite mul0r.
apply: le_trans (_ : _ <= \sum_(m | phi_a1 h j m != 0)
   (sg ^+ 2 * (up j m ^+ 2 / (2%:R * phi_a1 h j m)) + sg * (phi_a1 h j m / (sg + r_ms h j m) * dq' j ^+ 2 + dq' j * up j m))) _.
  apply: ler_sum => m p0; rewrite upE; apply: wall_term (fo_ratio Hf j m) => //.
  by rewrite lt_neqAle eq_sym p0 (fo_phi Hf).
rewrite big_split /= -mulr_sumr -/(wall_gap h c c2 j) ler_add2l -mulr_sumr ler_pmul2l // big_split /= -mulr_suml -mulr_sumr.
rewrite surface_diff [X in _ * (_ + X)](bigID (fun m => phi_a1 h j m == 0)) /= idle add0r mulrDr ler_add2r.
by rewrite [leRHS]mulrCA -expr2 ler_wpmul2r ?sqr_ge0.
Qed.

(* rooms *)
Let z (i : 'I_ni) := \sum_(j | conn h j == i) h_c h j 0 * a_srf h j 0 * (ds j - dr' i).

Lemma room_step i : room_gap dt h c' c2' i <= sg ^+ 2 * (room_gap dt h c c2 i + z i * dr' i).
Proof.
have /andP[s0 s1] := fo_sigma Hf; have dp := ph_dt Hr; have dn := d0.
have [l [/andP[l0 l4] lE]] := q_hum_slope (theta_r c i 0) (theta_r c2 i 0).
have [n0 n4] := ai_people Ha i.
have cp : 0 < cap_air F by rewrite mulr_gt0 ?c_air_gt0 ?rho_air_gt0.
apply: (@room_term F _ _ (g_sh h i 0) (cap_air F * air_from_outside h s o i) (v_room h i 0 * cap_air F / dt - l * n_hum s i 0) _ _ _ _ _ _).
- by rewrite divr_ge0 // ltW // (ph_c_sh Hr).
- exact: ltW.
- exact: ltW.
- rewrite ler_oppl opprB ler_subl_addr -mulr2n -mulr_natl; apply: le_trans n4; exact: ler_wpmul2r.
- by rewrite ler_subl_addr ler_addl mulr_ge0.
- by rewrite mulrA ler_pdivr_mulr // -[leRHS]mulrA [X in _ <= _ * X]mulrC; exact: (fo_furniture Hf).
- have -> : (1 - sg ^+ 2) * (v_room h i 0 * cap_air F / dt / 2%:R + c_sh h i 0 / dt)
    = (1 - sg ^+ 2) * (v_room h i 0 * cap_air F / 2%:R + c_sh h i 0) / dt.
    by move: (2%:R^-1 : F) (cap_air F) => tw ca; fring.
  by rewrite ler_pdivr_mulr // -[leRHS]mulrA [X in _ <= _ * X]mulrC; exact: (ai_air Ha).
- have b1 := code_heat_balance H1 (f0 i); have b2 := code_heat_balance H2 (f0 i).
  move: b1 b2; rewrite /heat_stored /heat_gain /heat_from_rooms.
  rewrite !big1 => [|k _|k _]; rewrite ?(fo_paths Hf) ?mul0r // !mulr0 !subr0 => b1 b2.
  have b : v_room h i 0 * cap_air F / dt * (dr' i - dr i) = z i - cap_air F * air_from_outside h s o i * dr' i
     - l * n_hum s i 0 * dr i + g_sh h i 0 * (df' i - dr' i).
    transitivity (v_room h i 0 * cap_air F * (theta_r c2' i 0 - theta_r c2 i 0) / dt - v_room h i 0 * cap_air F * (theta_r c' i 0 - theta_r c i 0) / dt).
      by move: (cap_air F) => ca; fring.
    rewrite b1 b2 /heat_from_surfaces /heat_from_outside /heat_from_inside /heat_from_furniture /heat_from_equipment.
    rewrite (so_air Ho) (so_convective Ho) (so_radiant Ho) (proj1 (step_hum H1 i)) (proj1 (step_hum H2 i)).
    have qE : q_hum_psn (theta_r c2 i 0) * n_hum s i 0 = q_hum_psn (theta_r c i 0) * n_hum s i 0 - l * n_hum s i 0 * dr i.
      by apply/eqP; rewrite -subr_eq0; apply/eqP; transitivity ((q_hum_psn (theta_r c2 i 0) - q_hum_psn (theta_r c i 0) + l * dr i) * n_hum s i 0);
        [move: (q_hum_psn _) (q_hum_psn _) => x y; fring | rewrite lE mulNr addNr mul0r].
    rewrite qE; have -> : z i = \sum_(j | conn h j == i) h_c h j 0 * a_srf h j 0 * (o_theta_s o2 j 0 - theta_r c2' i 0)
       - \sum_(j | conn h j == i) h_c h j 0 * a_srf h j 0 * (o_theta_s o j 0 - theta_r c' i 0).
      by rewrite -sumrB; apply: eq_bigr => j _; fring.
    by move: (cap_air F) (air_from_outside _ _ _ _) (q_hum_psn _) => ca av qh; fring.
  move: b; move: (cap_air F) (air_from_outside _ _ _ _) (z i) => ca av Z b.
  transitivity (v_room h i 0 * ca / dt * (dr' i - dr i) + v_room h i 0 * ca / dt * dr i); first by fring.
  rewrite b; fring.
have e1 := step_furniture_heat H1 d0 (f0 i); have e2 := step_furniture_heat H2 d0 (f0 i).
move: e1 e2; rewrite /furniture_heat_balance => e1 e2.
transitivity (c_sh h i 0 * (theta_frt c2' i 0 - theta_frt c2 i 0) / dt - c_sh h i 0 * (theta_frt c' i 0 - theta_frt c i 0) / dt); first by fring.
rewrite e1 e2; fring.
Qed.

(* surfaces of one room: convection and radiation even out *)
Lemma surfaces_step (i : 'I_ni) :
  \sum_(j | conn h j == i) a_srf h j 0 * (dq' j * ds j) + z i * dr' i
  <= - \sum_(j | conn h j == i) h_c h j 0 * a_srf h j 0 * (dr' i - ds j) ^+ 2.
Proof.
have [q1 [Hq1 Ht1]] := stepP H1; have [q2 [Hq2 Ht2]] := stepP H2.
pose m := mrt_surf h o2 i - mrt_surf h o i.
have rad : \sum_(j | conn h j == i) a_srf h j 0 * h_r h j 0 * (m - ds j) = 0.
  rewrite -[RHS](subrr 0) -[X in _ = X - _](radiant_exchange o2 Hb i) -[X in _ = _ - X](radiant_exchange o Hb i) -sumrB.
  by apply: eq_bigr => j _; rewrite /m; move: (mrt_surf _ _ _) (mrt_surf _ _ _) => x y; fring.
have qE j : conn h j == i -> dq' j = h_c h j 0 * (dr' i - ds j) + h_r h j 0 * (m - ds j).
  move=> /eqP ji; rewrite (q_srf_parts Ht1 Hb ji) (q_srf_parts Ht2 Hb ji) (so_radiant Ho) /m.
  by move: (mrt_surf _ _ _) (mrt_surf _ _ _) (q_sol_js _ _ _ _) => x y w; fring.
have E : \sum_(j | conn h j == i) a_srf h j 0 * (dq' j * ds j) + z i * dr' i
  = - (\sum_(j | conn h j == i) h_c h j 0 * a_srf h j 0 * (dr' i - ds j) ^+ 2)
    - (\sum_(j | conn h j == i) a_srf h j 0 * h_r h j 0 * (m - ds j) ^+ 2)
    + m * \sum_(j | conn h j == i) a_srf h j 0 * h_r h j 0 * (m - ds j).
  rewrite /z mulr_suml mulr_sumr -!sumrN -!big_split /=; apply: eq_bigr => j ji; rewrite qE // !expr2; fring.
rewrite E rad mulr0 addr0 ger_addl oppr_le0; apply: sumr_ge0 => j _.
by rewrite mulr_ge0 ?sqr_ge0 // mulr_ge0 // ltW ?(ph_area Hb) ?(ph_hr Hb).
Qed.

Lemma gap_step : gap dt h sg c' c2'
   + sg * (\sum_(i < ni) \sum_(j | conn h j == i) h_c h j 0 * a_srf h j 0 * (dr' i - ds j) ^+ 2) <= sg ^+ 2 * gap dt h sg c c2.
Proof.
have /andP[s0 s1] := fo_sigma Hf; have sn : sg != 0 by rewrite gt_eqF.
have W : \sum_j a_srf h j 0 * wall_gap h c' c2' j
   <= sg ^+ 2 * (\sum_j a_srf h j 0 * wall_gap h c c2 j) + sg * \sum_j a_srf h j 0 * (dq' j * ds j).
  rewrite !mulr_sumr -big_split /=; apply: ler_sum => j _; rewrite mulrCA [sg * (_ * _)]mulrCA -mulrDr.
  by rewrite ler_wpmul2l ?wall_step // ltW ?(ph_area Hb).
have R : (\sum_i room_gap dt h c' c2' i) / sg <= sg * ((\sum_i room_gap dt h c c2 i) + \sum_i z i * dr' i).
  rewrite ler_pdivr_mulr // mulrAC -expr2 -big_split /= mulr_sumr; apply: ler_sum => i _; exact: room_step.
have S : (\sum_j a_srf h j 0 * (dq' j * ds j)) + \sum_i z i * dr' i
   <= - \sum_(i < ni) \sum_(j | conn h j == i) h_c h j 0 * a_srf h j 0 * (dr' i - ds j) ^+ 2.
  have -> : \sum_j a_srf h j 0 * (dq' j * ds j) = \sum_(i < ni) \sum_(j | conn h j == i) a_srf h j 0 * (dq' j * ds j).
    by rewrite (partition_big (room_of Hb) predT).
  by rewrite -big_split -sumrN /=; apply: ler_sum => i _; exact: surfaces_step.
rewrite -ler_subr_addr /gap; apply: le_trans (ler_add W R) _.
have {S} := ler_wpmul2l (ltW s0) S.
move: (\sum_j a_srf h j 0 * (_ * _)) (\sum_i z i * _) (\sum_i \sum_(j | _) _) (\sum_j a_srf h j 0 * wall_gap h c c2 j)
  (\sum_i room_gap dt h c c2 i) => A B X U V S.
have -> : sg ^+ 2 * (U + V / sg) - sg * X = sg ^+ 2 * U + sg * V + sg * - X.
  have /eqP sq := sn; rewrite expr2; ffield; exact: sq.
have -> : sg ^+ 2 * U + sg * A + sg * (V + B) = sg ^+ 2 * U + sg * V + sg * (A + B) by rewrite expr2; fring.
by rewrite ler_add2l.
Qed.
End Step.
(* from the squares back to temperatures *)
Section Bounds.
Variable F : realFieldType.
Variables ni nj nm : nat.
Variables (dt : F) (h : house F ni nj nm) (sg : F).
Hypothesis Hb : physical_boundaries h.
Hypothesis Hr : physical_rooms dt h.
Hypothesis Hf : forgetful dt h sg.

Lemma sg_gt0 : 0 < sg. Proof. by have /andP[] := fo_sigma Hf. Qed.

Lemma wall_gap_ge0 (c c2 : conditions F ni nj nm) j : 0 <= wall_gap h c c2 j.
Proof.
apply: sumr_ge0 => m p0; rewrite divr_ge0 ?sqr_ge0 // mulr_ge0 ?ler0n //; exact: (fo_phi Hf).
Qed.

Lemma room_parts (c c2 : conditions F ni nj nm) i :
  0 <= v_room h i 0 * cap_air F / dt * (theta_r c2 i 0 - theta_r c i 0) ^+ 2 /\
  0 <= c_sh h i 0 / dt * (theta_frt c2 i 0 - theta_frt c i 0) ^+ 2.
Proof.
have cp : 0 < cap_air F by rewrite mulr_gt0 ?c_air_gt0 ?rho_air_gt0.
split; rewrite mulr_ge0 ?sqr_ge0 // divr_ge0 ?(ltW (ph_dt Hr)) // ?(ltW (ph_c_sh Hr i)) //.
by rewrite mulr_ge0 ?(ltW cp) // ltW ?(ph_room Hr).
Qed.

Lemma room_gap_ge0 (c c2 : conditions F ni nj nm) i : 0 <= room_gap dt h c c2 i.
Proof. by have [a b] := room_parts c c2 i; rewrite divr_ge0 ?ler0n // addr_ge0. Qed.

Lemma gap_ge0 (c c2 : conditions F ni nj nm) : 0 <= gap dt h sg c c2.
Proof.
rewrite addr_ge0 //; first by apply: sumr_ge0 => j _; rewrite mulr_ge0 ?wall_gap_ge0 // ltW ?(ph_area Hb).
by rewrite divr_ge0 ?(ltW sg_gt0) //; apply: sumr_ge0 => i _; exact: room_gap_ge0.
Qed.

Lemma gap_room (c c2 : conditions F ni nj nm) i :
  v_room h i 0 * cap_air F / dt * (theta_r c2 i 0 - theta_r c i 0) ^+ 2 <= 2%:R * sg * gap dt h sg c c2 /\
  c_sh h i 0 / dt * (theta_frt c2 i 0 - theta_frt c i 0) ^+ 2 <= 2%:R * sg * gap dt h sg c c2.
Proof.
have [a b] := room_parts c c2 i; have s0 := sg_gt0.
have G : room_gap dt h c c2 i <= sg * gap dt h sg c c2.
  rewrite mulrDr [X in _ + X]mulrC divfK ?gt_eqF //; apply: ler_paddl.
    rewrite mulr_ge0 ?(ltW s0) //; apply: sumr_ge0 => j _; rewrite mulr_ge0 ?wall_gap_ge0 // ltW ?(ph_area Hb) //.
  by rewrite (bigD1 i) //= ler_addl; apply: sumr_ge0 => k _; exact: room_gap_ge0.
have {}G : v_room h i 0 * cap_air F / dt * (theta_r c2 i 0 - theta_r c i 0) ^+ 2
   + c_sh h i 0 / dt * (theta_frt c2 i 0 - theta_frt c i 0) ^+ 2 <= 2%:R * sg * gap dt h sg c c2.
  by rewrite -[leRHS]mulrA [leRHS]mulrC -ler_pdivr_mulr ?ltr0n.
by split; apply: le_trans G; rewrite ?ler_addl ?ler_addr.
Qed.
End Bounds.

(* whole runs *)
Section Runs.
Variable F : realFieldType.
Variables ni nj nm : nat.
Variable data : seq (step_data F ni nj).
Variables (e0 : F) (infil : infil_fun F ni) (x_sat : F -> F) (dt : F) (h : house F ni nj nm) (sg : F).
Variable is_ground : pred 'I_nj.
Hypothesis Hb : physical_boundaries h.
Hypothesis Hr : physical_rooms dt h.
Hypothesis Hf : forgetful dt h sg.

Lemma z_ind (P : Z -> Prop) a b : P a -> (forall n, (a <= n < b)%Z -> P n -> P (n + 1)%Z) -> forall n, (a <= n <= b)%Z -> P n.
Proof.
move=> P0 PS n Hn; have -> : n = (a + Z.of_nat (Z.to_nat (n - a)))%Z by lia.
have : (Z.of_nat (Z.to_nat (n - a)) <= b - a)%Z by lia.
elim: (Z.to_nat (n - a)) => [|k IH] Hk; first by rewrite Z.add_0_r.
have -> : (a + Z.of_nat k.+1 = a + Z.of_nat k + 1)%Z by lia.
by apply: PS; [lia | apply: IH; lia].
Qed.

Section One.
Variables (td x0 : F) (n_main n_run_up n_build : Z).
Variables (g : Z -> ground_conditions F #|is_ground| nm) (c : Z -> conditions F ni nj nm)
  (log : seq (option (conditions F ni nj nm * outputs F ni nj))).
Hypothesis sim : simulation data e0 infil x_sat dt h (is_ground := is_ground) td (conditions_init ni nj nm x0) n_main n_run_up n_build g c log.

Lemma ground_idle n : (n_build <= n_run_up)%Z -> (- n_run_up <= n <= - n_build)%Z ->
  forall k m, phi_a1 h (enum_val k) m = 0 -> g_dsh (g n) k m = 0.
Proof.
move=> _ Hn; move: n Hn; apply: z_ind => [|n Hn IH] k m p0; first by rewrite (sim_g0 sim) mxE.
have [s [_ ->]] := sim_g sim Hn.
by rewrite /ground_tick /= !mxE p0 (IH _ _ p0) !mulr0 addr0.
Qed.

Lemma sim_idle : (n_build <= n_run_up)%Z -> forall n, (- n_build <= n <= n_main)%Z ->
  forall j m, phi_a1 h j m = 0 -> memory (c n) j m = 0.
Proof.
move=> lt; apply: z_ind => [|n Hn IH] j m p0.
  rewrite (sim_c0 sim) /memory /hand_over /=; rewrite [X in _ + X]mxE addr0.
  case: (boolP (is_ground j)) => [ij|nj']; last by rewrite mask_set_out // mxE.
  have [k [ek er]] := mask_set_in (0 : 'M[F]_(nj, nm)) (g_dsh (g (- n_build)%Z)) ij.
  have /rowP /(_ m) := er; rewrite [row j _ _ _]mxE [row k _ _ _]mxE => ->.
  by apply: ground_idle => //; [lia | rewrite ek].
have [s [o [_ [E _]]]] := sim_c sim Hn.
have [a1 t1] := step_response_terms E j m.
rewrite /memory a1 t1 p0 (fo_idle Hf p0) !mul0r !add0r -mulrDr -/(memory (c n) j m).
by rewrite (IH _ _ p0) mulr0.
Qed.
End One.

Section Two.
Variables (td x0 x1 : F) (n_main n_run_up n_build n_run_up2 n_build2 : Z).
Variables (g g2 : Z -> ground_conditions F #|is_ground| nm) (c c2 : Z -> conditions F ni nj nm)
  (log log2 : seq (option (conditions F ni nj nm * outputs F ni nj))).
Hypothesis sim : simulation data e0 infil x_sat dt h (is_ground := is_ground) td (conditions_init ni nj nm x0) n_main n_run_up n_build g c log.
Hypothesis sim2 : simulation data e0 infil x_sat dt h (is_ground := is_ground) td (conditions_init ni nj nm x1) n_main n_run_up2 n_build2 g2 c2 log2.
Hypothesis le1 : (n_build <= n_run_up)%Z.
Hypothesis le2 : (n_build2 <= n_run_up2)%Z.
Variable n0 : Z.
Hypothesis start1 : (- n_build <= n0)%Z.
Hypothesis start2 : (- n_build2 <= n0)%Z.
Hypothesis same : forall n s o o2, (n0 <= n < n_main)%Z -> column data n s ->
  core_step e0 infil x_sat dt h s (c n) = Some (c (n + 1)%Z, o) ->
  core_step e0 infil x_sat dt h s (c2 n) = Some (c2 (n + 1)%Z, o2) -> same_operation h s o o2 /\ aired dt h sg s o.

Lemma run_gap n : (n0 <= n <= n_main)%Z ->
  gap dt h sg (c n) (c2 n) <= (sg ^+ 2) ^+ Z.to_nat (n - n0) * gap dt h sg (c n0) (c2 n0).
Proof.
move: n; apply: z_ind => [|n Hn IH]; first by rewrite Z.sub_diag expr0 mul1r.
have [s [o [Cs [E _]]]] := sim_c sim (ltac:(lia) : (- n_build <= n < n_main)%Z).
have [s2 [o2 [Cs2 [E2 _]]]] := sim_c sim2 (ltac:(lia) : (- n_build2 <= n < n_main)%Z).
have es : s2 = s by move: Cs Cs2; rewrite /column => -> [].
rewrite es in E2.
have [so ai] := same Hn Cs E E2.
have idle : same_idle h (c n) (c2 n).
  move=> j m p0; rewrite /upcoming p0 !mul0r (sim_idle sim le1) ?(sim_idle sim2 le2) //; lia.
have := gap_step E E2 Hb Hr Hf idle so ai; set X := \sum_i _ => S.
have X0 : 0 <= sg * X.
  rewrite mulr_ge0 ?(ltW (sg_gt0 Hf)) //; apply: sumr_ge0 => i _; apply: sumr_ge0 => j _.
  by rewrite mulr_ge0 ?sqr_ge0 // mulr_ge0 // ltW ?(ph_hc Hb) ?(ph_area Hb).
have -> : Z.to_nat (n + 1 - n0) = (Z.to_nat (n - n0)).+1 by lia.
rewrite exprS -mulrA; apply: le_trans (_ : sg ^+ 2 * gap dt h sg (c n) (c2 n) <= _); last by rewrite ler_wpmul2l ?sqr_ge0.
by apply: le_trans S; rewrite ler_addl.
Qed.
End Two.
End Runs.

(* a rate exists *)
Section Rate.
Variable F : realFieldType.
Add Field Ffield2 : (ffield_theory F).
Ltac fring := ffold F; ring.
Variables ni nj nm : nat.
Variables (dt : F) (h : house F ni nj nm).
Hypothesis Hr : physical_rooms dt h.
Hypothesis Hl : leaky h.

(* true for all numbers from some number below one on *)
Definition near_one (P : F -> Prop) : Prop := exists2 t, t < 1 & forall x, t <= x -> x < 1 -> P x.

Lemma near_and P Q : near_one P -> near_one Q -> near_one (fun x => P x /\ Q x).
Proof.
move=> [t t1 HP] [u u1 HQ]; exists (Num.max t u); first by rewrite lt_maxl t1.
by move=> x; rewrite le_maxl => /andP[tx ux] x1; split; [exact: HP | exact: HQ].
Qed.

Lemma near_seq (T : eqType) (l : seq T) P : (forall k, near_one (P k)) -> near_one (fun x => forall k, k \in l -> P k x).
Proof.
move=> H; elim: l => [|a l IH]; first by exists 0; rewrite ?ltr01.
have [t t1 Ht] := near_and (H a) IH; exists t => // x tx x1 k; rewrite in_cons => /predU1P[->|kl].
  by case: (Ht x tx x1).
by case: (Ht x tx x1) => _; apply.
Qed.

Lemma near_all (T : finType) P : (forall k : T, near_one (P k)) -> near_one (fun x => forall k, P k x).
Proof. by move=> H; have [t t1 Ht] := near_seq (enum T) H; exists t => // x tx x1 k; apply: Ht; rewrite ?mem_enum. Qed.

Lemma near_ge t : t < 1 -> near_one (fun x => t <= x). Proof. by exists t. Qed.

(* (1 - x^2) K <= x^2 g *)
Lemma near_room K g : 0 <= K -> 0 < g -> near_one (fun x => (1 - x ^+ 2) * K <= x ^+ 2 * g).
Proof.
move=> K0 g0; have s0 : 0 < 2%:R * K + g by rewrite ltr_paddl ?mulr_ge0 ?ler0n.
have s2 : 0 < 2%:R * (K + g) by rewrite mulr_gt0 ?ltr0n // ltr_paddl.
exists ((2%:R * K + g) / (2%:R * (K + g))).
  by rewrite ltr_pdivr_mulr // mul1r mulrDr ltr_add2l -subr_gt0 -[X in _ - X]mul1r -mulrBl mulr_gt0 // subr_gt0 ltr1n.
move=> x; rewrite ler_pdivr_mulr // => xt x1; rewrite -subr_ge0.
have -> : x ^+ 2 * g - (1 - x ^+ 2) * K = x * (2%:R * (K + g)) - (2%:R * K + g) + (1 - x) ^+ 2 * (K + g).
  by rewrite !expr2; fring.
by rewrite addr_ge0 ?subr_ge0 // mulr_ge0 ?sqr_ge0 // ltW // ltr_paddl.
Qed.

Lemma near_wall j : near_one (fun x => \sum_m phi_a1 h j m / (x + r_ms h j m) <= phi_a0 h j 0).
Proof.
case: (lk_total Hl j) => [lt|[p0 z]]; last first.
  by exists 0; rewrite ?ltr01 // => x _ _; rewrite big1 // => m _; rewrite z mul0r.
set S := \sum_m _ in lt.
have S0 : 0 <= S.
  apply: sumr_ge0 => m _; have /andP[r0 r1] := lk_ratio Hl j m; rewrite divr_ge0 ?(lk_phi Hl) // addr_ge0 ?ler01 //.
have a0 : 0 < phi_a0 h j 0 by exact: le_lt_trans lt.
exists ((S + phi_a0 h j 0) / (2%:R * phi_a0 h j 0)).
  by rewrite ltr_pdivr_mulr ?mulr_gt0 ?ltr0n // mul1r mulr_natl mulr2n ltr_add2r.
move=> x xt x1; have x0 : 0 < x by apply: lt_le_trans xt; rewrite divr_gt0 ?mulr_gt0 ?ltr0n // ltr_paddl.
have xS : S <= x * phi_a0 h j 0.
  apply: le_trans (_ : (S + phi_a0 h j 0) / (2%:R * phi_a0 h j 0) * phi_a0 h j 0 <= _); last by rewrite ler_pmul2r.
  rewrite invfM mulrA divfK ?gt_eqF // ler_pdivl_mulr ?ltr0n // mulr_natr mulr2n ler_add2l; exact: ltW.
apply: le_trans (_ : S / x <= _); last by rewrite ler_pdivr_mulr // mulrC.
rewrite mulr_suml; apply: ler_sum => m _; have /andP[r0 r1] := lk_ratio Hl j m.
rewrite -mulrA ler_wpmul2l ?(lk_phi Hl) // -invfM ler_pinv ?inE ?unitfE.
- by rewrite mulrC mulrDr mulr1 ler_add2l ler_pimull // ltW.
- by rewrite gt_eqF /= ?ltr_paddr.
- by rewrite gt_eqF /= ?mulr_gt0 ?ltr_paddr ?ltr01.
Qed.

Lemma rate_exists (v0 : F) : 0 < v0 -> exists sg, forgetful dt h sg /\
  forall s o, (forall i, v0 <= air_from_outside h s o i) ->
    (forall i, 0 <= n_hum s i 0 /\ 4%:R * n_hum s i 0 <= 2%:R * (v_room h i 0 * cap_air F / dt)) -> aired dt h sg s o.
Proof.
move=> v0p; have cp : 0 < cap_air F by rewrite mulr_gt0 ?c_air_gt0 ?rho_air_gt0.
have dp := ph_dt Hr.
have n1 : near_one (fun x => forall j m, r_ms h j m <= x).
  by apply: near_all => j; apply: near_all => m; apply: near_ge; have /andP[] := lk_ratio Hl j m.
have n2 := near_all near_wall.
have n3 : near_one (fun x => forall i, (1 - x ^+ 2) * c_sh h i 0 <= x ^+ 2 * (dt * g_sh h i 0)).
  by apply: near_all => i; apply: near_room; rewrite ?(ltW (ph_c_sh Hr i)) // mulr_gt0 // (lk_furniture Hl).
have n4 : near_one (fun x => forall i, (1 - x ^+ 2) * (v_room h i 0 * cap_air F / 2%:R + c_sh h i 0) <= x ^+ 2 * (dt * (cap_air F * v0))).
  apply: near_all => i; apply: near_room; last exact: mulr_gt0 dp (mulr_gt0 cp v0p).
  by rewrite addr_ge0 ?(ltW (ph_c_sh Hr i)) // divr_ge0 ?ler0n //; exact: mulr_ge0 (ltW (ph_room Hr i)) (ltW cp).
have [t t1 H] := near_and (near_and n1 n2) (near_and n3 n4).
have [sg sg1 [tsg s0]] : exists2 sg : F, sg < 1 & t <= sg /\ 0 < sg.
  exists (Num.max t (1 / 2%:R)); first by rewrite lt_maxl t1 ltr_pdivr_mulr ?ltr0n // mul1r ltr1n.
  by rewrite le_maxr lexx; split=> //; rewrite lt_maxr divr_gt0 ?ltr01 ?ltr0n ?orbT.
have [[h1 h2] [h3 h4]] := H sg tsg sg1.
exists sg; split.
  split=> //; try by case: Hl.
  - by rewrite s0.
  - by move=> j m; rewrite h1 andbT; have /andP[] := lk_ratio Hl j m.
move=> s o vo pe; split=> // i; apply: le_trans (h4 i) _; rewrite ler_wpmul2l ?sqr_ge0 // ler_pmul2l // ler_pmul2l //.
Qed.
End Rate.

(* a house in which nothing is switched on *)
Section Free.
Variable F : realFieldType.
Variables ni nj nm : nat.
Variables (e0 : F) (infil : infil_fun F ni) (x_sat : F -> F) (dt : F) (h : house F ni nj nm).
Hypothesis ch : forall i, 0 <= cap_h h i 0.
Hypothesis cc : forall i, 0 <= cap_c h i 0.

Lemma free_step s (c c' : conditions F ni nj nm) o : core_step e0 infil x_sat dt h s c = Some (c', o) ->
  (forall i, ac_demand s i 0 <= 0) ->
  [/\ o_l_cs o = 0, o_l_rs o = 0, forall i, o_v_ntrl o i 0 = 0 & o_v_leak o = infil (theta_r c) (theta_o s)].
Proof.
move=> Hs off; have [q [Hq Ht]] := stepP Hs.
have md i : operation_mode c' i = STOP_CLOSE.
  case: (run_tickP Ht) => md lo up ? ? v_out ? ? xot kc kr ? ? ? ? ? ? ? ?.
  move=> otE -> *; move: otE; rewrite /get_ot_target_and_h_hum; case: ifP => // _ [_ _ <- _ _].
  by rewrite /ot_target_pmv /get_operation_mode; have := off i; case: ltP.
have [l1 l2] : o_l_cs o = 0 /\ o_l_rs o = 0 by apply: (tick_all_off Ht) => // i; rewrite md.
split=> // [i|]; first by have [_ ->] := step_windows Hs i; rewrite ?md.
case: (run_tickP Ht) => *.
by match goal with E : o_v_leak o = _ |- _ => rewrite E end.
Qed.

Lemma free_same s (c c' c2 c2' : conditions F ni nj nm) o o2 : (forall t t2 to, infil t to = infil t2 to) ->
  (forall i, ac_demand s i 0 <= 0) ->
  core_step e0 infil x_sat dt h s c = Some (c', o) -> core_step e0 infil x_sat dt h s c2 = Some (c2', o2) -> same_operation h s o o2.
Proof.
move=> fixed off H1 H2.
have [a1 a2 a3 a4] := free_step H1 off; have [b1 b2 b3 b4] := free_step H2 off.
split=> i; rewrite ?a1 ?a2 ?b1 ?b2 // /air_from_outside a3 b3 a4 b4.
by rewrite (fixed (theta_r c2) (theta_r c)).
Qed.
End Free.

Section FreeRun.
Variable F : realFieldType.
Variables ni nj nm : nat.
Variable data : seq (step_data F ni nj).
Variables (e0 : F) (infil : infil_fun F ni) (x_sat : F -> F) (dt : F) (h : house F ni nj nm) (sg v0 : F).
Variable is_ground : pred 'I_nj.
Hypothesis Hb : physical_boundaries h.
Hypothesis Hr : physical_rooms dt h.
Hypothesis Hf : forgetful dt h sg.
Hypothesis Hv : forall s o, (forall i, v0 <= air_from_outside h s o i) ->
    (forall i, 0 <= n_hum s i 0 /\ 4%:R * n_hum s i 0 <= 2%:R * (v_room h i 0 * cap_air F / dt)) -> aired dt h sg s o.
Hypothesis ch : forall i, 0 <= cap_h h i 0.
Hypothesis cc : forall i, 0 <= cap_c h i 0.
Hypothesis fixed : forall t t2 to, infil t to = infil t2 to.
Hypothesis i0 : forall t to i, 0 <= infil t to i 0.
Hypothesis idle : forall s, List.In s data -> unattended dt h v0 s.
Variables (td x0 x1 : F) (n_main n_run_up n_build n_run_up2 n_build2 : Z).
Variables (g g2 : Z -> ground_conditions F #|is_ground| nm) (c c2 : Z -> conditions F ni nj nm)
  (log log2 : seq (option (conditions F ni nj nm * outputs F ni nj))).
Hypothesis sim : simulation data e0 infil x_sat dt h (is_ground := is_ground) td (conditions_init ni nj nm x0) n_main n_run_up n_build g c log.
Hypothesis sim2 : simulation data e0 infil x_sat dt h (is_ground := is_ground) td (conditions_init ni nj nm x1) n_main n_run_up2 n_build2 g2 c2 log2.
Hypothesis le1 : (n_build <= n_run_up)%Z.
Hypothesis le2 : (n_build2 <= n_run_up2)%Z.
Variable n0 : Z.
Hypothesis start1 : (- n_build <= n0)%Z.
Hypothesis start2 : (- n_build2 <= n0)%Z.

Lemma free_run n : (n0 <= n <= n_main)%Z ->
  gap dt h sg (c n) (c2 n) <= (sg ^+ 2) ^+ Z.to_nat (n - n0) * gap dt h sg (c n0) (c2 n0).
Proof.
apply: (run_gap Hb Hr Hf sim sim2) => // k s o o2 Hk Cs E E2.
have un : unattended dt h v0 s by apply: idle; apply: List.nth_error_In Cs.
have off i : ac_demand s i 0 <= 0 by have [] := un i.
split; first exact: (free_same ch cc fixed off E E2).
apply: Hv => i; have [_ v1 n1 n2] := un i; last by split.
have [_ _ w l] := free_step ch cc E off; rewrite /air_from_outside w addr0.
by rewrite l; apply: le_trans v1 _; rewrite ler_addr i0.
Qed.
End FreeRun.

(* with time, everything in the rooms is forgotten *)
Section Vanish.
Variable F : archiFieldType.
Variables ni nj nm : nat.
Variables (dt : F) (h : house F ni nj nm) (sg : F).
Hypothesis Hb : physical_boundaries h.
Hypothesis Hr : physical_rooms dt h.
Hypothesis Hf : forgetful dt h sg.

Lemma gap_vanishes (B eps : F) : 0 <= B -> 0 < eps -> exists K, forall k (c c2 : conditions F ni nj nm), (K <= k)%N ->
  gap dt h sg c c2 <= (sg ^+ 2) ^+ k * B ->
  forall i, (theta_r c2 i 0 - theta_r c i 0) ^+ 2 < eps /\ (theta_frt c2 i 0 - theta_frt c i 0) ^+ 2 < eps.
Proof.
move=> B0 e0; have cp : 0 < cap_air F by rewrite mulr_gt0 ?c_air_gt0 ?rho_air_gt0.
have /andP[s0 s1] := fo_sigma Hf; have dp := ph_dt Hr.
have w0 i : 0 < v_room h i 0 * cap_air F / dt by rewrite divr_gt0 //; exact: mulr_gt0 (ph_room Hr i) cp.
have f0 i : 0 < c_sh h i 0 / dt by rewrite divr_gt0 // (ph_c_sh Hr).
pose W := \sum_i ((v_room h i 0 * cap_air F / dt)^-1 + (c_sh h i 0 / dt)^-1).
have W1 i : (v_room h i 0 * cap_air F / dt)^-1 <= W /\ (c_sh h i 0 / dt)^-1 <= W.
  have T : (v_room h i 0 * cap_air F / dt)^-1 + (c_sh h i 0 / dt)^-1 <= W.
    rewrite /W (bigD1 i) //= ler_addl; apply: sumr_ge0 => k _.
    by rewrite addr_ge0 // invr_ge0 ltW.
  by split; apply: le_trans T; rewrite ?ler_addl ?ler_addr invr_ge0 ltW.
have W0 : 0 <= W by apply: sumr_ge0 => k _; rewrite addr_ge0 // invr_ge0 ltW.
have [] := @geometric_vanishes F (sg ^+ 2) (2%:R * sg * B * W) eps _ _ e0.
- by rewrite sqr_ge0 /= expr_lt1 // ltW.
- by rewrite !mulr_ge0 ?ler0n // ltW.
move=> K HK; exists K => k c c2 Hk G i.
have [g1 g2] := gap_room Hb Hr Hf c c2 i; have [w1 w2] := W1 i.
have S0 : 0 <= 2%:R * sg * gap dt h sg c c2 by rewrite mulr_ge0 ?(gap_ge0 Hb Hr Hf) // mulr_ge0 ?ler0n // ltW.
have E : 2%:R * sg * gap dt h sg c c2 * W < eps.
  apply: le_lt_trans (HK k Hk).
  have -> : (sg ^+ 2) ^+ k * (2%:R * sg * B * W) = 2%:R * sg * ((sg ^+ 2) ^+ k * B) * W.
    by move: ((sg ^+ 2) ^+ k) => u; rewrite !mulrA -!mulrA (mulrCA u) (mulrCA u).
  by apply: ler_wpmul2r => //; apply: ler_wpmul2l => //; rewrite mulr_ge0 ?ler0n // ltW.
split; apply: le_lt_trans E.
  by apply: le_trans (_ : 2%:R * sg * gap dt h sg c c2 / (v_room h i 0 * cap_air F / dt) <= _);
    rewrite ?ler_wpmul2l // ler_pdivl_mulr // mulrC.
by apply: le_trans (_ : 2%:R * sg * gap dt h sg c c2 / (c_sh h i 0 / dt) <= _);
    rewrite ?ler_wpmul2l // ler_pdivl_mulr // mulrC.
Qed.
End Vanish.

Section Forgotten.
Variable F : realFieldType.
Variables ni nj nm : nat.
Variable data : seq (step_data F ni nj).
Variables (e0 : F) (infil : infil_fun F ni) (x_sat : F -> F) (dt : F) (h : house F ni nj nm) (sg v0 : F).
Variable is_ground : pred 'I_nj.
Hypothesis Hb : physical_boundaries h.
Hypothesis Hr : physical_rooms dt h.
Hypothesis Hf : forgetful dt h sg.
Hypothesis Hv : forall s o, (forall i, v0 <= air_from_outside h s o i) ->
    (forall i, 0 <= n_hum s i 0 /\ 4%:R * n_hum s i 0 <= 2%:R * (v_room h i 0 * cap_air F / dt)) -> aired dt h sg s o.
Hypothesis ch : forall i, 0 <= cap_h h i 0.
Hypothesis cc : forall i, 0 <= cap_c h i 0.
Hypothesis fixed : forall t t2 to, infil t to = infil t2 to.
Hypothesis i0 : forall t to i, 0 <= infil t to i 0.
Hypothesis idle : forall s, List.In s data -> unattended dt h v0 s.
Variables (td x0 x1 : F) (n_main n_run_up n_build n_run_up2 n_build2 : Z).
Variables (g g2 : Z -> ground_conditions F #|is_ground| nm) (c c2 : Z -> conditions F ni nj nm)
  (log log2 : seq (option (conditions F ni nj nm * outputs F ni nj))).
Hypothesis sim : simulation data e0 infil x_sat dt h (is_ground := is_ground) td (conditions_init ni nj nm x0) n_main n_run_up n_build g c log.
Hypothesis sim2 : simulation data e0 infil x_sat dt h (is_ground := is_ground) td (conditions_init ni nj nm x1) n_main n_run_up2 n_build2 g2 c2 log2.
Hypothesis le1 : (n_build <= n_run_up)%Z.
Hypothesis le2 : (n_build2 <= n_run_up2)%Z.
Variable n0 : Z.
Hypothesis start1 : (- n_build <= n0)%Z.
Hypothesis start2 : (- n_build2 <= n0)%Z.

Lemma free_forgotten (B eps : F) K : 0 <= B ->
  (forall k (c c2 : conditions F ni nj nm), (K <= k)%N -> gap dt h sg c c2 <= (sg ^+ 2) ^+ k * B ->
    forall i, (theta_r c2 i 0 - theta_r c i 0) ^+ 2 < eps /\ (theta_frt c2 i 0 - theta_frt c i 0) ^+ 2 < eps) ->
  gap dt h sg (c n0) (c2 n0) <= B -> forall n, (n0 + Z.of_nat K <= n <= n_main)%Z ->
  forall i, (theta_r (c2 n) i 0 - theta_r (c n) i 0) ^+ 2 < eps /\ (theta_frt (c2 n) i 0 - theta_frt (c n) i 0) ^+ 2 < eps.
Proof.
move=> B0 HK G n Hn; apply: (HK (Z.to_nat (n - n0))); first by apply/ssrnat.leP; lia.
have Hn' : (n0 <= n <= n_main)%Z by lia.
apply: le_trans (free_run Hb Hr Hf Hv ch cc fixed i0 idle sim sim2 le1 le2 start1 start2 Hn') _.
by apply: ler_wpmul2l => //; rewrite exprn_ge0 // sqr_ge0.
Qed.
End Forgotten.
