(* The twin house: two equal rooms and two partitions between them. Each room has its heated floor on a different
   partition, so the floor heating of one room also warms a surface of the other. *)
From mathcomp Require Import all_ssreflect ssralg ssrnum zmodp matrix.
From Coq Require Import Ring Field.
From Verif Require Import Model.OperationMode Model.Numpy Model.NextCondition Model.PreCalc
  Model.HeatExchanger Model.Tick Model.Step Model.OtTarget Spec.Physical.
From Verif Require Import Lemmas.FieldTac Lemmas.NumpyL Lemmas.TickBalance Lemmas.MMatrix Lemmas.TickTotal Lemmas.LoadRefute Lemmas.ModeL Lemmas.ColdL Examples.House2.
Set Implicit Arguments. Unset Strict Implicit. Unset Printing Implicit Defensive.
Import Order.TTheory GRing.Theory Num.Theory.
Local Open Scope ring_scope.

Section Twin.
Variable Q : realFieldType.
Add Field Ffield : (ffield_theory Q).
Ltac fring := ffold Q; ring.
Ltac ffield := ffold Q; field.

(* boundaries 0, 2 belong to room 0 and 1, 3 to room 1; 0 and 1 are the sides of one partition, 2 and 3 of the other *)
Definition tw_k_ei (j : 'I_4) : option ('I_4 * Q) :=
  nth None [:: Some (inord 1, 1); Some (inord 0, 1); Some (inord 3, 1); Some (inord 2, 1)] j.
Definition tw_flr (j : 'I_4) : Q := nth 0 [:: 1; 0; 0; 1] j.
Definition tw_hum (w : Q) (j : 'I_4) : Q := nth 0 [:: w; 1 - w; 1 - w; w] j.

(* partitions of resistance 1/18 without thermal mass *)
Definition twin (w : Q) (rad : bool) (cap : 'cV[Q]_2) : house Q 2 4 1 := {|
  v_room := const_mx 30%:R; beta := 0; v_vent_ex := const_mx (1 / 100%:R); v_int := 0;
  v_ntrl := const_mx (1 / 10%:R); c_sh := const_mx 1000%:R; g_sh := const_mx 10%:R;
  c_lh := const_mx 16%:R; g_lh := const_mx 1;
  is_rad_h := fun _ => rad; cap_h := cap; is_rad_c := fun _ => rad; cap_c := cap;
  q_min := const_mx 500%:R; q_max := const_mx 3000%:R; v_min := const_mx 6%:R; v_max := const_mx 11%:R;
  conn := ex_conn; a_srf := const_mx 12%:R;
  phi_a0 := const_mx (1 / 6%:R); phi_a1 := 0; phi_t0 := const_mx 1; phi_t1 := 0; r_ms := const_mx (1 / 2%:R);
  h_c := const_mx 4%:R; h_r := const_mx 5%:R; flr := \col_j tw_flr j; is_solar_abs := fun _ => true;
  f_mrt_hum := \col_j tw_hum w j; k_eo := 0; k_ei := tw_k_ei |}.

(* a dark, cold quarter of an hour with the given demands, and a house that has cooled out *)
Definition tw_step (ac : 'cV[Q]_2) : step_data Q 2 4 := {|
  theta_o := 0; x_o := 0; v_mec_local := 0; q_gen := 0; x_gen := 0; n_hum := 0; ac_demand := ac;
  q_trs_sol := 0; theta_o_sol := 0 |}.
Definition tw_cond : conditions Q 2 4 1 := {|
  operation_mode := fun _ => HEATING; theta_r := 0; theta_mrt_hum := 0; x_r := 0; theta_dsh_a := 0; theta_dsh_t := 0;
  q_srf := 0; theta_frt := 0; x_frt := 0; theta_ei := 0 |}.

Lemma tw_cold_state : cold_state tw_cond. Proof. by []. Qed.
Lemma tw_cold_data ac : cold_data (tw_step ac). Proof. by []. Qed.

Section House.
Variables (w : Q) (rad : bool) (cap : 'cV[Q]_2).
Local Notation H := (twin w rad cap).

Lemma twin_boundaries : physical_boundaries H.
Proof.
split=> /=; try by move=> j; rewrite mxE ?divr_gt0 ?divr_ge0 ?ltr0n ?ler0n ?ltr01 ?ler01.
  by case=> [[|[|[|[|]]]]].
by case=> [[|[|[|[|//]]]]] //= hj k coef [_ <-]; rewrite mxE mulr1 ler01; split.
Qed.

Lemma twin_rooms : physical_rooms 900%:R H.
Proof.
split=> //=; try by move=> i; rewrite ?mxE ?divr_gt0 ?divr_ge0 ?ltr0n ?ler0n ?ler01 ?ltr01.
- by rewrite ltr0n.
- by move=> i k; rewrite mxE.
- by move=> i; rewrite mxE big1 ?divr_gt0 ?ltr0n // => k _; rewrite mxE.
- by move=> i; rewrite !mxE ler0n ltr_nat.
- by move=> i; rewrite !mxE ler0n ler_nat.
by move=> i; rewrite !mxE -!natrB // -!natrM ler_nat.
Qed.

Lemma twin_hum : 0 <= w -> w <= 1 -> physical_hum H.
Proof.
move=> w0 w1; split=> /=.
  by case=> [[|[|[|[|//]]]]] hj; rewrite mxE /tw_hum /= ?subr_ge0.
move=> i; rewrite big_mkcond !big_ord_recl big_ord0 !mxE /tw_hum /ex_conn /=.
by case: i => [[|[|//]]] ? /=; rewrite ?addr0 ?add0r; first [by rewrite subrK lexx | by rewrite addrC subrK lexx].
Qed.

Lemma twin_air ac : physical_air H (tw_step ac).
Proof. by move=> i; rewrite /= !mxE addr0 !divr_ge0 ?ler01 ?ler0n. Qed.

Lemma twin_radiant : physical_radiant H.
Proof.
split=> /=; first by move=> i; rewrite mxE lexx ltr01.
  by case=> [[|[|[|[|//]]]]] hj; rewrite mxE /tw_flr /= ?ler01.
apply: all2.
  by exists ord0; rewrite !mxE /tw_flr /= divr_gt0 ?ltr01 ?ltr0n.
by exists ord_max; rewrite !mxE /tw_flr /= divr_gt0 ?ltr01 ?ltr0n.
Qed.

Variable q : pp Q 2 4.
Hypothesis Hq : make_pp H 900%:R = Some q.

Definition col4 (a b c e : Q) : 'cV[Q]_4 := \col_j nth 0 [:: a; b; c; e] j.

Lemma m_rad (a b c e : Q) : f_mrt_is_js H *m col4 a b c e = col2 ((a + c) / 2%:R) ((b + e) / 2%:R).
Proof.
have n60 : (60%:R : Q) != 0 by rewrite pnatr_eq0.
apply/matrixP => i j; rewrite (ord1 j) {j}; rewrite mxE !big_ord_recl big_ord0 !f_mrtE /ah_sum.
rewrite !big_mkcond !big_ord_recl !big_ord0 !mxE /ex_conn /=.
have -> : 12%:R * 5%:R = 60%:R :> Q by rewrite -natrM.
have half : 60%:R / (60%:R + 60%:R) = 2%:R^-1 :> Q.
  by rewrite -[60%:R + _]mulr2n -[_ *+ 2]mulr_natr invfM mulrA divff ?mul1r.
move: i; apply: all2; rewrite /= ?addr0 ?add0r ?mul0r ?addr0 ?add0r half -mulrDr mulrC //.
Qed.

(* the response of the walls to equal (s = 1) or opposite (s = -1) conditions in the two rooms *)
Lemma twin_walls (s T l x y : Q) : s = 1 \/ s = -1 ->
  5%:R / 2%:R * x = (1 / 6%:R + s / 9%:R) * (8%:R * T + 5%:R * x + l / 12%:R) ->
  5%:R / 2%:R * y = (1 / 6%:R - s / 9%:R) * (l / 12%:R) ->
  col4 ((x + y) / 2%:R) (s * ((x - y) / 2%:R)) ((x - y) / 2%:R) (s * ((x + y) / 2%:R)) =
  wsr q *m col2 T (s * T) + wsb q *m col2 l (s * l).
Proof.
move=> sE Ex Ey; apply: (walls_mode Hq) => j.
rewrite m_rad /on_surface /=; set u : Q := 18%:R^-1.
have pE (v : 'cV[Q]_2) k : (p_js_is H *m v) k 0 = if ex_conn k == 0%N then v 0 0 else v 1 0.
  by case: k => [[|[|[|[|//]]]]] hk; rewrite mxE sum2 !mxE /= ?mul1r ?mul0r ?add0r ?addr0.
have fE (v : 'cV[Q]_2) k : (flr_js_is H *m v) k 0 = tw_flr k * (if ex_conn k == 0%N then v 0 0 else v 1 0).
  by rewrite cmul_mulE mxE pE.
rewrite !pE !fE !mxE /=.
have u18 : 18%:R * u = 1 by rewrite mulfV // pnatr_eq0.
have inv_u (m n : nat) : (m * n = 18)%N -> (m%:R : Q)^-1 = n%:R * u.
  move=> mn; apply: (mulfI (x := m%:R)); first by rewrite pnatr_eq0; case: m mn.
  by rewrite mulrA -natrM mn u18 mulfV // pnatr_eq0; case: m mn.
have e2 := inv_u 2%N 9%N erefl; have e6 := inv_u 6%N 3%N erefl; have e9 := inv_u 9%N 2%N erefl.
have e45 : 1 + 1 / 6%:R * (4%:R + 5%:R) = 45%:R * u.
  by rewrite -natrD -{1}u18 e6 mul1r mulrAC -natrM -mulrDl -natrD.
have mxy : (x + y) / 2%:R + (x - y) / 2%:R = x.
  by rewrite -mulrDl addrACA subrr addr0 -mulr2n -[_ *+ 2]mulr_natr mulfK // pnatr_eq0.
rewrite e45 -mulrDr [(x - y) / _ + _]addrC mxy -natrD.
move: Ex Ey; rewrite e2 e6 e9; set l' := l / 12%:R => Ex Ey.
move/eqP: Ex; rewrite -subr_eq0 => /eqP; set ex := (X in X = 0) => Ex.
move/eqP: Ey; rewrite -subr_eq0 => /eqP; set ey := (X in X = 0) => Ey.
have e0 a b K : a * ex + b * ey + (1 - 18%:R * u) * K = 0 by rewrite Ex Ey u18 subrr mul0r !mulr0 !addr0.
apply: subr0_eq; clearbody u.
case: j => [[|[|[|[|//]]]]] hj; rewrite /tw_k_ei /= ?pE ?fE /tw_flr ?mxE /ex_conn /= ?inordK //= ?mxE /= ?e9.
all: rewrite !mul1r !(mul0r, subr0, mul1r) -?/l' -?[s * l / _]mulrA -?/l' ?(addr0, e2); clearbody l'.
- transitivity ((9%:R * u) * ex + (9%:R * u) * ey + (1 - 18%:R * u) * (- u * (12%:R * T + 3%:R * l' + 8%:R * s * T))); last exact: e0.
  by rewrite /ex /ey; case: sE => ->; fring.
- transitivity ((s * 9%:R * u) * ex + (- s * 9%:R * u) * ey + (1 - 18%:R * u) * (- u * (12%:R * s * T + 2%:R * l' + 8%:R * T))); last exact: e0.
  by rewrite /ex /ey; case: sE => ->; fring.
- transitivity ((9%:R * u) * ex + (- 9%:R * u) * ey + (1 - 18%:R * u) * (- u * (12%:R * T + 2%:R * s * l' + 8%:R * s * T))); last exact: e0.
  by rewrite /ex /ey; case: sE => ->; fring.
transitivity ((s * 9%:R * u) * ex + (s * 9%:R * u) * ey + (1 - 18%:R * u) * (- u * (12%:R * s * T + 3%:R * s * l' + 8%:R * T))); last exact: e0.
  by rewrite /ex /ey; case: sE => ->; fring.
Qed.

Lemma hum4 (a b c e : Q) : f_mrt_hum_is_js H *m col4 a b c e = col2 (w * a + (1 - w) * c) ((1 - w) * b + w * e).
Proof.
apply/matrixP => i j; rewrite (ord1 j) {j} mxE !big_ord_recl big_ord0 !mxE /ex_conn /tw_hum /=.
by move: i; apply: all2; rewrite /= !(mul0r, mul1r, addr0, add0r).
Qed.

Variables (kc kr v : Q) (xot : 'M[Q]_2).
Hypothesis Hx : inv (vdiag (const_mx kc) + cmul (const_mx kr) (f_mrt_hum_is_js H *m wsr q)) = Some xot.

(* what storing, ventilating and furnishing take per degree *)
Definition tw_g : Q := 30%:R * rho_air Q * c_air Q / 900%:R + 1000%:R * 10%:R / (1000%:R + 10%:R * 900%:R)
  + c_air Q * rho_air Q * v.
Definition tw_a : 'M[Q]_2 := brm_of H q (const_mx v) *m xot.
Definition tw_b : 'M[Q]_2 := brl q + brm_of H q (const_mx v) *m (xot *m cmul (const_mx kr) (f_mrt_hum_is_js H *m wsb q)).

Lemma twin_mode (s T l x y t n : Q) : s = 1 \/ s = -1 ->
  5%:R / 2%:R * x = (1 / 6%:R + s / 9%:R) * (8%:R * T + 5%:R * x + l / 12%:R) ->
  5%:R / 2%:R * y = (1 / 6%:R - s / 9%:R) * (l / 12%:R) ->
  t = kc * T + kr * (w * ((x + y) / 2%:R) + (1 - w) * ((x - y) / 2%:R)) -> n = (tw_g + 96%:R) * T - 48%:R * x ->
  tw_a *m col2 t (s * t) - tw_b *m col2 l (s * l) = col2 n (s * n).
Proof.
move=> sE Ex Ey tE nE; have tsE := twin_walls sE Ex Ey.
have := mode_need Hx (brm_of H q (const_mx v)) tsE; rewrite hum4 => M.
have -> : col2 t (s * t) = emul (const_mx kc) (col2 T (s * T)) + emul (const_mx kr)
   (col2 (w * ((x + y) / 2%:R) + (1 - w) * ((x - y) / 2%:R)) ((1 - w) * (s * ((x - y) / 2%:R)) + w * (s * ((x + y) / 2%:R)))).
  by apply/matrixP => i j; rewrite (ord1 j) !mxE tE; move: i; apply: all2 => /=; fring.
rewrite M; apply/matrixP => i j; rewrite (ord1 j) {j} (need_room Hq _ _ tsE) //.
rewrite big_mkcond !big_ord_recl big_ord0 !mxE /ex_conn /= nE /tw_g.
have n2 : (2%:R : Q) != 0 by rewrite pnatr_eq0.
have e48 : 4%:R * 12%:R = 48%:R :> Q by rewrite -natrM.
have e96 : 48%:R * 2%:R = 96%:R :> Q by rewrite -natrM.
rewrite e48 -e96; have mxy : x = (x + y) / 2%:R + (x - y) / 2%:R.
  by rewrite -mulrDl addrACA subrr addr0 -mulr2n -[_ *+ 2]mulr_natr mulfK.
rewrite [in RHS]mxy; move: ((x + y) / 2%:R) ((x - y) / 2%:R) => xa xb.
move: i; apply: all2 => /=; rewrite !(mul0r, addr0, add0r, subr0); set g := (_ / _ + _ + _); move: g => g;
  move: (48%:R : Q) => k; fring.
Qed.

End House.
End Twin.
