(* Saturation pressure and humidity conversions *)
From Coq Require Import Reals List Lra Lia Bool Psatz.
From Verif Require Import Model.Py Model.EesHouse Model.Psychro Lemmas.ExpBoundL Lemmas.PyL.
Import ListNotations.
Local Open Scope R_scope.

(* the exponents as functions of the absolute temperature *)
Definition ea (t : R) : R := a_1 / t + a_2 + a_3 * t + a_4 * t ^ 2 + a_5 * ln t.
Definition eb (t : R) : R := b_1 / t + b_2 + b_3 * t + b_4 * t ^ 2 + b_5 * ln t.

Lemma sat_ok c1 c2 c3 c4 c5 t : 0 < t -> sat c1 c2 c3 c4 c5 t = Ok (exp (c1 / t + c2 + c3 * t + c4 * t ^ 2 + c5 * ln t)).
Proof.
intro T; unfold sat, fdiv, math_log; destruct (Req_EM_T t 0) as [E|_]; [lra|]; cbn [bind].
destruct (Rle_dec t 0) as [L|_]; [lra|reflexivity].
Qed.

Lemma p_vs_above theta : - 27315 / 100 < theta ->
  get_p_vs theta = Ok (exp (if Rle_dec 0 theta then ea (theta + 27315 / 100) else eb (theta + 27315 / 100))).
Proof. intro T; unfold get_p_vs; destruct (Rle_dec 0 theta); apply sat_ok; lra. Qed.

Lemma p_vs_zero : get_p_vs (- 27315 / 100) = Err ZeroDivisionError.
Proof.
unfold get_p_vs; destruct (Rle_dec 0 (- 27315 / 100)) as [L|_]; [lra|].
unfold sat, fdiv; destruct (Req_EM_T _ 0) as [_|N]; [reflexivity|lra].
Qed.

Lemma p_vs_below theta : theta < - 27315 / 100 -> get_p_vs theta = Err ValueError.
Proof.
intro T; unfold get_p_vs; destruct (Rle_dec 0 theta) as [L|_]; [lra|].
unfold sat, fdiv, math_log; destruct (Req_EM_T _ 0) as [E|_]; [lra|]; cbn [bind].
destruct (Rle_dec _ 0) as [_|N]; [reflexivity|lra].
Qed.

Lemma p_vs_pos theta p : get_p_vs theta = Ok p -> 0 < p.
Proof.
intro E; destruct (Rtotal_order theta (- 27315 / 100)) as [L|[->|L]].
- rewrite (p_vs_below _ L) in E; discriminate.
- rewrite p_vs_zero in E; discriminate.
- rewrite (p_vs_above theta ltac:(lra)) in E; injection E as <-; apply exp_pos.
Qed.

(* ln between two points *)
Lemma ln_step s t : 0 < s < t -> 0 < ln t - ln s < (t - s) / s.
Proof.
intros [S L]; assert (Q : 0 < t - s) by lra; split; [assert (ln s < ln t) by (apply ln_increasing; lra); lra|].
assert (Q2 : 0 < (t - s) / s) by (apply Rdiv_lt_0_compat; lra).
apply Rlt_le_trans with (ln (exp ((t - s) / s))); [|rewrite ln_exp; lra].
unfold Rminus at 1; rewrite <- ln_Rinv by exact S; rewrite <- ln_mult by (try apply Rinv_0_lt_compat; lra).
apply ln_increasing; [apply Rmult_lt_0_compat; [lra|apply Rinv_0_lt_compat, S]|].
replace (t * / s) with (1 + (t - s) / s) by (field; lra); apply exp_ineq1; lra.
Qed.

Lemma ea_incr s t : 0 < s < t -> ea s < ea t.
Proof.
intros [S L]; destruct (ln_step s t (conj S L)) as [G _].
assert (P : 0 < s * t) by nra.
assert (E : ea t - ea s = (t - s) * ((60969385 / 10000) / (s * t) + a_3 + a_4 * (s + t)) + a_5 * (ln t - ln s)).
{ unfold ea, a_1; field; lra. }
assert (H : 0 < (60969385 / 10000) / (s * t) + a_3 + a_4 * (s + t)).
{ unfold a_3, a_4.
  assert (Q : 0 < (60969385 / 10000) + (- (2711193 / 100000000) + 1673952 / 100000000000 * (s + t)) * (s * t)).
  { set (u := s + t); assert (U : 4 * (s * t) <= u ^ 2) by (unfold u; nra); assert (U0 : 0 < u) by (unfold u; lra).
    destruct (Rle_dec 0 (- (2711193 / 100000000) + 1673952 / 100000000000 * u)) as [N|N]; [nra|].
    apply Rlt_le_trans with ((60969385 / 10000) + (- (2711193 / 100000000) + 1673952 / 100000000000 * u) * (u ^ 2 / 4)); [|nra].
    (* minimum near u = 1080 *)
    assert (V : 0 <= (u - 1080) ^ 2 * (u + 540)) by (apply Rmult_le_pos; [apply pow2_ge_0|lra]).
    nra. }
  replace (60969385 / 10000 / (s * t) + - (2711193 / 100000000) + 1673952 / 100000000000 * (s + t)) with
    (((60969385 / 10000) + (- (2711193 / 100000000) + 1673952 / 100000000000 * (s + t)) * (s * t)) / (s * t)) by (field; lra).
  apply Rdiv_lt_0_compat; assumption. }
assert (K : 0 < (t - s) * ((60969385 / 10000) / (s * t) + a_3 + a_4 * (s + t))) by (apply Rmult_lt_0_compat; lra).
assert (0 < a_5 * (ln t - ln s)) by (apply Rmult_lt_0_compat; [unfold a_5; lra|exact G]).
lra.
Qed.

Lemma eb_incr s t : 0 < s < t -> t <= 27315 / 100 -> eb s < eb t.
Proof.
intros [S L] U; destruct (ln_step s t (conj S L)) as [_ G].
assert (P : 0 < s * t) by nra.
assert (E : eb t - eb s = (t - s) * ((60245282 / 10000) / (s * t) + b_3 + b_4 * (s + t)) + b_5 * (ln t - ln s)).
{ unfold eb, b_1; field; lra. }
assert (H : 0 < (60245282 / 10000 - 1 / 2 * t) / (s * t)) by (apply Rdiv_lt_0_compat; lra).
assert (K : 0 < b_3 + b_4 * (s + t)) by (unfold b_3, b_4; lra).
assert (M : (t - s) * ((60245282 / 10000) / (s * t)) - 1 / 2 * ((t - s) / s) = (t - s) * ((60245282 / 10000 - 1 / 2 * t) / (s * t))) by (field; lra).
assert (0 < (t - s) * ((60245282 / 10000 - 1 / 2 * t) / (s * t))) by (apply Rmult_lt_0_compat; lra).
assert (0 < (t - s) * (b_3 + b_4 * (s + t))) by (apply Rmult_lt_0_compat; lra).
assert (0 < ln t - ln s) by (apply ln_step; lra).
unfold b_5 in E; lra.
Qed.

Lemma ln_273 : 561002 / 100000 < ln (27315 / 100) < 5610022 / 1000000.
Proof.
split; [apply ln_above; exp_lt_const 8%nat 9%nat (561002 / 800000)|].
apply ln_below; [lra|]; const_lt_exp 8%nat 9%nat (5610022 / 8000000).
Qed.

Lemma ea_273 : 64154425 / 10000000 < ea (27315 / 100) < 6415448 / 1000000.
Proof. assert (L := ln_273); unfold ea, a_1, a_2, a_3, a_4, a_5; lra. Qed.
Lemma eb_273 : 6415345 / 1000000 < eb (27315 / 100) < 6415348 / 1000000.
Proof. assert (L := ln_273); unfold eb, b_1, b_2, b_3, b_4, b_5; lra. Qed.

(* the ice formula ends below the value from which the water formula starts *)
Lemma p_vs_incr s t p q : - 27315 / 100 < s -> s < t -> get_p_vs s = Ok p -> get_p_vs t = Ok q -> p < q.
Proof.
intros S L; rewrite (p_vs_above s S), (p_vs_above t ltac:(lra)); intros E1 E2; injection E1 as <-; injection E2 as <-.
apply exp_increasing; destruct (Rle_dec 0 s) as [A|A], (Rle_dec 0 t) as [B|B].
- apply ea_incr; lra.
- lra.
- assert (H := ea_273); assert (K := eb_273).
  assert (eb (s + 27315 / 100) < eb (27315 / 100)) by (apply eb_incr; lra).
  assert (ea (27315 / 100) <= ea (t + 27315 / 100)); [|lra].
  destruct B as [B| <-]; [left; apply ea_incr; lra|rewrite Rplus_0_l; lra].
- apply eb_incr; lra.
Qed.

(* values *)
Lemma p_vs_0 : exists p, get_p_vs 0 = Ok p /\ 6112 / 10 < p < 61122 / 100.
Proof.
rewrite p_vs_above by lra; eexists; split; [reflexivity|]; destruct (Rle_dec 0 0) as [_|N]; [|lra]; rewrite Rplus_0_l.
destruct ea_273 as [A B]; apply exp_increasing in A; apply exp_increasing in B; split.
- eapply Rlt_trans; [|exact A]; const_lt_exp 8%nat 9%nat (64154425 / 80000000).
- eapply Rlt_trans; [exact B|]; exp_lt_const 8%nat 9%nat (6415448 / 8000000).
Qed.

Lemma p_vs_frost theta p : theta < 0 -> get_p_vs theta = Ok p -> p < 61116 / 100.
Proof.
intros T E; destruct (Rtotal_order theta (- 27315 / 100)) as [L|[->|L]].
- rewrite (p_vs_below _ L) in E; discriminate.
- rewrite p_vs_zero in E; discriminate.
- rewrite (p_vs_above theta ltac:(lra)) in E; injection E as <-; destruct (Rle_dec 0 theta) as [N|_]; [lra|].
  apply Rlt_trans with (exp (6415348 / 1000000)); [apply exp_increasing|exp_lt_const 8%nat 9%nat (6415348 / 8000000)].
  assert (K := eb_273); assert (eb (theta + 27315 / 100) < eb (27315 / 100)) by (apply eb_incr; lra); lra.
Qed.

Lemma p_vs_20 : exists p, get_p_vs 20 = Ok p /\ 2339 < p < 23395 / 10.
Proof.
rewrite p_vs_above by lra; eexists; split; [reflexivity|]; destruct (Rle_dec 0 20) as [_|N]; [|lra].
assert (L : 568067 / 100000 < ln (20 + 27315 / 100) < 568069 / 100000).
{ replace (20 + 27315 / 100) with (29315 / 100) by lra; split; [apply ln_above; exp_lt_const 8%nat 9%nat (568067 / 800000)|].
  apply ln_below; [lra|]; const_lt_exp 8%nat 9%nat (568069 / 800000). }
assert (M : 775755 / 100000 < ea (20 + 27315 / 100) < 77576 / 10000) by (unfold ea, a_1, a_2, a_3, a_4, a_5; lra).
destruct M as [A B]; apply exp_increasing in A; apply exp_increasing in B; split.
- eapply Rlt_trans; [|exact A]; const_lt_exp 8%nat 9%nat (775755 / 800000).
- eapply Rlt_trans; [exact B|]; exp_lt_const 8%nat 9%nat (77576 / 80000).
Qed.

Lemma p_vs_m20 : exists p, get_p_vs (- 20) = Ok p /\ 1032 / 10 < p < 1033 / 10.
Proof.
rewrite p_vs_above by lra; eexists; split; [reflexivity|]; destruct (Rle_dec 0 (- 20)) as [N|_]; [lra|].
assert (L : 553397 / 100000 < ln (- 20 + 27315 / 100) < 553399 / 100000).
{ replace (- 20 + 27315 / 100) with (25315 / 100) by lra; split; [apply ln_above; exp_lt_const 8%nat 9%nat (553397 / 800000)|].
  apply ln_below; [lra|]; const_lt_exp 8%nat 9%nat (553399 / 800000). }
assert (M : 46370 / 10000 < eb (- 20 + 27315 / 100) < 463706 / 100000) by (unfold eb, b_1, b_2, b_3, b_4, b_5; lra).
destruct M as [A B]; apply exp_increasing in A; apply exp_increasing in B; split.
- eapply Rlt_trans; [|exact A]; const_lt_exp 8%nat 9%nat (46370 / 80000).
- eapply Rlt_trans; [exact B|]; exp_lt_const 8%nat 9%nat (463706 / 800000).
Qed.

(* humidity ratio and vapour pressure *)
Lemma fdiv_pos a b : 0 < b -> fdiv a b = Ok (a / b).
Proof. intro B; unfold fdiv; destruct (Req_EM_T b 0); [lra|reflexivity]. Qed.

Lemma x_ok p : p < 101325 -> get_x p = Ok (622 / 1000 * p / (101325 - p)).
Proof. intro P; unfold get_x, get_f; apply fdiv_pos; lra. Qed.

Lemma x_boiling : get_x 101325 = Err ZeroDivisionError.
Proof. unfold get_x, get_f, fdiv; destruct (Req_EM_T _ 0) as [_|N]; [reflexivity|lra]. Qed.

Lemma quot_lt a b c d : 0 < b -> 0 < d -> a * d < c * b -> a / b < c / d.
Proof.
intros B D H; apply Rmult_lt_reg_r with (b * d); [apply Rmult_lt_0_compat; assumption|].
replace (a / b * (b * d)) with (a * d) by (field; lra); replace (c / d * (b * d)) with (c * b) by (field; lra); exact H.
Qed.

Lemma x_incr p q x y : p < q < 101325 -> get_x p = Ok x -> get_x q = Ok y -> x < y.
Proof.
intros [L U]; rewrite !x_ok by lra; intros E1 E2; injection E1 as <-; injection E2 as <-; apply quot_lt; nra.
Qed.

Lemma p_v_ok x : 0 <= x -> get_p_v_r x = Ok (101325 * x / (x + 62198 / 100000)).
Proof. intro X; unfold get_p_v_r, get_f; apply fdiv_pos; lra. Qed.

Lemma p_v_range x p : 0 <= x -> get_p_v_r x = Ok p -> 0 <= p < 101325.
Proof.
intros X; rewrite p_v_ok by exact X; intro E; injection E as <-; split.
- apply Rmult_le_pos; [lra|left; apply Rinv_0_lt_compat; lra].
- replace 101325 with (101325 / 1) at 2 by field; apply quot_lt; lra.
Qed.

Lemma p_v_incr x y p q : 0 <= x < y -> get_p_v_r x = Ok p -> get_p_v_r y = Ok q -> p < q.
Proof.
intros [X L]; rewrite !p_v_ok by lra; intros E1 E2; injection E1 as <-; injection E2 as <-; apply quot_lt; nra.
Qed.

Lemma there_and_back p : 0 <= p < 101325 ->
  bind (get_x p) get_p_v_r = Ok (101325 * (622 / 1000 * p) / (622 / 1000 * p + 62198 / 100000 * (101325 - p))).
Proof.
intros [P U]; rewrite x_ok by exact U; cbn [bind]; rewrite p_v_ok.
- f_equal; field; split; lra.
- apply Rmult_le_pos; [lra|left; apply Rinv_0_lt_compat; lra].
Qed.

Lemma there_and_back_bounds p q : 0 <= p < 101325 -> bind (get_x p) get_p_v_r = Ok q -> p <= q <= 62200 / 62198 * p.
Proof.
intros P; rewrite there_and_back by exact P; intro E; injection E as <-; destruct P as [P U].
set (d := 622 / 1000 * p + 62198 / 100000 * (101325 - p)); assert (D : 0 < d) by (unfold d; lra).
split; apply Rmult_le_reg_r with d; try exact D.
- replace (101325 * (622 / 1000 * p) / d * d) with (101325 * (622 / 1000 * p)) by (field; lra); unfold d; nra.
- replace (101325 * (622 / 1000 * p) / d * d) with (101325 * (622 / 1000 * p)) by (field; lra); unfold d; nra.
Qed.

Lemma there_and_back_differs p q : 0 < p < 101325 -> bind (get_x p) get_p_v_r = Ok q -> p < q.
Proof.
intros P; rewrite there_and_back by lra; intro E; injection E as <-; destruct P as [P U].
set (d := 622 / 1000 * p + 62198 / 100000 * (101325 - p)); assert (D : 0 < d) by (unfold d; lra).
apply Rmult_lt_reg_r with d; [exact D|].
replace (101325 * (622 / 1000 * p) / d * d) with (101325 * (622 / 1000 * p)) by (field; lra); unfold d; nra.
Qed.

Lemma saturated p : 0 < p -> get_h p p = 100.
Proof. intro P; unfold get_h; field; lra. Qed.

Lemma h_scale c p : 0 < p -> get_h (c * p) p = 100 * c.
Proof. intro P; unfold get_h; field; lra. Qed.

(* arrays *)
Lemma masked_map mask f thetas g : masked mask f thetas (map g thetas) = map (fun th => if mask th then f th else g th) thetas.
Proof. unfold masked; induction thetas as [|t r IH]; [reflexivity|]; simpl; rewrite IH; reflexivity. Qed.

Lemma p_vs_is2_each thetas : get_p_vs_is2 thetas = map (fun th => match get_p_vs th with Ok p => Some p | Err _ => None end) thetas.
Proof.
unfold get_p_vs_is2; rewrite masked_map, masked_map; apply map_ext; intro th.
destruct (Rtotal_order th (- 27315 / 100)) as [L|[->|L]].
- rewrite (p_vs_below _ L); destruct (Rlt_dec th 0) as [_|N]; [|lra]; unfold np_sat; destruct (Rle_dec _ 0) as [_|N]; [reflexivity|lra].
- rewrite p_vs_zero; destruct (Rlt_dec (- 27315 / 100) 0) as [_|N]; [|lra]; unfold np_sat; destruct (Rle_dec _ 0) as [_|N]; [reflexivity|lra].
- rewrite (p_vs_above th ltac:(lra)); unfold np_sat.
  destruct (Rlt_dec th 0) as [A|A], (Rle_dec 0 th) as [B|B], (Rle_dec (th + 27315 / 100) 0) as [C|C]; try lra; reflexivity.
Qed.

Lemma arrays_agree thetas ps : get_p_vs_is thetas = Ok ps -> get_p_vs_is2 thetas = map Some ps.
Proof.
intro E; assert (E' : mapM get_p_vs thetas = Ok ps) by (destruct thetas; [discriminate|exact E]); clear E.
rewrite p_vs_is2_each; revert ps E'; induction thetas as [|t r IH]; intros ps E; cbn [mapM] in E.
- injection E as <-; reflexivity.
- destruct (get_p_vs t) as [p|e] eqn:P; cbn [bind] in E; [|discriminate].
  destruct (mapM get_p_vs r) as [qs|e] eqn:Q; cbn [bind] in E; [|discriminate]; injection E as <-.
  simpl; rewrite P, (IH qs eq_refl); reflexivity.
Qed.

Lemma array_elements thetas : thetas <> nil -> Forall (fun th => - 27315 / 100 < th) thetas ->
  exists ps, get_p_vs_is thetas = Ok ps /\ Forall2 (fun th p => get_p_vs th = Ok p) thetas ps.
Proof.
intros N F; assert (H : exists ps, mapM get_p_vs thetas = Ok ps /\ Forall2 (fun th p => get_p_vs th = Ok p) thetas ps).
{ clear N; induction F as [|t r T F (ps & E & G)]; [exists nil; split; [reflexivity|constructor]|].
  exists (exp (if Rle_dec 0 t then ea (t + 27315 / 100) else eb (t + 27315 / 100)) :: ps); split.
  - cbn [mapM]; rewrite (p_vs_above t T), E; reflexivity.
  - constructor; [apply p_vs_above, T|exact G]. }
destruct H as (ps & E & G); exists ps; split; [|exact G]; destruct thetas; [contradiction|exact E].
Qed.
