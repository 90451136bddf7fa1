(* C46: saturation pressure and humidity conversions *)
From Coq Require Import Reals List Lra Bool.
From Verif Require Import Model.Py Model.Psychro Lemmas.PyL Lemmas.PsychroL.
Import ListNotations.
Local Open Scope R_scope.

Definition absolute_zero : R := - 27315 / 100.

(* A temperature has a saturation pressure exactly when it is above absolute zero; the exceptions otherwise. *)
Theorem C46_saturation_defined : forall theta,
  (absolute_zero < theta -> exists p, get_p_vs theta = Ok p) /\
  (theta = absolute_zero -> get_p_vs theta = Err ZeroDivisionError) /\
  (theta < absolute_zero -> get_p_vs theta = Err ValueError).
Proof.
intro theta; split; [|split]; intro H.
- exact (ex_intro _ _ (p_vs_above theta H)).
- rewrite H; exact p_vs_zero.
- exact (p_vs_below theta H).
Qed.
Print Assumptions C46_saturation_defined.

(* It is positive. *)
Theorem C46_saturation_positive : forall theta p, get_p_vs theta = Ok p -> 0 < p.
Proof. exact p_vs_pos. Qed.
Print Assumptions C46_saturation_positive.

(* It is strictly increasing on the whole range, also across the change of formula at 0 degree C. *)
Theorem C46_saturation_increasing : forall theta theta' p p', absolute_zero < theta -> theta < theta' ->
  get_p_vs theta = Ok p -> get_p_vs theta' = Ok p' -> p < p'.
Proof. exact p_vs_incr. Qed.
Print Assumptions C46_saturation_increasing.

(* Values: 103.2 Pa at -20, 611.2 Pa at 0 and 2339 Pa at 20 degree C; the formula used in frost ends below 611.16 Pa. *)
Theorem C46_saturation_values :
  (exists p, get_p_vs (- 20) = Ok p /\ 1032 / 10 < p < 1033 / 10) /\
  (exists p, get_p_vs 0 = Ok p /\ 6112 / 10 < p < 61122 / 100) /\
  (exists p, get_p_vs 20 = Ok p /\ 2339 < p < 23395 / 10) /\
  (forall theta p, theta < 0 -> get_p_vs theta = Ok p -> p < 61116 / 100).
Proof. exact (conj p_vs_m20 (conj p_vs_0 (conj p_vs_20 p_vs_frost))). Qed.
Print Assumptions C46_saturation_values.

(* Both array versions give the scalar values, element by element; the masked one nan where the scalar one raises. *)
Theorem C46_arrays_agree : forall thetas,
  (get_p_vs_is2 thetas = map (fun theta => match get_p_vs theta with Ok p => Some p | Err _ => None end) thetas) /\
  (forall ps, get_p_vs_is thetas = Ok ps -> get_p_vs_is2 thetas = map Some ps) /\
  (thetas <> nil -> Forall (fun theta => absolute_zero < theta) thetas ->
   exists ps, get_p_vs_is thetas = Ok ps /\ Forall2 (fun theta p => get_p_vs theta = Ok p) thetas ps).
Proof. intro thetas; exact (conj (p_vs_is2_each thetas) (conj (arrays_agree thetas) (array_elements thetas))). Qed.
Print Assumptions C46_arrays_agree.

(* The humidity ratio is strictly increasing in the vapour pressure, zero for dry air and undefined at atmospheric pressure. *)
Theorem C46_humidity_ratio :
  (forall p, p < 101325 -> exists x, get_x p = Ok x) /\
  (forall p q x y, p < q < 101325 -> get_x p = Ok x -> get_x q = Ok y -> x < y) /\
  (exists x, get_x 0 = Ok x /\ x = 0) /\
  get_x 101325 = Err ZeroDivisionError.
Proof.
split; [|split; [|split]].
- intros p P; exact (ex_intro _ _ (x_ok p P)).
- exact x_incr.
- eexists; split; [apply x_ok; lra|field].
- exact x_boiling.
Qed.
Print Assumptions C46_humidity_ratio.

(* The vapour pressure of any humidity ratio is below atmospheric pressure and strictly increasing. *)
Theorem C46_vapour_pressure :
  (forall x, 0 <= x -> exists p, get_p_v_r x = Ok p /\ 0 <= p < 101325) /\
  (forall x y p q, 0 <= x < y -> get_p_v_r x = Ok p -> get_p_v_r y = Ok q -> p < q).
Proof.
split; [|exact p_v_incr].
intros x X; eexists; split; [exact (p_v_ok x X)|exact (p_v_range x _ X (p_v_ok x X))].
Qed.
Print Assumptions C46_vapour_pressure.

(* Going to the humidity ratio and back returns the pressure up to the factor 0.622 / 0.62198. *)
Theorem C46_inverse_partial : forall p, 0 <= p < 101325 ->
  exists q, bind (get_x p) get_p_v_r = Ok q /\ p <= q <= 62200 / 62198 * p.
Proof.
intros p P; eexists; split; [exact (there_and_back p P)|exact (there_and_back_bounds p _ P (there_and_back p P))].
Qed.
Print Assumptions C46_inverse_partial.

(* It is not the inverse: every pressure strictly between vacuum and atmospheric pressure comes back larger. *)
Theorem C46_inverse_refuted : forall p q, 0 < p < 101325 -> bind (get_x p) get_p_v_r = Ok q -> p < q.
Proof. exact there_and_back_differs. Qed.
Print Assumptions C46_inverse_refuted.

(* Relative humidity is the percentage of the saturation pressure: 100 for saturated air. *)
Theorem C46_relative_humidity : forall theta p, get_p_vs theta = Ok p -> get_h p p = 100 /\ forall c, get_h (c * p) p = 100 * c.
Proof. intros theta p E; apply p_vs_pos in E; split; [exact (saturated p E)|intro c; exact (h_scale c p E)]. Qed.
Print Assumptions C46_relative_humidity.

(* Air whose humidity ratio is that of saturation is logged with more than 100 %, by at most 0.0033 percentage points. *)
Theorem C46_saturated_air_refuted : forall theta p x q, get_p_vs theta = Ok p -> p < 101325 -> get_x p = Ok x -> get_p_v_r x = Ok q ->
  100 < get_h q p <= 100 + 33 / 10000.
Proof.
intros theta p x q E U X Q; apply p_vs_pos in E.
assert (B : bind (get_x p) get_p_v_r = Ok q) by (rewrite X; exact Q).
assert (L := there_and_back_differs p q (conj E U) B).
assert (H := there_and_back_bounds p q (conj (Rlt_le _ _ E) U) B).
replace q with (q / p * p) by (field; lra); rewrite (h_scale _ p E).
assert (1 < q / p) by (apply Rmult_lt_reg_r with p; [exact E|]; replace (q / p * p) with q by (field; lra); lra).
assert (q / p <= 62200 / 62198) by (apply Rmult_le_reg_r with p; [exact E|]; replace (q / p * p) with q by (field; lra); lra).
lra.
Qed.
Print Assumptions C46_saturated_air_refuted.

(* Room air of 20 degree C and half the saturation pressure *)
Example C46_example : exists p x q, get_p_vs 20 = Ok p /\ get_x (1 / 2 * p) = Ok x /\ 72 / 10000 < x < 73 / 10000 /\ get_p_v_r x = Ok q /\
  50 < get_h q p < 501 / 10.
Proof.
destruct p_vs_20 as (p & E & B); exists p.
assert (X := x_ok (1 / 2 * p) ltac:(lra)); eexists; eexists; split; [exact E|split; [exact X|]].
assert (D : 0 < 101325 - 1 / 2 * p) by lra.
assert (X0 : 0 <= 622 / 1000 * (1 / 2 * p) / (101325 - 1 / 2 * p)) by (apply Rmult_le_pos; [lra|left; apply Rinv_0_lt_compat, D]).
split; [|split; [exact (p_v_ok _ X0)|]].
- split; apply Rmult_lt_reg_r with (101325 - 1 / 2 * p); try exact D;
    replace (622 / 1000 * (1 / 2 * p) / (101325 - 1 / 2 * p) * (101325 - 1 / 2 * p)) with (622 / 1000 * (1 / 2 * p)) by (field; lra); lra.
- assert (T : bind (get_x (1 / 2 * p)) get_p_v_r = Ok (101325 * (622 / 1000 * (1 / 2 * p) / (101325 - 1 / 2 * p)) /
      (622 / 1000 * (1 / 2 * p) / (101325 - 1 / 2 * p) + 62198 / 100000))) by (rewrite X; exact (p_v_ok _ X0)).
  assert (L := there_and_back_differs _ _ (conj (ltac:(lra) : 0 < 1 / 2 * p) (ltac:(lra) : 1 / 2 * p < 101325)) T).
  assert (H := proj2 (there_and_back_bounds _ _ (conj (ltac:(lra) : 0 <= 1 / 2 * p) (ltac:(lra) : 1 / 2 * p < 101325)) T)).
  set (q := 101325 * _ / _) in *; unfold get_h.
  assert (K : q / p * p = q) by (field; lra).
  split; apply Rmult_lt_reg_r with p; try lra;
    replace (q / p * 100 * p) with (q * 100) by (field; lra); lra.
Qed.
