(* C48: ratings of room air conditioners *)
From Coq Require Import Reals Lra.
From Verif Require Import Model.Rac Lemmas.RacL.
Local Open Scope R_scope.

(* The maximum capacities are at least the rated ones. *)
Theorem C48_max_ge_rated : forall q_rtd_h q_rtd_c, q_rtd_h <= fst (get_q_max q_rtd_h q_rtd_c) /\ q_rtd_c <= snd (get_q_max q_rtd_h q_rtd_c).
Proof. exact max_ge. Qed.
Print Assumptions C48_max_ge_rated.

(* All four capacities grow with the floor area, or stay. *)
Theorem C48_increasing : forall a a', a <= a' ->
  let (h, c) := get_q_rtd a in let (h', c') := get_q_rtd a' in
  h <= h' /\ c <= c' /\ fst (get_q_max h c) <= fst (get_q_max h' c') /\ snd (get_q_max h c) <= snd (get_q_max h' c').
Proof.
intros a a' L; destruct (rtd_mono a a' L) as [H C]; unfold rtd_h, rtd_c in *.
destruct (get_q_rtd a) as (h, c), (get_q_rtd a') as (h', c'); cbn [fst snd] in *.
destruct (q_max_mono h h' c c' H C); repeat split; assumption.
Qed.
Print Assumptions C48_increasing.

(* For every floor area the rated cooling capacity and both maximum capacities are positive, the maxima well above the minimum
   capacity; the rated heating capacity is positive exactly above 0.13 m2. *)
Theorem C48_positive_partial : forall a, 0 <= a ->
  let (h, c) := get_q_rtd a in
  0 < c <= 5600 /\ get_q_min_h < fst (get_q_max h c) /\ get_q_min_c < snd (get_q_max h c) /\
  (0 < h <-> 1905 / 10 * a > 851 / 10 / (1209 / 1000) - 456 / 10).
Proof.
intros a A; assert (C := rtd_c_bounds a A); assert (M := max_c_low a A); assert (N := max_h_low a A); assert (S := rtd_h_sign a).
unfold max_c, max_h, rtd_h, rtd_c in *; destruct (get_q_rtd a) as (h, c); cbn [fst snd] in *; unfold get_q_min_h, get_q_min_c.
repeat split; try lra; apply S.
Qed.
Print Assumptions C48_positive_partial.

(* A room of 0.1 m2 has a negative rated heating capacity. *)
Theorem C48_rated_heating_refuted : exists a, 0 < a /\ fst (get_q_rtd a) < 0.
Proof. exists (1 / 10); split; [lra|minmax]. Qed.
Print Assumptions C48_rated_heating_refuted.

(* The rated cooling capacity is below the minimum capacity in rooms under 2.385 m2. *)
Theorem C48_rated_below_minimum : forall a, snd (get_q_rtd a) < get_q_min_c <-> a < 4544 / 1905.
Proof. intro a; unfold get_q_min_c; split; intro H; minmax. Qed.
Print Assumptions C48_rated_below_minimum.

(* The air flow is defined and positive for positive ratings, grows with the rating, and is nan for negative ones. *)
Theorem C48_air_flow :
  (forall q, 0 < q -> exists v, get_v_max q = Some v /\ 0 < v) /\
  (forall q q' v v', 0 <= q -> q <= q' -> get_v_max q = Some v -> get_v_max q' = Some v' -> v <= v') /\
  (forall q, q < 0 -> get_v_max q = None).
Proof.
split; [|split; [exact v_max_mono|exact v_max_nan]].
intros q Q; destruct (v_max_some q (Rlt_le _ _ Q)) as (v & E & _ & P); exact (ex_intro _ v (conj E (P Q))).
Qed.
Print Assumptions C48_air_flow.

(* The minimum flow is 55 % of the maximum flow. *)
Theorem C48_minimum_flow : forall v, get_v_min v / 55 = v / 100.
Proof. intro v; unfold get_v_min; field. Qed.
Print Assumptions C48_minimum_flow.

(* With these ratings the turn-down ratio of the flow is above that of the capacity, so that the flow calculated for a load is never
   negative (compare C49_positive). *)
Theorem C48_turn_down : forall a v, 0 <= a -> 0 < v ->
  let (h, c) := get_q_rtd a in
  v * get_q_min_c < get_v_min v * snd (get_q_max h c) /\ v * get_q_min_h < get_v_min v * fst (get_q_max h c).
Proof.
intros a v A V; assert (M := max_c_low a A); assert (N := max_h_low a A).
unfold max_c, max_h, rtd_h, rtd_c in *; destruct (get_q_rtd a) as (h, c); cbn [fst snd] in *; unfold get_q_min_h, get_q_min_c, get_v_min.
split; rewrite Rmult_assoc; apply Rmult_lt_compat_l; lra.
Qed.
Print Assumptions C48_turn_down.

(* A room of 30 m2: rated at 6685.3 W for heating and 5600 W for cooling *)
Example C48_example : snd (get_q_rtd 30) = 5600 /\ 6685 < fst (get_q_rtd 30) < 6686 /\ snd (get_q_max (66853 / 10) 5600) = 5600 + 344 + 62 / 100.
Proof. split; [minmax|split; minmax]. Qed.
