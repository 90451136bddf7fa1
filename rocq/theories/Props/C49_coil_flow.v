(* C49: the air flow of a room air conditioner interpolates between its limits *)
From mathcomp Require Import all_ssreflect ssralg ssrnum zmodp matrix.
From Verif Require Import Model.OperationMode Model.Numpy Model.PreCalc Model.HeatExchanger Lemmas.CoilFlowL.
Set Implicit Arguments. Unset Strict Implicit. Unset Printing Implicit Defensive.
Import Order.TTheory GRing.Theory Num.Theory.
Local Open Scope ring_scope.

(* At minimum (maximum) capacity the flow is the minimum (maximum) flow; flows are given per minute and used per second. *)
Theorem C49_ends : forall (F : realFieldType) (q_max q_min v_max v_min : F), q_min < q_max ->
  get_vac q_max q_min q_min v_max v_min = v_min / 60%:R /\ get_vac q_max q_min q_max v_max v_min = v_max / 60%:R.
Proof. by move=> F q1 q0 v1 v0 q01; rewrite flow_at_min // flow_at_max. Qed.
Print Assumptions C49_ends.

(* It changes in proportion to the load. *)
Theorem C49_linear : forall (F : realFieldType) (q_max q_min v_max v_min q q' : F), q_min < q_max ->
  get_vac q_max q_min q' v_max v_min - get_vac q_max q_min q v_max v_min =
  (v_max - v_min) / (q_max - q_min) * (q' - q) / 60%:R.
Proof. by move=> F q1 q0 v1 v0 q q' q01; rewrite flow_diff. Qed.
Print Assumptions C49_linear.

(* It is monotone in the load, for all loads. *)
Theorem C49_monotone : forall (F : realFieldType) (q_max q_min v_max v_min q q' : F), q_min < q_max -> v_min <= v_max -> q <= q' ->
  get_vac q_max q_min q v_max v_min <= get_vac q_max q_min q' v_max v_min.
Proof. by move=> F q1 q0 v1 v0 q q' q01 v01; apply: flow_mono. Qed.
Print Assumptions C49_monotone.

(* It stays within the limits exactly for the loads within the capacity range: outside it is not limited. *)
Theorem C49_limits : forall (F : realFieldType) (q_max q_min v_max v_min q : F), q_min < q_max -> v_min < v_max ->
  (v_min / 60%:R <= get_vac q_max q_min q v_max v_min <= v_max / 60%:R) = (q_min <= q <= q_max).
Proof. by move=> F q1 q0 v1 v0 q q01 v01; apply: flow_limits. Qed.
Print Assumptions C49_limits.

(* For small loads the calculated flow may be zero or negative, exactly below this load. *)
Theorem C49_sign : forall (F : realFieldType) (q_max q_min v_max v_min q : F), q_min < q_max -> v_min < v_max ->
  (get_vac q_max q_min q v_max v_min <= 0) = (q <= (v_max * q_min - v_min * q_max) / (v_max - v_min)).
Proof. by move=> F q1 q0 v1 v0 q q01 v01; apply: flow_neg. Qed.
Print Assumptions C49_sign.

(* It is positive for every cooling load if the turn-down ratio of the flow is not below that of the capacity. *)
Theorem C49_positive : forall (F : realFieldType) (q_max q_min v_max v_min q : F), q_min < q_max -> 0 <= v_min -> v_min < v_max ->
  v_max * q_min <= v_min * q_max -> 0 < q -> 0 < get_vac q_max q_min q v_max v_min.
Proof. by move=> F q1 q0 v1 v0 q q01 v00 v01; apply: flow_pos. Qed.
Print Assumptions C49_positive.

(* The moisture exchange of the coil is based on 80 % of this flow, in rooms cooled with more than 1 mW whose air is not drier than
   the coil, and there is none in the other rooms. *)
Theorem C49_used : forall (F : realFieldType) (ni : nat) (x_sat : F -> F) (lcs theta q_max q_min v_max v_min x : 'cV[F]_ni) i,
  let flow := get_vac (q_max i 0) (q_min i 0) (- lcs i 0) (v_max i 0) (v_min i 0) in
  let x_coil := x_sat (theta i 0 - (- lcs i 0) / (c_air F * rho_air F * flow * (8%:R / 10%:R))) in
  let r := get_dehumid_coeff x_sat lcs theta q_max q_min v_max v_min x in
  (1 / 1000%:R < - lcs i 0 -> x_coil <= x i 0 ->
     r.1 i i = rho_air F * (8%:R / 10%:R * flow) /\ r.2 i 0 = rho_air F * (8%:R / 10%:R * flow) * x_coil) /\
  (1 / 1000%:R < - lcs i 0 -> x i 0 < x_coil -> r.1 i i = 0 /\ r.2 i 0 = 0) /\
  (- lcs i 0 <= 1 / 1000%:R -> r.1 i i = 0 /\ r.2 i 0 = 0).
Proof.
move=> F ni x_sat lcs th q1 q0 v1 v0 x i flow x_coil r.
have e8 : 1 - bf F = 8%:R / 10%:R.
  have n0 : (10%:R : F) != 0 by rewrite pnatr_eq0.
  by apply: (mulIf n0); rewrite /bf mulrBl !divfK // mul1r -natrB.
have xE : x_coil = get_x_e_out x_sat (- lcs i 0) (th i 0) flow by rewrite /x_coil -e8.
rewrite /r /get_dehumid_coeff /= !mxE !eqxx -/flow -e8; split; [move=> dh le|split=> [dh lt|ndh]].
- by rewrite dh -xE ltNge le.
- by rewrite dh -xE lt.
- move: ndh; rewrite leNgt => /negbTE ->; rewrite !mulr0; by case: ifP.
Qed.
Print Assumptions C49_used.

(* Limits 1000 and 3000 W, 5 and 9 m3/min: 7 m3/min at 2000 W *)
Example C49_example : forall F : realFieldType, get_vac (3000%:R : F) 1000%:R 2000%:R 9%:R 5%:R = 7%:R / 60%:R.
Proof.
move=> F; rewrite /get_vac; congr (_ / _); rewrite -!natrB //.
have n : ((3000 - 1000)%:R : F) != 0 by rewrite pnatr_eq0.
have -> : ((9 - 5)%:R / (3000 - 1000)%:R * (2000 - 1000)%:R : F) = 2%:R by apply: (mulIf n); rewrite mulrAC divfK // -!natrM.
by rewrite -natrD.
Qed.
