From Coq Require Import ZArith.
From mathcomp Require Import all_ssreflect ssralg ssrnum zmodp matrix.
From Verif Require Import Model.OperationMode Model.Dec Model.PreCalc Model.Tick Model.OtTarget Spec.Automaton.
From Verif Require Import Lemmas.DecL Lemmas.OtTargetL Lemmas.AutomatonL.
Set Implicit Arguments. Unset Strict Implicit. Unset Printing Implicit Defensive.
Import Order.TTheory GRing.Theory Num.Theory.
Local Open Scope ring_scope.

(* C18: the target operative temperature realises the target PMV.  e0 stands for exp(-0.036 m) >= 0. *)
Theorem C18_target_realises_pmv : forall (F : realFieldType) (e0 clo p h t : F), 0 <= e0 -> 0 <= clo -> 0 < h ->
  let target := get_theta_ot_target e0 clo p h t in
  get_pmv e0 target clo p h target = t.
Proof. by move=> F e0 clo p h t e c hh; exact: pmv_at_target. Qed.
Print Assumptions C18_target_realises_pmv.

Theorem C18_monotone : forall (F : realFieldType) (e0 clo h : F), 0 <= e0 -> 0 <= clo -> 0 < h ->
  [/\ forall p t t', t < t' -> get_theta_ot_target e0 clo p h t < get_theta_ot_target e0 clo p h t',
      forall p p' t, p < p' -> get_theta_ot_target e0 clo p' h t < get_theta_ot_target e0 clo p h t,
      forall p tr o o', o < o' -> get_pmv e0 tr clo p h o < get_pmv e0 tr clo p h o' &
      forall p tr tr' o, tr < tr' -> get_pmv e0 tr clo p h o < get_pmv e0 tr' clo p h o].
Proof. exact: comfort_monotone. Qed.
Print Assumptions C18_monotone.

(* the targets a room gets: PMV -1/2 with heavy clothing when heating, +1/2 with light clothing when
   cooling, none otherwise *)
Theorem C18_room_target : forall (F : realFieldType) (e0 x_r theta_r theta_mrt ac : F) mns om t, 0 <= e0 ->
  ot_target_pmv e0 x_r mns theta_r theta_mrt ac = Some (om, t) ->
  [/\ om = HEATING -> get_pmv e0 t (clo_heavy F) (get_p_v_r x_r) (h_hum_c F + h_hum_r F) t = - (1 / 2%:R),
      om = COOLING -> get_pmv e0 t (clo_light F) (get_p_v_r x_r) (h_hum_c F + h_hum_r F) t = 1 / 2%:R &
      om <> HEATING -> om <> COOLING -> t = 0].
Proof. exact: room_target. Qed.
Print Assumptions C18_room_target.

(* All rooms of the house together: a heated room gets its target as lower limit, a cooled room as upper limit, all others
   have no limits; no room has both. *)
Theorem C18_house : forall (F : realFieldType) (e0 : F) (ni : nat) (x_r theta_r theta_mrt ac : 'cV[F]_ni) mns h_c h_r om lower upper,
  0 <= e0 -> get_ot_target_and_h_hum e0 x_r mns theta_r theta_mrt ac = Some (h_c, h_r, om, lower, upper) ->
  forall i, 0 < h_c i 0 + h_r i 0 /\
    match om i with
    | HEATING => get_pmv e0 (lower i 0) (clo_heavy F) (get_p_v_r (x_r i 0)) (h_c i 0 + h_r i 0) (lower i 0) = - (1 / 2%:R) /\ upper i 0 = 0
    | COOLING => get_pmv e0 (upper i 0) (clo_light F) (get_p_v_r (x_r i 0)) (h_c i 0 + h_r i 0) (upper i 0) = 1 / 2%:R /\ lower i 0 = 0
    | _ => lower i 0 = 0 /\ upper i 0 = 0
    end.
Proof. by move=> F e0 ni x r m a mns hc hr om lo up e E; exact: (house_target e E). Qed.
Print Assumptions C18_house.

Example C18_example (F : realFieldType) :
  exists om t, ot_target_pmv (1 / 8%:R) (6%:R / 1000%:R) HEATING (15%:R : F) 15%:R 1 = Some (om, t).
Proof.
by rewrite /ot_target_pmv /get_operation_mode ltr01 /=; do 2 eexists.
Qed.
