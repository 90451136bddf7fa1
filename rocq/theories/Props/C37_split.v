From Coq Require Import Reals List ZArith String Lra.
From Verif Require Import Model.Py Model.FactorNu Model.EesHouse Model.CheckUa Model.Lv3 Spec.EnvelopeSpec Lemmas.Lv3L Lemmas.CheckUaL Examples.EnvelopeEx.
Import ListNotations.
Local Open Scope R_scope.

(* C37: every part is replaced by its shares for the main, other and non-occupant rooms; earth floors move to the underfloor space unchanged *)
Theorem C37_split : forall a_mr a_or a_total p, a_total <> 0 ->
  exists p', lv2_to_lv3 a_mr a_or a_total p = Ok p' /\
  split_into gp_share a_mr a_or a_total (ps_gps p) (ps_gps p') /\
  split_into w_share a_mr a_or a_total (ps_ws p) (ps_ws p') /\
  split_into d_share a_mr a_or a_total (ps_ds p) (ps_ds p') /\
  split_into hb_share a_mr a_or a_total (ps_hbs p) (ps_hbs p') /\
  Forall2 underfloor_perimeter (ps_eps p) (ps_eps p') /\ Forall2 underfloor_center (ps_ecs p) (ps_ecs p').
Proof. exact lv3_split. Qed.
Print Assumptions C37_split.

(* areas and lengths add up to the original ones *)
Theorem C37_sizes : forall a_mr a_or a_total p p', a_total <> 0 -> lv2_to_lv3 a_mr a_or a_total p = Ok p' ->
  sum (areas p') = sum (areas p) /\ sum (lengths p') = sum (lengths p).
Proof. exact lv3_sizes. Qed.
Print Assumptions C37_sizes.

(* no share is negative *)
Theorem C37_nonneg_partial : forall a_mr a_or a_total p p', 0 < a_total -> 0 <= a_mr -> 0 <= a_or -> a_mr + a_or <= a_total ->
  (forall x, In x (areas p ++ lengths p) -> 0 <= x) -> lv2_to_lv3 a_mr a_or a_total p = Ok p' ->
  forall x, In x (areas p' ++ lengths p') -> 0 <= x.
Proof. exact lv3_nonneg. Qed.
Print Assumptions C37_nonneg_partial.

(* ... but nothing checks that the occupied rooms fit into the house *)
Theorem C37_nonneg_refuted : exists a_mr a_or a_total p p', 0 < a_total /\ 0 <= a_mr /\ 0 <= a_or /\
  (forall x, In x (areas p ++ lengths p) -> 0 <= x) /\ lv2_to_lv3 a_mr a_or a_total p = Ok p' /\
  exists x, In x (areas p') /\ x < 0.
Proof.
exists 60, 60, 100, ex_parts; eexists; split; [lra|]; split; [lra|]; split; [lra|]; split.
- intros x I; simpl in I; unfold gp_area, w_area, d_area in I; simpl in I; repeat destruct I as [<-|I]; try lra; destruct I.
- split; [apply lv3_ok; lra|]; exists ((100 - 60 - 60) / 100 * 50); split; [simpl; unfold gp_area; simpl; auto|lra].
Qed.
Print Assumptions C37_nonneg_refuted.

(* heat losses are unchanged, kind by kind; so is any error *)
Theorem C37_heat_loss : forall a_mr a_or a_total p p' region, a_total <> 0 -> lv2_to_lv3 a_mr a_or a_total p = Ok p' ->
  sumM (gp_q region) (ps_gps p') = sumM (gp_q region) (ps_gps p) /\
  sumM (w_q region) (ps_ws p') = sumM (w_q region) (ps_ws p) /\
  sumM (d_q region) (ps_ds p') = sumM (d_q region) (ps_ds p) /\
  sumM (hb_q region) (ps_hbs p') = sumM (hb_q region) (ps_hbs p) /\
  sumM (ep_q region) (ps_eps p') = sumM (ep_q region) (ps_eps p).
Proof. exact lv3_q. Qed.
Print Assumptions C37_heat_loss.

(* where the loss of a heat bridge is its length times its coefficient, times the mean of the spaces it borders *)
Theorem C37_heatbridge_loss : forall region b q, hb_q region b = Ok q -> hb_loss region b q.
Proof. exact hb_q_loss. Qed.
Print Assumptions C37_heatbridge_loss.

(* and its solar gain is 0.034 times that, times the mean over those spaces that face outdoor, the others counting as 0 *)
Theorem C37_heatbridge_gain : forall region s b m, hb_m region s b = Ok m -> hb_gain region s b m.
Proof. exact hb_m_gain. Qed.
Print Assumptions C37_heatbridge_gain.

(* solar gains are unchanged *)
Theorem C37_solar_gain : forall a_mr a_or a_total p p' region s, a_total <> 0 -> lv2_to_lv3 a_mr a_or a_total p = Ok p' ->
  sumM (gp_m region s) (ps_gps p') = sumM (gp_m region s) (ps_gps p) /\
  sumM (w_m region s) (ps_ws p') = sumM (w_m region s) (ps_ws p) /\
  sumM (d_m region s) (ps_ds p') = sumM (d_m region s) (ps_ds p) /\
  sumM (hb_m region s) (ps_hbs p') = sumM (hb_m region s) (ps_hbs p).
Proof. exact lv3_m. Qed.
Print Assumptions C37_solar_gain.

(* without floor area the conversion fails as soon as there is a part to split *)
Theorem C37_no_floor : forall a_mr a_or p, ps_gps p <> [] \/ ps_ws p <> [] \/ ps_ds p <> [] \/ ps_hbs p <> [] ->
  lv2_to_lv3 a_mr a_or 0 p = Err ZeroDivisionError.
Proof. exact lv3_zero. Qed.
Print Assumptions C37_no_floor.

(* a house with one part of each kind: 30 m2 main room, 50 m2 other rooms, 120 m2 in total *)
Example C37_example : exists p', lv2_to_lv3 30 50 120 ex_parts = Ok p' /\
  map gp_area (ps_gps p') = [30 / 120 * 50; 50 / 120 * 50; (120 - 30 - 50) / 120 * 50] /\
  map (fun g => e_name (gp_env (gp_ns g))) (ps_gps p') = ["wall_main_occupant_room"; "wall_other_occupant_room"; "wall_non_occupant_room"]%string /\
  sum (areas p') = 102.
Proof.
destruct (C37_split 30 50 120 ex_parts ltac:(lra)) as (p' & E & _); exists p'; split; [exact E|].
destruct (C37_sizes 30 50 120 ex_parts p' ltac:(lra) E) as (A & _).
rewrite lv3_ok in E by lra; apply ok_inj in E; rewrite <- E in *; split; [reflexivity|split; [reflexivity|]].
rewrite A; unfold areas; simpl; unfold gp_area, w_area, d_area, sum; simpl; lra.
Qed.
