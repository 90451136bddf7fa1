From Coq Require Import Reals List ZArith String Lra.
From Verif Require Import Model.Py Model.FactorH Model.FactorNu Model.EesHouse Model.CheckUa Model.Lv3 Spec.EnvelopeSpec Lemmas.Lv3L Lemmas.CheckUaL Examples.EnvelopeEx.
Import ListNotations.
Local Open Scope R_scope.

(* C42: UA is the total heat loss, eta_A the total solar gain (in percent), per envelope area.
   Region 8 has no heating period. *)
Theorem C42_means : forall region p ua eta_h eta_c,
  check_u_a_and_eta_a region (ps_gps p) (ps_ws p) (ps_ds p) (ps_eps p) (ps_ecs p) = Ok (ua, eta_h, eta_c) ->
  sum (areas p) <> 0 /\
  (exists q, house_loss region p q /\ ua = q / sum (areas p)) /\
  (region = 8%Z -> eta_h = None) /\
  (region <> 8%Z -> exists m, house_gain region Heating p m /\ eta_h = Some (100 * (m / sum (areas p)))) /\
  (exists m, house_gain region Cooling p m /\ eta_c = 100 * (m / sum (areas p))).
Proof. exact check_means. Qed.
Print Assumptions C42_means.

(* it lies between the smallest and the largest part value of a house without earth floors *)
Theorem C42_between_partial : forall region p lo hi ua eta_h eta_c,
  check_u_a_and_eta_a region (ps_gps p) (ps_ws p) (ps_ds p) (ps_eps p) (ps_ecs p) = Ok (ua, eta_h, eta_c) ->
  ps_eps p = [] -> ps_ecs p = [] -> (forall a, In a (areas p) -> 0 <= a) -> u_between region lo hi p -> lo <= ua <= hi.
Proof. exact check_between. Qed.
Print Assumptions C42_between_partial.

(* an earth floor perimeter adds heat loss without area *)
Theorem C42_between_refuted : exists region p lo hi ua eta_h eta_c,
  check_u_a_and_eta_a region (ps_gps p) (ps_ws p) (ps_ds p) (ps_eps p) (ps_ecs p) = Ok (ua, eta_h, eta_c) /\
  (forall a, In a (areas p) -> 0 <= a) /\ u_between region lo hi p /\ hi < ua.
Proof.
destruct ex_earth_check as (eh & ec & E); exists 6%Z, ex_earth, (1 / 2), (1 / 2), (55 / 50), eh, ec; split; [exact E|].
split; [intros a [<- |[]]; unfold gp_area; simpl; lra|]; split; [|lra].
split; [|split; intros x h []].
intros g u h [<- |[]] U H; apply ok_inj in U; apply ok_inj in H; rewrite <- U, <- H; simpl; lra.
Qed.
Print Assumptions C42_between_refuted.

(* distributing the parts over the rooms changes nothing *)
Theorem C42_split : forall a_mr a_or a_total p p' region, a_total <> 0 -> lv2_to_lv3 a_mr a_or a_total p = Ok p' ->
  check_u_a_and_eta_a region (ps_gps p') (ps_ws p') (ps_ds p') (ps_eps p') (ps_ecs p') =
  check_u_a_and_eta_a region (ps_gps p) (ps_ws p) (ps_ds p) (ps_eps p) (ps_ecs p).
Proof. exact lv3_check. Qed.
Print Assumptions C42_split.

(* wall, window and door: 63 W/K over 62 m2, between the wall's 0.5 and the door's 4 *)
Example C42_example : exists eta_h eta_c,
  check_u_a_and_eta_a 6 (ps_gps ex_upper) (ps_ws ex_upper) (ps_ds ex_upper) (ps_eps ex_upper) (ps_ecs ex_upper) = Ok (63 / 62, eta_h, eta_c) /\
  (forall a, In a (areas ex_upper) -> 0 <= a) /\ u_between 6 (1 / 2) 4 ex_upper.
Proof.
destruct ex_upper_check as (eh & ec & E); exists eh, ec; split; [exact E|]; split.
- intros a [<- |[<- |[<- |[]]]]; unfold gp_area, w_area, d_area; simpl; lra.
- split; [|split].
  + intros g u h [<- |[]] U H; apply ok_inj in U; apply ok_inj in H; rewrite <- U, <- H; simpl; lra.
  + intros w h [<- |[]] H; apply ok_inj in H; rewrite <- H; simpl; lra.
  + intros w h [<- |[]] H; apply ok_inj in H; rewrite <- H; simpl; lra.
Qed.
