From Coq Require Import Reals ZArith List Lra Lia.
From Verif Require Import Model.Py Model.FactorNu Model.EesHouse Model.CheckUa Model.PartSpec Spec.EnvelopeSpec Spec.IndexSpec
  Lemmas.PartSpecL Lemmas.PartSpecGainL Lemmas.PartSpecTotalL Examples.IndexEx Props.C41_ua.
Import ListNotations.
Local Open Scope R_scope.

(* C58: all windows get the same eta_d per season, between 0 and 0.88. The recalculated eta_A is the given one unless eta_d is at one of its bounds,
   and then it errs towards the given value: sg is the windows' gain at eta_d = 1. *)
Theorem C58_eta_met : forall region u_a eta_h eta_c h gps ws ds eps ecs,
  nonneg_house h -> 0 <= house_area h * u_a -> no_opaque_shade h -> 0 < house_area h ->
  spec_from_indices region u_a eta_h eta_c h = Ok (gps, ws, ds, eps, ecs) ->
  let wanted s := match s with Heating => eta_h | Cooling => eta_c end in
  exists ua (eta sg eta_d : season -> R),
  check_u_a_and_eta_a region gps ws ds eps ecs = Ok (ua, Some (eta Heating), eta Cooling) /\
  forall s, window_gain region s h (sg s) /\ (forall w, In w ws -> match s with Heating => ws_eta_d_h (w_spec w) | Cooling => ws_eta_d_c (w_spec w) end = eta_d s) /\
    0 <= eta_d s <= 88 / 100 /\
    (0 < sg s -> eta s = wanted s \/ (eta_d s = 0 /\ wanted s < eta s) \/ (eta_d s = 88 / 100 /\ eta s < wanted s)).
Proof. exact (fun r u a b h g w d e c N U S A K => eta_met r u a b h g w d e c N U S K A). Qed.
Print Assumptions C58_eta_met.

(* the windows of a describable house do receive sun *)
Theorem C58_sun : forall region s h sg, (1 <= region <= 7)%Z -> nonneg_house h -> describable h -> sum_a_f_nu region s (n_ws h) = Ok sg -> 0 < sg.
Proof.
intros region s h sg R N D E; destruct (windows_ok region s h R N D) as (sg' & E' & P); rewrite E in E'; injection E' as <-; exact P.
Qed.
Print Assumptions C58_sun.

Example C58_example : nonneg_house ex_house /\ no_opaque_shade ex_house /\ describable ex_house /\ 0 < house_area ex_house /\
  exists gps ws ds eps ecs, spec_from_indices 6 (87 / 100) (28 / 10) (14 / 10) ex_house = Ok (gps, ws, ds, eps, ecs).
Proof.
split; [exact ex_house_nonneg|]; split; [exact ex_house_shade|]; split; [exact ex_house_describable|]; split; [rewrite ex_house_area; lra|].
apply C41_example.
Qed.
