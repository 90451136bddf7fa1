(* C66: from the indices of a house to the input of the initializer *)
From Coq Require Import Reals ZArith List String Lra Lia.
From Verif Require Import Model.Py Model.JsonValue Model.EesHouse Model.EesDict Model.EesInit Model.PartSpec Model.ModelHouse Model.Lv3 Model.Lv4 Model.Convert.
From Verif Require Import Spec.EnvelopeSpec Spec.IndexSpec Spec.ConvertSpec Lemmas.ConvertL Examples.ConvertEx.
Import ListNotations.
Local Open Scope R_scope.

(* A described house is distributed over the rooms whatever it looks like; the result describes the split parts, if every part
   survives being written. *)
Theorem C66_rooms : forall common v p a_mr a_or a_a, describes v p -> has_floors common a_mr a_or a_a -> a_a <> 0 ->
  exists v' p', lv3_convert_spec common v = Ok v' /\ lv2_to_lv3 a_mr a_or a_a p = Ok p' /\ in_rooms p' /\
  (plain_house p -> plain_house p' /\ describes v' p').
Proof. exact lv3_done. Qed.
Print Assumptions C66_rooms.

(* Inner floors and walls are added, made with the outer walls, windows and doors in view; everything else is described as before. *)
Theorem C66_inner : forall common v p a_mr a_or a_a, describes v p -> has_floors common a_mr a_or a_a -> 0 < a_mr -> 0 <= a_or -> a_mr + a_or <= a_a ->
  exists v' ifs iws, lv4_convert_spec common v = Ok v' /\
  make_inner_floors a_mr a_or a_a (outer_parts p) (ps_ecs p) = Ok ifs /\
  make_inner_walls a_mr a_or a_a (outer_parts p) = Ok iws /\
  lists "inner_floors" make_inner_floor v' ifs /\ lists "inner_walls" make_inner_wall v' iws /\ (plain_house p -> describes v' p).
Proof. exact lv4_done. Qed.
Print Assumptions C66_inner.

(* A wall with a sunshade given by its lengths is accepted by one conversion and then refused by the next. *)
Theorem C66_sunshade_refuted : exists common v p, describes v p /\ (exists d3, lv3_convert_spec common v = Ok d3 /\ lv4_convert_spec common d3 = Err KeyError).
Proof. destruct shaded_described as (p & D); exists ex_common, ex_shaded, p; split; [exact D|exact shaded_lost]. Qed.
Print Assumptions C66_sunshade_refuted.

(* From the indices of a detached house of usual size in regions 1 to 7, three conversions in a row succeed. The last dictionary
   describes a house whose parts all belong to rooms, with at least the given envelope area and the given U_A, or that of the
   same house without any insulation. *)
Theorem C66_chain_partial : forall d common region a_mr a_or a_a env u_a eta_h eta_c,
  asks_for d common region a_a env u_a eta_h eta_c -> has_floors common a_mr a_or a_a ->
  (1 <= region <= 7)%Z -> 11 <= a_a <= 1000 -> env <= 2 * (a_a / (177 / 100)) + 41 * sqrt (a_a / (177 / 100)) -> 0 < u_a ->
  0 < a_mr -> 0 <= a_or -> a_mr + a_or <= a_a ->
  exists d2 d3 d4 p q s h worst, indices_convert_spec d = Ok d2 /\ lv3_convert_spec common d2 = Ok d3 /\ lv4_convert_spec common d3 = Ok d4 /\
  describes d4 p /\ in_rooms p /\ env <= sum (areas p) /\ house_loss region p q /\ q / sum (areas p) = Rmin u_a (worst / sum (areas p)) /\
  calc_area Detached a_a (1 / 10) InsFloor InsBase (Some env) = Ok s /\ get_model_house_no_spec s = Ok h /\ loss_with get_u_psi_max region h worst /\
  forall dv nv, ventilated dv nv -> convert_lv4_to_initializer common d4 dv nv = Err NameError.
Proof. exact chain. Qed.
Print Assumptions C66_chain_partial.

(* The last conversion returns for no input at all. *)
Theorem C66_last_refuted : forall common envelope d natural_vent, exists e, convert_lv4_to_initializer common envelope d natural_vent = Err e.
Proof. exact never_returns. Qed.
Print Assumptions C66_last_refuted.

(* With nothing wrong in the input, it ends with the undefined name. *)
Theorem C66_name_refuted : forall common v d nv region p ifs iws a_mr a_or a_a, describes v p ->
  lists "inner_floors" make_inner_floor v ifs -> lists "inner_walls" make_inner_wall v iws ->
  int_item "region" common = Ok region -> has_floors common a_mr a_or a_a -> 0 < a_mr -> 0 <= a_or -> ventilated d nv ->
  (forall g, In g (ps_gps p) -> exists vs, general_part_init 0 region g = Ok vs) -> (forall w, In w (ps_ws p) -> exists x, window_init region w = Ok x) ->
  (forall w, In w (ps_ds p) -> exists x, door_init region w = Ok x) ->
  convert_lv4_to_initializer common v d nv = Err NameError.
Proof. exact name_error. Qed.
Print Assumptions C66_name_refuted.

Example C66_example : asks_for ex_index ex_common 6 90 (266096 / 1000) (87 / 100) (28 / 10) (14 / 10) /\ has_floors ex_common 30 30 90 /\ ventilated ex_d ex_natural /\
  266096 / 1000 <= 2 * (90 / (177 / 100)) + 41 * sqrt (90 / (177 / 100)) /\
  exists d2 d3 d4, indices_convert_spec ex_index = Ok d2 /\ lv3_convert_spec ex_common d2 = Ok d3 /\ lv4_convert_spec ex_common d3 = Ok d4 /\
    convert_lv4_to_initializer ex_common d4 ex_d ex_natural = Err NameError.
Proof.
assert (A : asks_for ex_index ex_common 6 90 (266096 / 1000) (87 / 100) (28 / 10) (14 / 10)).
{ repeat split; do 2 eexists; repeat split. }
assert (F : has_floors ex_common 30 30 90) by (repeat split).
assert (V : ventilated ex_d ex_natural).
{ split; [do 2 eexists; split; reflexivity|]; split; eexists; reflexivity. }
assert (S : 266096 / 1000 <= 2 * (90 / (177 / 100)) + 41 * sqrt (90 / (177 / 100))).
{ assert (7 <= sqrt (90 / (177 / 100))); [|lra].
  rewrite <- (sqrt_square 7) by lra; apply sqrt_le_1_alt; lra. }
split; [exact A|]; split; [exact F|]; split; [exact V|]; split; [exact S|].
destruct (C66_chain_partial _ _ _ _ _ _ _ _ _ _ A F ltac:(lia) ltac:(lra) S ltac:(lra) ltac:(lra) ltac:(lra) ltac:(lra))
  as (d2 & d3 & d4 & p & q & s & h & worst & E2 & E3 & E4 & _ & _ & _ & _ & _ & _ & _ & _ & N).
exists d2, d3, d4; split; [exact E2|]; split; [exact E3|]; split; [exact E4|exact (N _ _ V)].
Qed.
