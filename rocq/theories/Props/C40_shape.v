(* C40: the geometry of model houses *)
From Coq Require Import Reals ZArith List String Bool Lra Lia.
From Verif Require Import Model.Py Model.FactorH Model.FactorNu Model.EesHouse Model.PartSpec Model.ModelHouse Spec.EnvelopeSpec Spec.IndexSpec Spec.ShapeSpec
  Lemmas.Lv3L Lemmas.ModelHouseL Lemmas.ModelHouseNonnegL.
Import ListNotations.
Local Open Scope R_scope.

(* there is a model for every kind of house that is known, and only for those *)
Theorem C40_total : forall t a r ins bath env, 0 < a -> (known t ins bath <-> exists s, calc_area t a r ins bath env = Ok s).
Proof.
intros t a r ins bath env A; split; [intro K; exact (area_total t a r ins bath env K A)|].
intros (s & E); exact (proj2 (proj2 (proj2 (proj2 (proj2 (proj2 (floors_add _ _ _ _ _ _ _ E))))))).
Qed.
Print Assumptions C40_total.

(* the storeys are rectangles whose areas add up to the floor area; floor and earth floor make up the ground floor, the roof is as large;
   walls, windows and doors fill the four fronts *)
Theorem C40_geometry : forall t a r ins bath env s, calc_area t a r ins bath env = Ok s ->
  sum (per_storey (sh_a_f s)) = a /\ rectangles s /\
  sh_f_total s + sh_ef_total s = ground (sh_a_f s) /\ sh_roof s = ground (sh_a_f s) /\ fronts_filled s.
Proof.
intros t a r ins bath env s E; destruct (floors_add _ _ _ _ _ _ _ E) as (_ & _ & _ & F1 & F2 & F3 & _).
split; [exact F3|]; split; [exact (rectangular _ _ _ _ _ _ _ E)|]; split; [exact F1|]; split; [exact F2|exact (proj1 (filled _ _ _ _ _ _ _ E))].
Qed.
Print Assumptions C40_geometry.

(* what stands on the ground has the area and the inner and outer foundations of its rooms *)
Theorem C40_foundation : forall t a r ins bath env s, calc_area t a r ins bath env = Ok s -> foundation t ins bath s.
Proof. exact founded. Qed.
Print Assumptions C40_foundation.

(* the openings are the given share of floor, roof and fronts *)
Theorem C40_openings : forall t a r ins bath env s, calc_area t a r ins bath env = Ok s ->
  four (sh_window s) + four (sh_door s) = r * (2 * ground (sh_a_f s) + 2 * front s (sh_l_ms s) + 2 * front s (sh_l_os s)).
Proof.
intros t a r ins bath env s E; destruct (filled _ _ _ _ _ _ _ E) as (_ & O & N & _), (floors_add _ _ _ _ _ _ _ E) as (_ & _ & _ & F1 & F2 & _).
rewrite O, N; f_equal; lra.
Qed.
Print Assumptions C40_openings.

(* the parts that are made have together the stated envelope area and foundation length *)
Theorem C40_parts : forall t a r ins bath env s, calc_area t a r ins bath env = Ok s ->
  exists h, get_model_house_no_spec s = Ok h /\ house_area h = sh_total s /\ sum (map ep_length (n_eps h)) = four (sh_l_base_out s) + sh_l_base_in s.
Proof. exact house_made. Qed.
Print Assumptions C40_parts.

(* the parts look where they should: each side has its front, filled by walls, windows and doors (C40_geometry), and its foundation *)
Theorem C40_sides : forall t a r ins bath env s h n d side, calc_area t a r ins bath env = Ok s -> get_model_house_no_spec s = Ok h ->
  In (n, d, side) (house_sides t) ->
  facing n d (map gp_env (n_gps h)) = side (sh_wall s) + side (sh_base_out s)
  /\ facing n d (map w_env (n_ws h)) = side (sh_window s) /\ facing n d (map d_env (n_ds h)) = side (sh_door s).
Proof. exact sides_made. Qed.
Print Assumptions C40_sides.

(* a prescribed envelope area is met, if a house with the given floor area can be as small *)
Theorem C40_prescribed_partial : forall t a ins bath, exists smallest, forall r env s,
  calc_area t a r ins bath (Some env) = Ok s -> sh_total s = Rmax env smallest.
Proof. intros t a ins bath; exists (smallest t a ins bath); intros r env s; exact (prescribed t a r ins bath env s). Qed.
Print Assumptions C40_prescribed_partial.

(* otherwise the house is larger than prescribed, without an error *)
Theorem C40_prescribed_refuted : exists t a r ins bath env s, 0 < a /\ 0 < env /\ calc_area t a r ins bath (Some env) = Ok s /\ env < sh_total s.
Proof.
destruct (area_total Attached 100 (1 / 10) InsNone InsNone (Some 200)) as (s & E); [split; [auto|discriminate]|lra|].
exists Attached, 100, (1 / 10), InsNone, InsNone, 200, s; split; [lra|]; split; [lra|]; split; [exact E|].
rewrite (prescribed _ _ _ _ _ _ _ E); eapply Rlt_le_trans; [|apply Rmax_r].
unfold smallest; simpl; assert (0 < sqrt 100) by (apply sqrt_lt_R0; lra); lra.
Qed.
Print Assumptions C40_prescribed_refuted.

(* no part of a detached house with insulated floor, a tenth of openings, usual size and a moderate envelope has negative area or length *)
Theorem C40_nonneg_partial : forall a bath env s, 11 <= a <= 1000 ->
  match env with None => True | Some e => e <= 2 * (a / (177 / 100)) + 41 * sqrt (a / (177 / 100)) end ->
  calc_area Detached a (1 / 10) InsFloor bath env = Ok s -> exists h, get_model_house_no_spec s = Ok h /\ nonneg_house h.
Proof.
intros a bath env s A M E; destruct (house_made _ _ _ _ _ _ _ E) as (h & H & _); exists h; split; [exact H|].
destruct (floors_add _ _ _ _ _ _ _ E) as (T & I & _).
destruct (detached_nonneg _ _ _ _ A M E) as (N1 & N2 & N3 & N4 & N5 & N6 & N7 & N8 & N9 & N10 & N11).
exact (proj1 (detached_house s h T I H N1 N2 N3 N4 N5 N6 N7 N8 N9 N10 N11)).
Qed.
Print Assumptions C40_nonneg_partial.

(* without openings the windows get negative areas *)
Theorem C40_nonneg_refuted : exists a r s h, 0 < a /\ 0 <= r /\ calc_area Detached a r InsFloor InsBase None = Ok s /\ get_model_house_no_spec s = Ok h /\
  exists w, In w (n_ws h) /\ e_area (w_env w) < 0.
Proof.
destruct (area_total Detached 100 0 InsFloor InsBase None) as (s & E); [left; auto|lra|].
destruct (house_made _ _ _ _ _ _ _ E) as (h & H & _); exists 100, 0, s, h; split; [lra|]; split; [lra|]; split; [exact E|]; split; [exact H|].
destruct (floors_add _ _ _ _ _ _ _ E) as (T & I & _).
assert (W : q000 (sh_window s) < 0).
{ rewrite (no_openings _ _ _ _ _ E); lra. }
unfold get_model_house_no_spec in H; rewrite T, I in H; do 3 (destruct (none_of _); cbn [bind] in H; [|discriminate]); apply ok_inj in H; subst h.
eexists; split; [left; reflexivity|exact W].
Qed.
Print Assumptions C40_nonneg_refuted.

(* 120 m2 with 320 m2 of envelope *)
Example C40_example : exists s, calc_area Detached 120 (1 / 10) InsFloor InsBase (Some 320) = Ok s /\ sum (per_storey (sh_a_f s)) = 120 /\
  320 <= 2 * (120 / (177 / 100)) + 41 * sqrt (120 / (177 / 100)).
Proof.
destruct (area_total Detached 120 (1 / 10) InsFloor InsBase (Some 320)) as (s & E); [left; auto|lra|].
exists s; split; [exact E|]; split; [apply (C40_geometry _ _ _ _ _ _ _ E)|].
assert (8 <= sqrt (120 / (177 / 100)) <= 9) by (apply sqrt_between; lra); lra.
Qed.
