From Coq Require Import Reals List String Lra.
From Verif Require Import Model.Py Model.FactorH Model.FactorNu Model.EesHouse Model.EesDict Model.EesLayers Model.PartSpec Model.SurfaceR
  Spec.LayersSpec Spec.SurfaceSpec Lemmas.SurfaceL.
Import ListNotations.
Local Open Scope R_scope.

(* C67: the inner resistance depends on the direction of heat flow only, the outer one is 0.04 in the open air and otherwise the inner one *)
Theorem C67_table : forall t n, possible t n -> get_r_surf (kind_value t) (next_value n) = Ok (film (flow_through t), far_film t n).
Proof. exact surf_possible. Qed.
Print Assumptions C67_table.

(* impossible places and unknown kinds of parts are rejected *)
Theorem C67_rejected : (forall t n, ~ possible t n -> get_r_surf (kind_value t) (next_value n) = Err ValueError) /\
  forall s n, (forall t, s <> kind_value t) -> get_r_surf s n = Err ValueError.
Proof. split; [exact surf_impossible|exact surf_unknown]. Qed.
Print Assumptions C67_rejected.

(* unknown adjacent spaces are not: they count as indoors *)
Theorem C67_space_refuted : exists s, (forall n, s <> next_value n) /\ get_r_surf "wall" s = Ok (11 / 100, 11 / 100).
Proof. exists "outside"%string; split; [intros []; discriminate|reflexivity]. Qed.
Print Assumptions C67_space_refuted.

(* the table of largest U values uses the same resistances *)
Theorem C67_largest : forall p t n b, in_table p t n b ->
  exists ri re, get_r_surf (kind_value t) (next_value n) = Ok (ri, re) /\ get_u_psi_max p = u_of ri b re.
Proof. exact surf_max. Qed.
Print Assumptions C67_largest.

(* the layers written for a U value have the same inner resistance, and the same outer one exactly where the part is in its usual place *)
Theorem C67_layers_partial : forall name area u_add t heavy u n, 0 < u -> 0 <= u_add -> possible t n ->
  exists q ri re, spec_init name area u_add (SpecOther t u (weight heavy)) = Ok [q] /\
    get_r_surf (kind_value t) (next_value n) = Ok (ri, re) /\ ip_r_in q = ri /\ (ip_r_ex q = re <-> usual_place t n).
Proof. exact surf_layers. Qed.
Print Assumptions C67_layers_partial.

(* a floor over the open air is one of the exceptions *)
Theorem C67_layers_refuted : exists q ri re, spec_init "floor" 10 0 (SpecOther FLOOR (1 / 2) "light") = Ok [q] /\
  get_r_surf "floor" "outdoor" = Ok (ri, re) /\ ip_r_ex q = 15 / 100 /\ re = 4 / 100.
Proof.
destruct (surf_layers "floor" 10 0 FLOOR false (1 / 2) OUTDOOR ltac:(lra) ltac:(lra) I) as (q & ri & re & E & _).
destruct (EesLayersL.u_value_written "floor" 10 0 FLOOR false (1 / 2) ltac:(lra) ltac:(lra)) as (q' & _ & _ & E' & _ & _ & _ & X & _).
rewrite E in E'; injection E' as <-; exists q, (15 / 100), (4 / 100); split; [exact E|split; [reflexivity|split; [exact X|reflexivity]]].
Qed.
Print Assumptions C67_layers_refuted.

Example C67_example : possible WALL OPEN_SPACE /\ ~ usual_place WALL OPEN_SPACE /\ ~ possible CEILING OUTDOOR /\
  in_table PFloor FLOOR OUTDOOR ((12 / 1000) / (16 / 100)) /\ get_r_surf "ceiling" "closed_space" = Ok (9 / 100, 9 / 100).
Proof. simpl; repeat split; try discriminate; intro H; apply H; reflexivity. Qed.
