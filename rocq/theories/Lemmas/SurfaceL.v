(* Resistances of surfaces. *)
From Coq Require Import Reals List String Lra.
From Verif Require Import Model.Py Model.FactorH Model.FactorNu Model.EesHouse Model.EesDict Model.EesLayers Model.PartSpec Model.SurfaceR
  Spec.LayersSpec Spec.SurfaceSpec Lemmas.EesLayersL.
Import ListNotations.
Local Open Scope R_scope.

Lemma surf_possible t n : possible t n -> get_r_surf (kind_value t) (next_value n) = Ok (film (flow_through t), far_film t n).
Proof. destruct t, n; simpl; intro P; try reflexivity; congruence. Qed.

Lemma surf_impossible t n : ~ possible t n -> get_r_surf (kind_value t) (next_value n) = Err ValueError.
Proof. destruct t, n; simpl; intro P; try reflexivity; exfalso; apply P; try exact I; try reflexivity; discriminate. Qed.

Lemma surf_unknown s n : (forall t, s <> kind_value t) -> get_r_surf s n = Err ValueError.
Proof.
intro H; unfold get_r_surf.
assert (K : forall t, (s =? kind_value t)%string = false) by (intro t; apply String.eqb_neq, H).
rewrite (K ROOF : (s =? "roof")%string = false), (K CEILING : (s =? "ceiling")%string = false), (K WALL : (s =? "wall")%string = false),
  (K FLOOR : (s =? "floor")%string = false), (K BOUNDARY_WALL : (s =? "boundary_wall")%string = false),
  (K UPWARD_BOUNDARY_FLOOR : (s =? "upward_boundary_floor")%string = false),
  (K DOWNWARD_BOUNDARY_FLOOR : (s =? "downward_boundary_floor")%string = false); reflexivity.
Qed.

Lemma surf_layers name area u_add t heavy u n : 0 < u -> 0 <= u_add -> possible t n ->
  exists q ri re, spec_init name area u_add (SpecOther t u (weight heavy)) = Ok [q] /\
    get_r_surf (kind_value t) (next_value n) = Ok (ri, re) /\ ip_r_in q = ri /\ (ip_r_ex q = re <-> usual_place t n).
Proof.
intros U A P; destruct (u_value_written name area u_add t heavy u U A) as (q & e & k & E & _ & _ & I & X & _).
exists q, (film (flow_through t)), (far_film t n); split; [exact E|]; split; [exact (surf_possible t n P)|].
rewrite I, X; split; [destruct t; reflexivity|].
destruct t, n; unfold far_film, open_film, surface_ex, surface_in; simpl in *; split; intro H; try exact I; try reflexivity; try lra; try discriminate; try congruence; exfalso; apply H; reflexivity.
Qed.

Lemma surf_max p t n b : in_table p t n b ->
  exists ri re, get_r_surf (kind_value t) (next_value n) = Ok (ri, re) /\ get_u_psi_max p = u_of ri b re.
Proof.
intro H; exists (film (flow_through t)), (far_film t n); split.
- apply surf_possible; destruct p; simpl in H; try contradiction; destruct H as (-> & H & _); simpl; try exact I; exact H.
- destruct p; simpl in H; try contradiction; destruct H as (-> & H & ->); unfold u_of; try subst n; try reflexivity; destruct n; try reflexivity; exfalso; apply H; reflexivity.
Qed.
