From Coq Require Import Reals List ZArith String Lra Lia.
From Verif Require Import Model.Py Model.JsonValue Model.FactorH Model.FactorNu Model.FactorF Model.EesHouse Model.PartSpec Spec.EnvelopeSpec Spec.IndexSpec
  Lemmas.PartSpecL Lemmas.PartSpecTotalL Examples.EnvelopeEx.
Import ListNotations.
Local Open Scope R_scope.

(* a wall, a window, a door, an earth floor *)
Definition ex_house : parts_ns :=
  {| n_gps := [gp_ns ex_wall]; n_ws := [w_ns ex_window]; n_ds := [d_ns ex_door]; n_eps := [ep_ns ex_perimeter]; n_ecs := [ec_ns ex_center] |}.

Lemma ex_house_nonneg : nonneg_house ex_house.
Proof. repeat split; intros x [<- |[]]; simpl; lra. Qed.
Lemma ex_house_area : house_area ex_house = 102.
Proof. unfold house_area, sum; simpl; lra. Qed.
Lemma ex_house_describable : describable ex_house.
Proof.
split; [intros g [<- |[]]; split; discriminate|]; split; [intros g [<- |[]]; simpl; trivial|]; split; [intros g [<- |[]]; simpl; trivial|].
split; [intros g [<- |[]]; simpl; split; [exact I|trivial]|]; exists (w_ns ex_window); simpl; repeat split; try discriminate; [left; reflexivity|lra].
Qed.
Lemma ex_house_shade : no_opaque_shade ex_house.
Proof. split; intros x [<- |[]] _; reflexivity. Qed.

(* a floor to the dwelling below *)
Definition ex_flat : parts_ns :=
  {| n_gps := [ {| gp_env := {| e_name := "floor"; e_next_space := AIR_CONDITIONED; e_direction := DDownward; e_area := 70; e_space_type := UNDEFINED |};
                   gp_kind := DOWNWARD_BOUNDARY_FLOOR; gp_shade := OpNotDefined |} ]; n_ws := [w_ns ex_window]; n_ds := []; n_eps := []; n_ecs := [] |}.
