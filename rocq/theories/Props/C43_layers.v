(* C43: layers for a U value *)
From Coq Require Import Reals List String Bool Lra.
From Verif Require Import Model.Py Model.EesHouse Model.EesLayers Spec.EnvelopeSpec Spec.LayersSpec Lemmas.EesLayersL.
Import ListNotations.
Local Open Scope R_scope.

(* A U value becomes one part: the boards of the structure with insulation between them. Its U value is the given one, or
   that of the bare structure if this is already lower, plus the correction for thermal bridges. Without correction the
   boards keep their resistances. *)
Theorem C43_u_value : forall name area u_add t heavy u, 0 < u -> 0 <= u_add ->
  exists q e k, spec_init name area u_add (SpecOther t u (weight heavy)) = Ok [q] /\
    ip_name q = (name ++ "_sole_part")%string /\ ip_area q = area /\ ip_r_in q = surface_in t /\ ip_r_ex q = surface_ex t /\
    written_u q = Rmin u (bare_u t heavy) + u_add /\ 0 <= e /\
    Forall2 (fun b w => il_name w = bo_name b /\ il_r w = k * board_r b /\ il_c w = bo_thickness b * bo_heat b)
      (room_side t heavy ++ insulation e :: far_side t heavy) (ip_layers q) /\ (u_add = 0 -> k = 1).
Proof. exact u_value_written. Qed.
Print Assumptions C43_u_value.

(* A structure given by layers: every part keeps its layers, scaled so that its U value grows by the correction. *)
Theorem C43_correction : forall name area u_add s d ps, spec_detail s = Some d -> spec_init name area u_add s = Ok ps ->
  Forall2 (written_as d name area (u_add + steel_bridges s)) (s_parts d) ps.
Proof. intros name area u_add s d ps D E; rewrite (detailed_init _ _ _ _ _ D) in E; exact (detail_written _ _ _ _ _ E). Qed.
Print Assumptions C43_correction.

(* Together the parts lose what the whole loses: area times (U + delta U). *)
Theorem C43_loss : forall name area u_add s d u ps, spec_detail s = Some d -> sum (map p_ratio (s_parts d)) = 1 ->
  spec_u s = Ok u -> spec_init name area u_add s = Ok ps -> written_loss ps = area * (u + u_add).
Proof. exact detailed_loss. Qed.
Print Assumptions C43_loss.

(* Layers with positive resistance are always written. *)
Theorem C43_accepted : forall name area u_add s d, spec_detail s = Some d -> 0 <= s_r_in d -> 0 <= s_r_ex d -> 0 <= u_add + steel_bridges s ->
  (forall p, In p (s_parts d) -> insulating p) -> exists ps, spec_init name area u_add s = Ok ps.
Proof. intros name area u_add s d D; rewrite (detailed_init _ _ _ _ _ D); exact (detail_total _ _ _ _). Qed.
Print Assumptions C43_accepted.

(* U value zero, unknown weights and parts without resistance are rejected. *)
Theorem C43_rejected : forall name area u_add t,
  (forall heavy, spec_init name area u_add (SpecOther t 0 (weight heavy)) = Err ZeroDivisionError) /\
  (forall u w, w <> weight true -> w <> weight false -> spec_init name area u_add (SpecOther t u w) = Err KeyError) /\
  spec_init name area u_add (SpecWood {| s_r_in := surface_in t; s_r_ex := surface_ex t; s_parts := [{| p_name := ""; p_ratio := 1; p_layers := [] |}] |}) = Err ZeroDivisionError.
Proof. exact layers_rejected. Qed.
Print Assumptions C43_rejected.

(* No written resistance is negative, as long as the corrected U value leaves room for the surface resistances. *)
Theorem C43_nonneg_partial : forall name area u_add s d ps p q i, spec_detail s = Some d -> spec_init name area u_add s = Ok ps ->
  nth_error (s_parts d) i = Some p -> nth_error ps i = Some q ->
  (forall l, In l (p_layers p) -> 0 <= resistance_of l) -> 0 < resistance p ->
  let u := u_of (s_r_in d) (resistance p) (s_r_ex d) + (u_add + steel_bridges s) in
  0 < u -> u * (s_r_in d + s_r_ex d) <= 1 -> forall w, In w (ip_layers q) -> 0 <= il_r w.
Proof.
intros name area u_add s d ps p q i D E P Q; refine (written_nonneg d name area _ p q _).
exact (forall2_at _ _ _ _ _ (C43_correction _ _ _ _ _ _ D E) _ _ _ P Q).
Qed.
Print Assumptions C43_nonneg_partial.

(* Otherwise negative resistances are written without an error. *)
Theorem C43_nonneg_refuted : exists s d ps q w, spec_detail s = Some d /\ 0 < s_r_in d /\ 0 < s_r_ex d /\ 0 < steel_bridges s /\
  (forall p, In p (s_parts d) -> 0 < p_ratio p /\ forall l, In l (p_layers p) -> 0 < l_thickness l /\ 0 < l_conductivity l /\ 0 < l_specific_heat l) /\
  spec_init "wall" 10 0 s = Ok ps /\ In q ps /\ In w (ip_layers q) /\ il_r w < 0.
Proof. exact negative_resistance. Qed.
Print Assumptions C43_nonneg_refuted.

Example C43_example : let p := {| p_name := "general"; p_ratio := 1; p_layers := [gypsum_board9_5; insulation_of (1 / 10); plywood12] |} in
  insulating p /\ spec_detail (SpecSteel (1 / 10) {| s_r_in := 11 / 100; s_r_ex := 4 / 100; s_parts := [p] |}) <> None.
Proof.
split; [|discriminate]; split.
- simpl; intros l I _; decompose [or] I; subst; simpl; solve [lra|contradiction].
- unfold resistance, sum, resistance_of; simpl; lra.
Qed.
