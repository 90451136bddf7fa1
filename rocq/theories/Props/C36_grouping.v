From Coq Require Import Reals List ZArith Lra Lia.
From Verif Require Import Model.Py Model.BoundaryDict Model.BoundarySimple Model.Grouping Spec.HouseSpec Spec.GroupingSpec Lemmas.GroupingL Lemmas.ReadBackL.
Import ListNotations.
Local Open Scope R_scope.

(* C36: every boundary is in exactly one group; the groups are numbered from 0 without gaps *)
Theorem C36_partition : forall bss, let g := get_group_indices (same_of bss) (length bss) in
  length g = length bss /\
  (forall i, (i < length bss)%nat -> (0 <= nth i g (-1))%Z) /\
  (forall i v, (i < length bss)%nat -> (0 <= v <= nth i g (-1))%Z -> exists j, (j < length bss)%nat /\ nth j g (-1)%Z = v).
Proof. exact partition_of. Qed.
Print Assumptions C36_partition.

(* the merged areas add up to the area of all boundaries *)
Theorem C36_area : forall bss gs, let g := get_group_indices (same_of bss) (length bss) in
  NoDup gs -> (forall v, In v g -> In v gs) ->
  total (areas_of_groups (map bs_area bss) g gs) = total (map bs_area bss).
Proof. exact area_kept. Qed.
Print Assumptions C36_area.

(* some boundary (not always one of the group) is similar to all members of a group *)
Theorem C36_common_boundary : forall bss j, let g := get_group_indices (same_of bss) (length bss) in
  (j < length bss)%nat -> exists c, In c bss /\
  forall i b, nth_error bss i = Some b -> nth i g (-1)%Z = nth j g (-1)%Z -> similar c b.
Proof. exact common_boundary. Qed.
Print Assumptions C36_common_boundary.

(* if different coefficients differ by more than the tolerance, groups are the classes of similar boundaries ... *)
Theorem C36_similar_partial : forall bss i j a b, clear_cut bss -> let g := get_group_indices (same_of bss) (length bss) in
  nth_error bss i = Some a -> nth_error bss j = Some b -> (nth i g (-1)%Z = nth j g (-1)%Z <-> similar a b).
Proof. exact same_group_iff. Qed.
Print Assumptions C36_similar_partial.

(* ... in the order of their first members *)
Theorem C36_order_partial : forall bss i j, clear_cut bss -> let g := get_group_indices (same_of bss) (length bss) in
  (i < j < length bss)%nat -> first_of_group g i -> first_of_group g j -> (nth i g (-1) < nth j g (-1))%Z.
Proof. exact grouping_order. Qed.
Print Assumptions C36_order_partial.

(* otherwise a group may hold a boundary that is not similar to the first one of the group *)
Theorem C36_similar_refuted : exists bss, let g := get_group_indices (same_of bss) (length bss) in
  exists i j a b, first_of_group g i /\ nth i g (-1)%Z = nth j g (-1)%Z /\
  nth_error bss i = Some a /\ nth_error bss j = Some b /\ ~ similar a b.
Proof. exact chain_first. Qed.
Print Assumptions C36_similar_refuted.

(* and the groups may be numbered against the order of their first members *)
Theorem C36_order_refuted : exists bss, let g := get_group_indices (same_of bss) (length bss) in
  exists i j, (i < j < length bss)%nat /\ first_of_group g i /\ first_of_group g j /\ (nth j g (-1) < nth i g (-1))%Z.
Proof. exact chain_order. Qed.
Print Assumptions C36_order_refuted.

(* similar inner walls lead to the same room of the house description *)
Theorem C36_same_neighbour : forall ws b1 b2 s1 s2, get_boundary_simple ws b1 = Ok s1 -> get_boundary_simple ws b2 = Ok s2 ->
  similar s1 s2 -> bs_type s1 = Internal ->
  exists room, next_room_type b1 = Some room /\ next_room_type b2 = Some room.
Proof. exact similar_neighbours. Qed.
Print Assumptions C36_same_neighbour.

Example C36_example : clear_cut ex_plain /\ get_group_indices (same_of ex_plain) (length ex_plain) = [0; 1; 0]%Z /\ similar (ex_b 4 1) (ex_b 4 1).
Proof. split; [exact ex_plain_clear|]; split; [exact ex_plain_groups|]; apply integratable_similar, integratable_refl. Qed.
