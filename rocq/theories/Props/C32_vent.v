From Coq Require Import Reals List ZArith Lra Lia.
From Verif Require Import Model.Py Model.Initializer Spec.HouseSpec Lemmas.VentL.
Import ListNotations.
Local Open Scope R_scope.

(* C32: the matrix of air flows between rooms; next_vents has for every room the list of (upstream room, volume per hour). *)
Theorem C32_entries : forall next_vents n m,
  (forall paths p, In paths next_vents -> In p paths -> (0 <= fst p)%Z) ->
  get_v_int_vent_is next_vents n = Ok m ->
  List.length m = List.length next_vents /\
  forall i paths row, nth_error next_vents i = Some paths -> nth_error m i = Some row ->
  List.length row = n /\ forall k, (k < n)%nat -> nth k row 0 = volume_from (Z.of_nat k) paths / 3600.
Proof. exact vent_entries. Qed.
Print Assumptions C32_entries.

Theorem C32_total : forall next_vents n m, get_v_int_vent_is next_vents n = Ok m ->
  total (map total m) = total (map (fun paths => total (map snd paths)) next_vents) / 3600.
Proof. exact vent_total. Qed.
Print Assumptions C32_total.

Theorem C32_completes : forall next_vents n, (forall paths p, In paths next_vents -> In p paths -> (0 <= fst p < Z.of_nat n)%Z) ->
  exists m, get_v_int_vent_is next_vents n = Ok m.
Proof. exact vent_completes. Qed.
Print Assumptions C32_completes.

(* unknown upstream rooms are rejected: proved for ids n, n + 1, ... and below -n. Missing: -n, ..., -1, see
   C32_negative_refuted. *)
Theorem C32_rejects_partial : forall next_vents n paths p, In paths next_vents -> In p paths ->
  (fst p < - Z.of_nat n \/ Z.of_nat n <= fst p)%Z -> get_v_int_vent_is next_vents n = Err IndexError.
Proof. exact vent_rejects. Qed.
Print Assumptions C32_rejects_partial.

(* the upstream room -2 of a house with two rooms is taken to be room 0 *)
Theorem C32_negative_refuted : exists next_vents n paths p m, In paths next_vents /\ In p paths /\ (fst p < 0)%Z /\
  get_v_int_vent_is next_vents n = Ok m /\ m = [[0; 0]; [1; 0]].
Proof.
exists [[]; [((-2)%Z, 3600)]], 2%nat, [((-2)%Z, 3600)], ((-2)%Z, 3600), [[0; 0]; [1; 0]].
split; [right; left; reflexivity|]; split; [left; reflexivity|]; split; [reflexivity|]; split; [exact vent_negative|reflexivity].
Qed.
Print Assumptions C32_negative_refuted.

(* two rooms; air comes from room 1 into room 0 by two paths *)
Example C32_example : get_v_int_vent_is [[(1%Z, 36); (1%Z, 72)]; []] 2 = Ok [[0; 108 / 3600]; [0; 0]].
Proof.
transitivity (Ok [[0; 0 + 36 / 3600 + 72 / 3600]; [0; 0]]); [reflexivity|].
replace (0 + 36 / 3600 + 72 / 3600) with (108 / 3600) by lra; reflexivity.
Qed.
