(* every surface gets a radiative coefficient *)
From Coq Require Import Reals List Arith Lia.
From Verif Require Import Model.ShapeFactor Spec.ViewFactor.
Import ListNotations.

Lemma sum_split (r : nat) (g : nat -> nat) s n : (s <= r < s + n)%nat ->
  list_sum (map (fun i => (if Nat.eqb r i then 1 else 0) + g i)%nat (seq s n)) = S (list_sum (map g (seq s n))).
Proof.
revert s; induction n as [|n IH]; intros s H; [lia|]; simpl.
destruct (Nat.eqb_spec r s) as [->|N].
- assert (E : map (fun i => ((if s =? i then 1 else 0) + g i)%nat) (seq (S s) n) = map g (seq (S s) n)).
  { apply map_ext_in; intros i I; apply in_seq in I; destruct (Nat.eqb_spec s i); [lia|reflexivity]. }
  rewrite E; lia.
- rewrite IH by lia; lia.
Qed.

Lemma select_lengths room : forall (a : list R) s n, List.length room = List.length a -> (forall r, In r room -> (s <= r < s + n)%nat) ->
  list_sum (map (fun i => List.length (select i room a)) (seq s n)) = List.length a.
Proof.
induction room as [|r room IH]; intros [|x a] s n L B; try discriminate L.
- simpl; induction (seq s n); simpl; auto.
- rewrite (map_ext _ (fun i => ((if Nat.eqb r i then 1 else 0) + List.length (select i room a))%nat)) by (intro i; simpl; destruct (Nat.eqb r i); reflexivity).
  rewrite sum_split by (apply B; left; reflexivity); simpl; f_equal; apply IH; [injection L as L; exact L|intros q Q; apply B; right; exact Q].
Qed.

Lemma h_r_length f_ver n room (a : list R) : List.length room = List.length a -> (forall r, In r room -> (r < n)%nat) ->
  List.length (h_r_js f_ver n room a) = List.length a.
Proof.
intros L B; unfold h_r_js, f_js; rewrite map_length.
rewrite <- (select_lengths room a 0 n L) by (intros r I; split; [lia|exact (B r I)]).
induction (seq 0 n) as [|i l IH]; simpl; [reflexivity|]; rewrite app_length, IH; f_equal; unfold f_i_js, ratios; rewrite !map_length; reflexivity.
Qed.
