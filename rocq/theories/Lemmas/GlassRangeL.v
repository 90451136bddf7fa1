(* The temperatures in a glazing lie above the lower of the two air temperatures. *)
From Coq Require Import Reals ZArith List Bool Lia Lra.
From Verif Require Import Model.Py Model.EesHouse Model.GlassBalance Spec.GlassHeat Lemmas.GlassFlowL.
Import ListNotations.
Local Open Scope R_scope.

Section Range.
Variables (r : nat -> R) (te ti : R) (N : nat) (th : nat -> R).
Hypothesis N0 : (0 < N)%nat.
Hypothesis R0 : forall i, (i <= N)%nat -> 0 < r i.
Hypothesis up : forall i, (i < N)%nat -> flow r te ti N th i <= flow r te ti N th (S i).

Let T (i : nat) : R := if (i =? 0)%nat then te else if (i =? S N)%nat then ti else th (i - 1)%nat.

Lemma flow_T i : (i <= N)%nat -> r i * flow r te ti N th i = T i - T (S i).
Proof.
clear up; intro I; unfold flow, T; assert (X := R0 i I).
replace (S i =? 0)%nat with false by (symmetry; apply Nat.eqb_neq; lia).
replace (i =? S N)%nat with false by (symmetry; apply Nat.eqb_neq; lia).
replace (S i =? S N)%nat with (i =? N)%nat by reflexivity; replace (S i - 1)%nat with i by lia; field; lra.
Qed.

Lemma flow_le i j : (i <= j)%nat -> (j <= N)%nat -> flow r te ti N th i <= flow r te ti N th j.
Proof.
intros I; induction I as [|j I IH]; intro J; [lra|]; assert (A := IH ltac:(lia)); assert (B := up j ltac:(lia)); lra.
Qed.

Lemma T_down i j : (i <= j)%nat -> (j <= S N)%nat -> 0 <= flow r te ti N th i -> T j <= T i.
Proof.
intro I; induction I as [|j I IH]; intros J F; [lra|]; assert (A := IH ltac:(lia) F).
assert (B := flow_le i j I ltac:(lia)); assert (C := flow_T j ltac:(lia)); assert (P := R0 j ltac:(lia)).
assert (0 <= r j * flow r te ti N th j) by (apply Rmult_le_pos; lra); lra.
Qed.

Lemma T_up j : (j <= S N)%nat -> (forall i, (i < j)%nat -> flow r te ti N th i <= 0) -> T 0 <= T j.
Proof.
induction j as [|j IH]; intros J F; [lra|].
assert (A := IH ltac:(lia) (fun i I => F i ltac:(lia))); assert (C := flow_T j ltac:(lia)); assert (P := R0 j ltac:(lia)); assert (X := F j ltac:(lia)).
assert (0 <= r j * - flow r te ti N th j) by (apply Rmult_le_pos; lra); lra.
Qed.

Lemma range_low k : (k < N)%nat -> Rmin te ti <= th k.
Proof.
intro K; assert (E : th k = T (S k)).
{ unfold T; simpl (S k =? 0)%nat; replace (S k =? S N)%nat with false by (symmetry; apply Nat.eqb_neq; lia); cbv iota; f_equal; lia. }
assert (E0 : T 0 = te) by reflexivity.
assert (E1 : T (S N) = ti) by (unfold T; simpl; rewrite Nat.eqb_refl; reflexivity).
rewrite E; destruct (Rle_or_lt 0 (flow r te ti N th (S k))) as [F|F].
- assert (X := T_down (S k) (S N) ltac:(lia) ltac:(lia) F); rewrite E1 in X; assert (Y := Rmin_r te ti); lra.
- assert (X := T_up (S k) ltac:(lia)); rewrite E0 in X; assert (Y := Rmin_l te ti).
  assert (te <= T (S k)); [apply X|lra]; intros i I; assert (Z := flow_le i (S k) ltac:(lia) ltac:(lia)); lra.
Qed.
End Range.

Lemma flow_opp r te ti N th i : flow r (- te) (- ti) N (fun k => - th k) i = - flow r te ti N th i.
Proof. unfold flow; destruct (i =? 0)%nat, (i =? N)%nat; unfold Rdiv; ring. Qed.

Lemma half_nonneg ia i : (forall x, In x ia -> 0 <= x) -> 0 <= at_ (half_each ia) i.
Proof.
intro H; unfold at_; destruct (Nat.lt_ge_cases i (length (half_each ia))) as [L|L]; [|rewrite nth_overflow by exact L; lra].
assert (I := nth_In (half_each ia) 0 L); unfold half_each in I at 2; apply in_flat_map in I; destruct I as [x [X I]].
assert (P := H x X); destruct I as [<-|[<-|[]]]; lra.
Qed.
Lemma half_zero ia i : (forall x, In x ia -> x = 0) -> at_ (half_each ia) i = 0.
Proof.
intro H; unfold at_; destruct (Nat.lt_ge_cases i (length (half_each ia))) as [L|L]; [|rewrite nth_overflow by exact L; lra].
assert (I := nth_In (half_each ia) 0 L); unfold half_each in I at 2; apply in_flat_map in I; destruct I as [x [X I]].
assert (P := H x X); destruct I as [<-|[<-|[]]]; lra.
Qed.

Lemma theta_low reg ia theta te ti n : (0 < n)%nat -> length reg = (2 * n + 1)%nat -> length theta = (2 * n)%nat -> positive reg ->
  (forall i, (i < length theta)%nat -> heat_flow reg (half_each ia) theta te ti i = 0) ->
  (forall x, In x ia -> 0 <= x) -> forall x, In x theta -> Rmin te ti <= x.
Proof.
intros N0 LR LT RP root Q x X; destruct (In_nth theta x 0 X) as [k [K E]]; rewrite <- E.
assert (P : forall k, (k <= 2 * n)%nat -> 0 < at_ reg k) by (intros; apply positive_at; [exact RP|lia]).
apply (range_low (at_ reg) te ti (2 * n) (at_ theta)); [lia|exact P| |lia].
intros i I; assert (Y := root i ltac:(lia)); rewrite heat_flow_flow in Y; rewrite ?LT in *; try lia; [|intros; apply P; lia].
assert (Z := half_nonneg ia i Q); lra.
Qed.

Lemma theta_high reg ia theta te ti n : (0 < n)%nat -> length reg = (2 * n + 1)%nat -> length theta = (2 * n)%nat -> positive reg ->
  (forall i, (i < length theta)%nat -> heat_flow reg (half_each ia) theta te ti i = 0) ->
  (forall x, In x ia -> x = 0) -> forall x, In x theta -> x <= Rmax te ti.
Proof.
intros N0 LR LT RP root Q x X; destruct (In_nth theta x 0 X) as [k [K E]]; rewrite <- E.
assert (P : forall k, (k <= 2 * n)%nat -> 0 < at_ reg k) by (intros; apply positive_at; [exact RP|lia]).
assert (B : Rmin (- te) (- ti) <= - at_ theta k).
{ apply (range_low (at_ reg) (- te) (- ti) (2 * n) (fun k => - at_ theta k)); [lia|exact P| |lia].
  intros i I; rewrite !flow_opp; assert (Y := root i ltac:(lia)); rewrite heat_flow_flow in Y; rewrite ?LT in *; try lia; [|intros; apply P; lia].
  assert (Z := half_zero ia i Q); lra. }
unfold at_ in B; assert (M := Rmax_l te ti); assert (M' := Rmax_r te ti).
unfold Rmin in B; destruct (Rle_dec (- te) (- ti)); lra.
Qed.
