From Coq Require Import ZArith List Lia.
From Verif Require Import Model.Py.
Import ListNotations.

Lemma bind_ok A B (a : res A) (f : A -> res B) b : bind a f = Ok b -> exists x, a = Ok x /\ f x = Ok b.
Proof. destruct a as [x|]; simpl; [eauto|discriminate]. Qed.

Lemma mapM_ok A B (f : A -> res B) l r : mapM f l = Ok r ->
  length r = length l /\ forall i x, nth_error l i = Some x -> exists y, f x = Ok y /\ nth_error r i = Some y.
Proof.
revert r; induction l as [|a l IH]; simpl; intros r H.
- injection H as <-; split; [reflexivity|intros [|i] x; discriminate].
- apply bind_ok in H; destruct H as [y [Ey H]]; apply bind_ok in H; destruct H as [ys [Eys H]].
  injection H as <-; destruct (IH ys Eys) as [L N]; split; [simpl; lia|].
  intros [|i] x; simpl; [intros [= ->]; eauto|apply N].
Qed.

Lemma mapM_total A B (f : A -> res B) l : (forall x, In x l -> exists y, f x = Ok y) -> exists r, mapM f l = Ok r.
Proof.
induction l as [|a l IH]; simpl; intro H; [eauto|].
destruct (H a) as [y ->]; [auto|]; destruct IH as [ys ->]; [auto|]; simpl; eauto.
Qed.

Lemma mapM_err A B (f : A -> res B) l e : mapM f l = Err e -> exists x, In x l /\ f x = Err e.
Proof.
induction l as [|a l IH]; simpl; [discriminate|].
destruct (f a) as [y|e'] eqn:E; simpl; [|intros [= <-]; eauto].
destruct (mapM f l) as [ys|e'] eqn:E2; simpl; [discriminate|].
intros [= <-]; destruct IH as [x [I X]]; [reflexivity|]; eauto.
Qed.

Lemma nth_error_combine A B (a : list A) (b : list B) k x y :
  nth_error a k = Some x -> nth_error b k = Some y -> nth_error (combine a b) k = Some (x, y).
Proof.
revert a b; induction k as [|k IH]; intros [|a0 a] [|b0 b]; simpl; try discriminate.
- intros [= ->] [= ->]; reflexivity.
- apply IH.
Qed.
