(* Python basics used by several models: results with exceptions, range, list/array indexing. *)
From Coq Require Import ZArith List Lia Bool.
Import ListNotations.
Open Scope Z_scope.

(* the exceptions that the modelled code can end with *)
Inductive exn :=
| ValueError | KeyError | IndexError | ZeroDivisionError | TypeError | NameError | AttributeError
| LinAlgError | OtherError.

Inductive res (A : Type) := Ok (a : A) | Err (e : exn).
Arguments Ok {A} a.
Arguments Err {A} e.

Definition bind {A B} (r : res A) (f : A -> res B) : res B :=
  match r with Ok a => f a | Err e => Err e end.
Declare Scope res_scope.
Delimit Scope res_scope with res.
Notation "'let!' x := a 'in' b" := (bind a (fun x => b)) (at level 200, x pattern, a at level 100, b at level 200) : res_scope.

(* a step that may fail without saying how *)
Definition of_option {A} (e : exn) (o : option A) : res A :=
  match o with Some a => Ok a | None => Err e end.

(* for x in xs: acc = f(acc, x) *)
Fixpoint foldM {A B} (f : A -> B -> res A) (xs : list B) (a : A) : res A :=
  match xs with nil => Ok a | x :: r => bind (f a x) (foldM f r) end.

Fixpoint mapM {A B} (f : A -> res B) (xs : list A) : res (list B) :=
  match xs with
  | nil => Ok nil
  | x :: r => bind (f x) (fun y => bind (mapM f r) (fun ys => Ok (y :: ys)))
  end.

(* range(a, b) *)
Definition range (a b : Z) : list Z := map (fun k => a + Z.of_nat k) (seq 0 (Z.to_nat (b - a))).

(* the position a Python or numpy index refers to: negative indices count from the end *)
Definition py_index (len n : Z) : res nat :=
  if (0 <=? n) && (n <? len) then Ok (Z.to_nat n)
  else if (- len <=? n) && (n <? 0) then Ok (Z.to_nat (n + len))
  else Err IndexError.

(* l[n] *)
Definition py_get {A} (l : list A) (n : Z) : res A :=
  bind (py_index (Z.of_nat (length l)) n) (fun k => of_option IndexError (nth_error l k)).

Fixpoint set_nth {A} (l : list A) (k : nat) (a : A) : list A :=
  match l, k with
  | nil, _ => nil
  | _ :: r, O => a :: r
  | x :: r, S k => x :: set_nth r k a
  end.

(* l[n] = a *)
Definition py_set {A} (l : list A) (n : Z) (a : A) : res (list A) :=
  bind (py_index (Z.of_nat (length l)) n) (fun k => Ok (set_nth l k a)).
