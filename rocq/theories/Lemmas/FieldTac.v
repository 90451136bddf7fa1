(* Proof support only: makes the standard library's [field]/[ring] tactics usable for
   mathcomp's realFieldType. In a section with [F : realFieldType] do
     Add Field Ffield : (ffield_theory F).
     Ltac fring := ffold F; ring.   Ltac ffield := ffold F; field. *)
From mathcomp Require Import all_ssreflect ssralg ssrnum zmodp matrix.
From Coq Require Import Ring Field.
Set Implicit Arguments. Unset Strict Implicit. Unset Printing Implicit Defensive.
Import Order.TTheory GRing.Theory Num.Theory.
Local Open Scope ring_scope.

Definition fadd (F : realFieldType) (x y : F) : F := x + y.
Definition fmul (F : realFieldType) (x y : F) : F := x * y.
Definition fopp (F : realFieldType) (x : F) : F := - x.
Definition fsub (F : realFieldType) (x y : F) : F := x - y.
Definition finv (F : realFieldType) (x : F) : F := x^-1.
Definition fdiv (F : realFieldType) (x y : F) : F := x / y.
Definition fzero (F : realFieldType) : F := 0.
Definition fone (F : realFieldType) : F := 1.
Arguments fzero {F}. Arguments fone {F}.

Lemma ffield_theory (F : realFieldType) :
  @field_theory F fzero fone (@fadd F) (@fmul F) (@fsub F) (@fopp F) (@fdiv F) (@finv F) eq.
Proof.
constructor; last by move=> x /eqP; exact: mulVf.
constructor; rewrite /fzero /fone /fadd /fmul /fopp /fsub /=; intros; rewrite ?add0r ?addrA ?mul1r ?mulrA ?mulrDl ?subrr //; try exact: addrC; exact: mulrC.
by apply/eqP; exact: oner_neq0.
by [].
Qed.

Ltac ffold F :=
  match goal with |- @eq _ ?x ?y => refine (@id (@eq (Num.RealField.sort F) x y) _) end;
  rewrite ?mulrS ?mulr0n;
  repeat (let a := fresh "atm" in set a : Num.RealField.sort F := (BigOp.bigop _ _ _));
  repeat (let a := fresh "atm" in set a : Num.RealField.sort F := (fun_of_matrix _ _ _));
  repeat match goal with
  | |- context [@GRing.add ?V ?x ?y] => change (@GRing.add V x y) with (@fadd F x y)
  | |- context [@GRing.mul ?V ?x ?y] => change (@GRing.mul V x y) with (@fmul F x y)
  | |- context [@GRing.opp ?V ?x] => change (@GRing.opp V x) with (@fopp F x)
  | |- context [@GRing.inv ?V ?x] => change (@GRing.inv V x) with (@finv F x)
  | |- context [@GRing.zero ?V] => change (@GRing.zero V) with (@fzero F)
  | |- context [@GRing.one ?V] => change (@GRing.one V) with (@fone F)
  end.

