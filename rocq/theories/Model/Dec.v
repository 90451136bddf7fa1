(* Decimal literals of the Python source in a real field: dec z k = z * 10^-k.
   z is a binary integer, so long literals stay small. *)
From mathcomp Require Import all_ssreflect ssralg ssrnum.
From Coq Require Import BinPos ZArith.
Set Implicit Arguments. Unset Strict Implicit. Unset Printing Implicit Defensive.
Import Order.TTheory GRing.Theory Num.Theory.
Local Open Scope ring_scope.

Section Dec.
Variable F : realFieldType.

Fixpoint p2f (p : positive) : F :=
  match p with
  | xH => 1
  | xO p => 2%:R * p2f p
  | xI p => 1 + 2%:R * p2f p
  end.

Definition z2f (z : Z) : F :=
  match z with Z0 => 0 | Zpos p => p2f p | Zneg p => - p2f p end.

Definition dec (z : Z) (k : nat) : F := z2f z / 10%:R ^+ k.

End Dec.
Arguments z2f F z%Z.
Arguments dec F z%Z k%nat.
