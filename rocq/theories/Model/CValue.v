(* heat_load_calc/initializer/estimate_c_value.py *)
From Coq Require Import ZArith String.
From mathcomp Require Import all_ssreflect ssralg ssrnum.
From Verif Require Import Model.Py Model.Dec.
Set Implicit Arguments. Unset Strict Implicit. Unset Printing Implicit Defensive.
Import GRing.Theory Num.Theory.
Local Open Scope ring_scope.

(* 4-12 *)
Inductive structure := RC | SRC | WOODEN | STEEL.

(* Structure(value) 9-12: ValueError for an unknown value *)
Definition structure_of (s : string) : res structure :=
  if (s =? "rc")%string then Ok RC else if (s =? "src")%string then Ok SRC
  else if (s =? "wooden")%string then Ok WOODEN else if (s =? "steel")%string then Ok STEEL else Err ValueError.

(* 24-29 *)
Definition c_factor (F : realFieldType) (s : structure) : F := match s with RC | SRC => dec F 416 2 | WOODEN | STEEL => dec F 828 2 end.

(* 15-31 *)
Definition estimate_c_value (F : realFieldType) (ua : F) (s : structure) : F := c_factor F s * ua.
