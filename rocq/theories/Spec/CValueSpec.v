(* Vocabulary for airtightness by structure. *)
From mathcomp Require Import all_ssreflect.
From Verif Require Import Model.CValue.

(* concrete and frame structures *)
Definition concrete (s : structure) : bool := match s with RC | SRC => true | WOODEN | STEEL => false end.
(* s leaks no more than s' *)
Definition tighter (s s' : structure) : bool := concrete s || ~~ concrete s'.
