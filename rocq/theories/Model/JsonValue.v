(* Dictionaries as read from and written to JSON files: dict.__getitem__, and the values kept in them. *)
From Coq Require Import Reals List String.
From Verif Require Import Model.Py.
Import ListNotations.
Local Open Scope R_scope.

Inductive value :=
| VNum (x : R) | VInt (z : BinInt.Z) | VStr (s : string) | VBool (b : bool) | VList (l : list value) | VDict (d : list (string * value)).

(* the entry of a dictionary literal: the last one written under a name counts *)
Fixpoint lookup (k : string) (d : list (string * value)) : option value :=
  match d with
  | [] => None
  | (k', v) :: r => match lookup k r with Some w => Some w | None => if (k' =? k)%string then Some v else None end
  end.

(* v[k]: KeyError for a missing entry, TypeError if v is not a dictionary *)
Definition item (k : string) (v : value) : res value :=
  match v with VDict d => of_option KeyError (lookup k d) | _ => Err TypeError end.

(* Python does not check types when an entry is read; here a wrong type is a TypeError at once *)
Definition as_num (v : value) : res R := match v with VNum x => Ok x | VInt z => Ok (IZR z) | _ => Err TypeError end.
Definition as_str (v : value) : res string := match v with VStr s => Ok s | _ => Err TypeError end.
Definition as_bool (v : value) : res bool := match v with VBool b => Ok b | _ => Err TypeError end.
Definition as_list (v : value) : res (list value) := match v with VList l => Ok l | _ => Err TypeError end.

Definition num_item (k : string) (v : value) : res R := bind (item k v) as_num.
Definition str_item (k : string) (v : value) : res string := bind (item k v) as_str.
Definition bool_item (k : string) (v : value) : res bool := bind (item k v) as_bool.
Definition list_item (k : string) (v : value) : res (list value) := bind (item k v) as_list.
