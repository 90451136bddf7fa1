(* The real functions of numpy used by the solar models. A float array element that may be undefined (numpy: nan) is an
   option: None means nan. Infinite values are not modelled: a division by zero also gives None. *)
From Coq Require Import Reals.
Local Open Scope R_scope.

Definition obind {A B} (o : option A) (f : A -> option B) : option B := match o with Some a => f a | None => None end.

(* math.radians, np.radians *)
Definition radians (x : R) : R := x * (PI / 180).

Definition div (a b : R) : option R := if Req_EM_T b 0 then None else Some (a / b).

(* np.arcsin: nan outside [-1, 1] *)
Definition arcsin (x : R) : option R :=
  if Rle_dec (-1) x then if Rle_dec x 1 then Some (asin x) else None else None.

(* np.arccos: nan outside [-1, 1] *)
Definition arccos (x : R) : option R :=
  if Rle_dec (-1) x then if Rle_dec x 1 then Some (acos x) else None else None.

(* np.arctan2(y, x); the sign of a zero is not modelled *)
Definition arctan2 (y x : R) : R :=
  if Rlt_dec 0 x then atan (y / x)
  else if Rlt_dec x 0 then (if Rle_dec 0 y then atan (y / x) + PI else atan (y / x) - PI)
  else if Rlt_dec 0 y then PI / 2
  else if Rlt_dec y 0 then - (PI / 2)
  else 0.
