(* heat_load_calc/core/infiltration.py 6-52 make_get_infiltration_function, 55-120
   _get_infiltration_residential. Numbers are exact and sqrt is the exact square root. *)
From Coq Require Import ZArith String.
From mathcomp Require Import all_ssreflect ssralg ssrnum zmodp matrix.
From Verif Require Import Model.Numpy Model.Tick Model.Dec Model.Py.
Set Implicit Arguments. Unset Strict Implicit. Unset Printing Implicit Defensive.
Import Order.TTheory GRing.Theory Num.Theory.
Local Open Scope ring_scope.

Section Infiltration.
Variable F : rcfType.
Variable ni : nat.

(* 88-93: {1: 0.022, 2: 0.020}[story] *)
Definition coef_a (story : Z) : res F :=
  match story with
  | 1%Z => Ok (dec F 22 3)
  | 2%Z => Ok (dec F 20 3)
  | _ => Err KeyError
  end.

(* 97-110: every inner dictionary is looked up before the outer one *)
Definition coef_b (story : Z) (inside_pressure : string) : res F :=
  let at_story (b1 b2 : F) : res F :=
    match story with 1%Z => Ok b1 | 2%Z => Ok b2 | _ => Err KeyError end in
  bind (at_story 0 0) (fun balanced =>
  bind (at_story (dec F 26 2) (dec F 14 2)) (fun positive =>
  bind (at_story (dec F 28 2) (dec F 13 2)) (fun negative =>
  if (inside_pressure =? "balanced")%string then Ok balanced
  else if (inside_pressure =? "positive")%string then Ok positive
  else if (inside_pressure =? "negative")%string then Ok negative
  else Err KeyError))).

(* 55-120 *)
Definition infiltration_residential (c_value : F) (v_room : 'cV[F]_ni) (story : Z) (inside_pressure : string)
    (theta_r : 'cV[F]_ni) (theta_o : F) : res 'cV[F]_ni :=
  let total := \sum_i v_room i 0 in
  if total == 0 then Err ZeroDivisionError else                       (* 82: np.average with zero weights *)
  let average := (\sum_i theta_r i 0 * v_room i 0) / total in         (* 82 *)
  let delta_theta := `|average - theta_o| in                          (* 85 *)
  bind (coef_a story) (fun a =>
  bind (coef_b story inside_pressure) (fun b =>
  let rate := Num.max (a * (c_value * Num.sqrt delta_theta) - b) 0 in (* 115 *)
  Ok (\matrix_(i, _) (rate * v_room i 0 / 3600%:R)))).                (* 118 *)

(* 6-52: the function of a house; 'balance_residential' is the only method. *)
Definition make_get_infiltration (method : string) (c_value : F) (v_room : 'cV[F]_ni) (story : Z)
    (inside_pressure : string) : res ('cV[F]_ni -> F -> res 'cV[F]_ni) :=
  if (method =? "balance_residential")%string
  then Ok (infiltration_residential c_value v_room story inside_pressure)
  else Err OtherError.
End Infiltration.
