(* notebook/initializer/shgc_window/multiple_reflection.py: sunlight in a stack of panes (JIS A2103) *)
From Coq Require Import Reals ZArith List Bool.
From Verif Require Import Model.Py Model.EesHouse.
Import ListNotations.
Local Open Scope R_scope.

(* SolarSpecSingleLayer 18-44 and SolarSpecMultiLayer 47-69: the same four numbers, f for light from the front
   (outside), b for light from the back.  One record serves for both classes. *)
Record pane := { tau_f : R; tau_b : R; rho_f : R; rho_b : R }.

(* SolarSpecSingleLayer.__init__ 41-44 *)
Definition a_f (p : pane) : R := 1 - tau_f p - rho_f p.
Definition a_b (p : pane) : R := 1 - tau_b p - rho_b p.

(* 110-122, equations (6) to (9): the panes ml with pane s behind them; every quotient may divide by zero *)
Definition add_pane (ml s : pane) : res pane :=
  bind (fdiv (tau_f ml * tau_f s) (1 - rho_b ml * rho_f s)) (fun tf =>
  bind (fdiv (tau_b s * tau_b ml) (1 - rho_b ml * rho_f s)) (fun tb =>
  bind (fdiv (tau_f ml * rho_f s * tau_b ml) (1 - rho_b ml * rho_f s)) (fun qf =>
  bind (fdiv (tau_b s * rho_b ml * tau_f s) (1 - rho_b ml * rho_f s)) (fun qb =>
  Ok {| tau_f := tf; tau_b := tb; rho_f := rho_f ml + qf; rho_b := rho_b s + qb |})))).

(* get_solar_spec_multi_layer 101-122 after the checks: panes i to i + k, recursion over k = j - i.
   The checks of the recursive calls (108) hold when those of the first call do. *)
Fixpoint multi_from (ss : list pane) (i : Z) (k : nat) : res pane :=
  match k with
  | O => py_get ss i
  | S k' => bind (multi_from ss i k') (fun ml => bind (py_get ss (i + Z.of_nat k)%Z) (fun s => add_pane ml s))
  end.

(* get_solar_spec_multi_layer 78-122 *)
Definition get_solar_spec_multi_layer (ss : list pane) (i j : Z) : res pane :=
  if (i <? 0)%Z then Err ValueError
  else if (j <? 0)%Z then Err ValueError
  else if (j <? i)%Z then Err ValueError
  else if (Z.of_nat (length ss) <=? j)%Z then Err ValueError
  else multi_from ss i (Z.to_nat (j - i)).

(* get_abs_multi_layer 124-159 *)
Definition get_abs_multi_layer (ss : list pane) : res (list R) :=
  let n := Z.of_nat (length ss) in
  (* 138 *)
  bind (mapM (fun j => get_solar_spec_multi_layer ss 0 j) (range 0 n)) (fun ml_0_j =>
  (* 141 *)
  bind (mapM (fun j => get_solar_spec_multi_layer ss j (n - 1)) (range 0 n)) (fun ml_j_n =>
  (* 144-149 *)
  bind (mapM (fun j =>
    if (j =? 0)%Z then Ok 1
    else bind (py_get ml_0_j (j - 1)) (fun p => bind (py_get ml_j_n j) (fun q =>
         fdiv (tau_f p) (1 - rho_b p * rho_f q)))) (range 0 n)) (fun sol_f =>
  (* 152-157 *)
  bind (mapM (fun j =>
    if (j =? n - 1)%Z then Ok 0
    else bind (py_get ml_0_j j) (fun p => bind (py_get ml_j_n (j + 1)) (fun q =>
         fdiv (tau_f p * rho_f q) (1 - rho_b p * rho_f q)))) (range 0 n)) (fun sol_b =>
  (* 159 *)
  mapM (fun j =>
    bind (py_get sol_f j) (fun f => bind (py_get ss j) (fun p => bind (py_get sol_b j) (fun b =>
    Ok (f * a_f p + b * a_b p))))) (range 0 n))))).

(* get_total_solar_spec 161-171 *)
Definition get_total_solar_spec (ss : list pane) : res pane :=
  get_solar_spec_multi_layer ss 0 (Z.of_nat (length ss) - 1).
