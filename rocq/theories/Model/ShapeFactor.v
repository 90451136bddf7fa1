(* heat_load_calc/core/shape_factor.py. Numbers are Coq reals. scipy's fsolve (82) is a parameter: f_ver takes
   the area ratios of a room and returns the solution. A division by f_ver = 0 gives inf or nan in numpy; the
   theorems only speak of f_ver <> 0. *)
From Coq Require Import Reals List.
Import ListNotations.
Local Open Scope R_scope.

Definition sumR (l : list R) : R := fold_right Rplus 0 l.

(* np.sign *)
Definition sign (x : R) : R := if Rlt_dec 0 x then 1 else if Rlt_dec x 0 then -1 else 0.

(* 85-95 _get_f_j *)
Definition f_j (f_ver r : R) : R := / 2 * (1 - sign (1 - 4 * r / f_ver) * sqrt (Rabs (1 - 4 * r / f_ver))).

(* 79-80: the function given to fsolve *)
Definition residual (rs : list R) (f_ver : R) : R := sumR (map (f_j f_ver) rs) - 1.

(* 56 *)
Definition ratios (a : list R) : list R := map (fun x => x / sumR a) a.

Section ShapeFactor.
Variable f_ver : list R -> R.

(* 45-67 _get_f_i_js; the print of 64-65 is left out *)
Definition f_i_js (a : list R) : list R := map (f_j (f_ver (ratios a))) (ratios a).

(* 29: a_srf_js.flatten()[p_js_is[:, i] == 1]; room j = i stands for p_js_is[j, i] == 1
   (pre_calc_parameters.py sets exactly one 1 per row) *)
Fixpoint select (i : nat) (room : list nat) (a : list R) : list R :=
  match room, a with
  | r :: room', x :: a' => if Nat.eqb r i then x :: select i room' a' else select i room' a'
  | _, _ => []
  end.

(* global_number.py get_eps, get_sgm *)
Definition eps : R := 9 / 10.
Definition sgm : R := 567 / 10000000000.

(* 31, 33 *)
Definition t_mrt : R := 27315 / 100 + 20.
Definition h_r (f : R) : R := eps / (1 - eps * f) * 4 * sgm * t_mrt ^ 3.

(* 8-35 get_h_r_js *)
Definition f_js (n_spaces : nat) (room : list nat) (a : list R) : list R :=
  concat (map (fun i => f_i_js (select i room a)) (seq 0 n_spaces)).
Definition h_r_js (n_spaces : nat) (room : list nat) (a : list R) : list R := map h_r (f_js n_spaces room a).
End ShapeFactor.
