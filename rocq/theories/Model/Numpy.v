(* The numpy operations used by core/sequence.py, core/next_condition.py, core/pre_calc_parameters.py,
   on matrices with entries in a real field. Floats are modelled as exact numbers. *)
From mathcomp Require Import all_ssreflect ssralg ssrnum zmodp matrix.
Set Implicit Arguments. Unset Strict Implicit. Unset Printing Implicit Defensive.
Import Order.TTheory GRing.Theory Num.Theory.
Local Open Scope ring_scope.

Section Numpy.
Variable F : realFieldType.

(* A * B on arrays of the same shape (elementwise product) *)
Definition emul m n (A B : 'M[F]_(m, n)) : 'M[F]_(m, n) := \matrix_(i, j) (A i j * B i j).

(* A / B on arrays of the same shape. numpy yields inf/nan for a zero divisor where mathcomp's
   division yields 0: theorems that depend on a division carry a non-zero hypothesis. *)
Definition ediv m n (A B : 'M[F]_(m, n)) : 'M[F]_(m, n) := \matrix_(i, j) (A i j / B i j).

(* [m,1] * [m,n]: broadcasting of a column vector over the columns *)
Definition cmul m n (v : 'cV[F]_m) (A : 'M[F]_(m, n)) : 'M[F]_(m, n) := \matrix_(i, j) (v i 0 * A i j).

(* [m,n] / [m,1] *)
Definition cdiv m n (A : 'M[F]_(m, n)) (v : 'cV[F]_m) : 'M[F]_(m, n) := \matrix_(i, j) (A i j / v i 0).

(* [m,n] * v.T with v of shape [n,1]: broadcasting of a row vector over the rows *)
Definition rmul m n (A : 'M[F]_(m, n)) (v : 'cV[F]_n) : 'M[F]_(m, n) := \matrix_(i, j) (A i j * v j 0).

(* np.diag(v.flatten()), and core/matrix_method.py 4-6 v_diag *)
Definition vdiag m (v : 'cV[F]_m) : 'M[F]_m := \matrix_(i, j) (if i == j then v i 0 else 0).

(* scalar broadcasts *)
Definition sadd m n (s : F) (A : 'M[F]_(m, n)) : 'M[F]_(m, n) := \matrix_(i, j) (s + A i j).
Definition smul m n (s : F) (A : 'M[F]_(m, n)) : 'M[F]_(m, n) := \matrix_(i, j) (s * A i j).
Definition ssub m n (s : F) (A : 'M[F]_(m, n)) : 'M[F]_(m, n) := \matrix_(i, j) (s - A i j).

(* np.sum(A, axis=1, keepdims=True) *)
Definition rowsum m n (A : 'M[F]_(m, n)) : 'cV[F]_m := \matrix_(i, j) \sum_k A i k.

(* np.dot *)
Definition dot m n p (A : 'M[F]_(m, n)) (B : 'M[F]_(n, p)) : 'M[F]_(m, p) := A *m B.

(* np.linalg.inv: raises LinAlgError (None) on a singular matrix *)
Definition inv n (A : 'M[F]_n) : option 'M[F]_n := if A \in unitmx then Some (invmx A) else None.

(* np.where(mask, a, b) on column vectors *)
Definition vwhere m (c : 'I_m -> bool) (a b : 'cV[F]_m) : 'cV[F]_m :=
  \matrix_(i, j) (if c i then a i 0 else b i 0).

(* integer (0/1) arrays used as numbers *)
Definition ind m (c : 'I_m -> bool) : 'cV[F]_m := \matrix_(i, j) (c i)%:R.

End Numpy.
