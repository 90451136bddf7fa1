(* The comfort index as ISO 7730:2005, 4.1 and 5, defines it. *)
From Coq Require Import Reals.
Local Open Scope R_scope.

(* equation (4): clothing area factor from the insulation in m2K/W *)
Definition iso_f_cl (i_cl : R) : R := if Rle_dec i_cl (78 / 1000) then 1 + 129 / 100 * i_cl else 105 / 100 + 645 / 1000 * i_cl.

(* equation (3): convective heat transfer coefficient; the fourth root is written as a root of a root *)
Definition iso_h_c (t_cl t_a v : R) : R :=
  let free := 238 / 100 * sqrt (sqrt (Rabs (t_cl - t_a))) in
  let forced := 121 / 10 * sqrt v in
  if Rlt_dec forced free then free else forced.

(* radiation and convection from the clothing, W/m2 *)
Definition iso_dry (f_cl h_c t_cl t_a t_r : R) : R :=
  396 / 10000000000 * f_cl * ((t_cl + 273) ^ 4 - (t_r + 273) ^ 4) + f_cl * h_c * (t_cl - t_a).

(* equation (2) *)
Definition iso_clothing (m w i_cl v t_a t_r t_cl : R) : Prop :=
  t_cl = 357 / 10 - 28 / 1000 * (m - w) - i_cl * iso_dry (iso_f_cl i_cl) (iso_h_c t_cl t_a v) t_cl t_a t_r.

(* equation (1), for a clothing temperature; p_a in Pa. Below 58.15 W/m2 the standard's term for sweat, which would be negative, is left out. *)
Definition iso_pmv (m w i_cl v t_a t_r p_a t_cl : R) : R :=
  (303 / 1000 * exp (- (36 / 1000) * m) + 28 / 1000) *
  ((m - w) - 305 / 100000 * (5733 - 699 / 100 * (m - w) - p_a)
   - (if Rle_dec (m - w) (5815 / 100) then 0 else 42 / 100 * ((m - w) - 5815 / 100))
   - 17 / 1000000 * m * (5867 - p_a) - 14 / 10000 * m * (34 - t_a)
   - iso_dry (iso_f_cl i_cl) (iso_h_c t_cl t_a v) t_cl t_a t_r).

(* equation (5) *)
Definition iso_ppd (pmv : R) : R := 100 - 95 * exp (- 3353 / 100000 * pmv ^ 4 - 2179 / 10000 * pmv ^ 2).
