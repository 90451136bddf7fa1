(* heat_load_calc/external/iso7730.py. x ** 0.25 is the fourth root, sqrt (sqrt x). *)
From Coq Require Import Reals String.
From Verif Require Import Model.Py Model.EesHouse Model.Psychro.
Local Open Scope R_scope.

(* math.sqrt *)
Definition math_sqrt (x : R) : res R := if Rlt_dec x 0 then Err ValueError else Ok (sqrt x).

(* 56-68 get_h_c *)
Definition get_h_c (t_a t_cl v_ar : R) : res R :=
  bind (math_sqrt v_ar) (fun s => Ok (Rmax (121 / 10 * s) (238 / 100 * sqrt (sqrt (Rabs (t_cl - t_a)))))).

(* 96-107 get_skin_temperature *)
Definition get_skin_temperature (m w : R) : R := 357 / 10 - 28 / 1000 * (m - w).

(* 110-122 get_radiative_heat_loss_from_clothing *)
Definition radiative_loss (f_cl t_cl t_r_bar : R) : R :=
  396 / 10000000000 * f_cl * ((t_cl + 273) ^ 4 - (t_r_bar + 273) ^ 4).

(* 200-213 get_convective_heat_loss_from_clothing *)
Definition convective_loss (f_cl h_c t_a t_cl : R) : R := f_cl * h_c * (t_cl - t_a).

(* 71-93 get_t_cl *)
Definition get_t_cl (f_cl i_cl t_a t_cl v_ar t_r_bar m w : R) : res R :=
  bind (get_h_c t_a t_cl v_ar) (fun h_c =>
  Ok (get_skin_temperature m w - i_cl * (radiative_loss f_cl t_cl t_r_bar + convective_loss f_cl h_c t_a t_cl))).

(* 159-170 get_latent_heat_loss_from_skin *)
Definition latent_skin (m p_a w : R) : R := 305 / 100000 * (5733 - 699 / 100 * (m - w) - p_a).
(* 173-184 get_latent_heat_loss_with_breathing *)
Definition latent_breath (m p_a : R) : R := 17 / 1000000 * m * (5867 - p_a).
(* 187-197 get_sensible_heat_loss_with_breathing *)
Definition sensible_breath (m t_a : R) : R := 14 / 10000 * m * (34 - t_a).
(* 216-227 get_the_sweating_heat_loss *)
Definition sweating (m w : R) : R := Rmax (42 / 100 * (m - w - 5815 / 100)) 0.

(* 292-305 get_ppd *)
Definition get_ppd (pmv : R) : R := 100 - 95 * exp (- (3353 / 100000) * pmv ^ 4 - 2179 / 10000 * pmv ^ 2).

(* 125-156 get_pmv *)
Definition get_pmv (f_cl h_c m p_a t_a t_cl t_r_bar w : R) : R * R :=
  let pmv := (303 / 1000 * exp (- (36 / 1000) * m) + 28 / 1000) *
    (m - w - latent_skin m p_a w - sweating m w - latent_breath m p_a - sensible_breath m t_a
     - radiative_loss f_cl t_cl t_r_bar - convective_loss f_cl h_c t_a t_cl) in
  (pmv, get_ppd pmv).

(* 308-334 saturated_vapor_pressure_SONNTAG *)
Definition sonntag (status : string) (t : R) : res (R * R) :=
  bind (if string_dec status "water" then Ok (a_1, a_2, a_3, a_4, a_5)
        else if string_dec status "ice" then Ok (b_1, b_2, b_3, b_4, b_5) else Err KeyError) (fun c =>
  let '(c1, c2, c3, c4, c5) := c in
  bind (sat c1 c2 c3 c4 c5 t) (fun pvs =>                                                     (* 328-330 *)
  bind (fdiv (- c1) (t ^ 2)) (fun q => bind (fdiv c5 t) (fun r =>
  Ok (pvs, pvs * (q + c3 + 2 * c4 * t + r)))))).                                              (* 332 *)

(* 230-245 get_p_a *)
Definition get_p_a (rh t_a : R) : res R :=
  bind (sonntag "water" (t_a + 27315 / 100)) (fun p => Ok (rh / 100 * fst p)).

(* 248-257 convert_clo_to_m2kw, 260-270 convert_met_to_wm2 *)
Definition convert_clo_to_m2kw (clo : R) : R := clo * (155 / 1000).
Definition convert_met_to_wm2 (met : R) : R := met * (5815 / 100).

(* 273-289 get_f_cl *)
Definition get_f_cl (i_cl : R) : R :=
  if Rle_dec i_cl (78 / 1000) then 1 + 1290 / 1000 * i_cl else 105 / 100 + 645 / 1000 * i_cl.

(* 6-53 get_pmv_ppd. newton stands for scipy.optimize.newton (line 45), which looks for a zero of the function it is
   given; it is a parameter, and theorems say what they assume of it. *)
Definition get_pmv_ppd (newton : (R -> res R) -> res R) (met_value p_eff t_a t_r_bar clo_value v_ar rh : R) : res (R * R) :=
  bind (get_p_a rh t_a) (fun p_a =>
  let i_cl := convert_clo_to_m2kw clo_value in
  let m := convert_met_to_wm2 met_value in
  let w := convert_met_to_wm2 p_eff in
  let f_cl := get_f_cl i_cl in
  bind (newton (fun t => bind (get_t_cl f_cl i_cl t_a t v_ar t_r_bar m w) (fun x => Ok (x - t)))) (fun t_cl =>
  bind (get_h_c t_a t_cl v_ar) (fun h_c =>
  Ok (get_pmv f_cl h_c m p_a t_a t_cl t_r_bar w)))).
