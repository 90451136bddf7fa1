(* notebook/initializer/shgc_window/glass_thermal_balance.py: heat in a stack of panes (JIS R3107, JIS A2103),
   and the solar heat gain of window.py.  Numbers are real numbers. *)
From Coq Require Import Reals ZArith List Bool.
From Verif Require Import Model.Py Model.EesHouse.
Import ListNotations.
Local Open Scope R_scope.

(* GlassDirection 14-23, AirType 26-35 *)
Inductive glass_direction := VERTICAL | HORIZONTAL | SLOPE.
Inductive air_type := AIR | ARGON | SF6 | KRYPTON.

(* get_interporation_property 39-64 *)
Definition interpolate (temp v1 v2 v3 v4 : R) : R :=
  let t1 := -10 in let t2 := 0 in let t3 := 10 in let t4 := 20 in
  if Rlt_dec temp t2 then v1 * (temp - t2) / (t1 - t2) + v2 * (temp - t1) / (t2 - t1)
  else if Rlt_dec temp t3 then v2 * (temp - t3) / (t2 - t3) + v3 * (temp - t2) / (t3 - t2)
  else v3 * (temp - t4) / (t3 - t4) + v4 * (temp - t3) / (t4 - t3).

(* get_rho 67-86 *)
Definition gas_rho (temp : R) (g : air_type) : R :=
  match g with
  | AIR => interpolate temp (1326 / 1000) (1277 / 1000) (1232 / 1000) (1189 / 1000)
  | ARGON => interpolate temp (1829 / 1000) (1762 / 1000) (1699 / 1000) (1640 / 1000)
  | SF6 => interpolate temp (6844 / 1000) (6602 / 1000) (6360 / 1000) (6118 / 1000)
  | KRYPTON => interpolate temp (3832 / 1000) (3690 / 1000) (3560 / 1000) (3430 / 1000)
  end.

(* get_mu 89-107 *)
Definition gas_mu (temp : R) (g : air_type) : R :=
  match g with
  | AIR => interpolate temp (1661 / 1000) (1711 / 1000) (1761 / 1000) (1811 / 1000)
  | ARGON => interpolate temp (2038 / 1000) (2101 / 1000) (2164 / 1000) (2228 / 1000)
  | SF6 => interpolate temp (1383 / 1000) (1421 / 1000) (1459 / 1000) (1497 / 1000)
  | KRYPTON => interpolate temp (2260 / 1000) (2330 / 1000) (2400 / 1000) (2470 / 1000)
  end * / 10 ^ 5.

(* get_lambda 110-128 *)
Definition gas_lambda (temp : R) (g : air_type) : R :=
  match g with
  | AIR => interpolate temp (2336 / 1000) (2416 / 1000) (2496 / 1000) (2576 / 1000)
  | ARGON => interpolate temp (1584 / 1000) (1634 / 1000) (1684 / 1000) (1734 / 1000)
  | SF6 => interpolate temp (1119 / 1000) (1197 / 1000) (1275 / 1000) (1354 / 1000)
  | KRYPTON => interpolate temp (842 / 1000) (870 / 1000) (900 / 1000) (926 / 1000)
  end * / 10 ^ 2.

(* get_c_air 131-147 *)
Definition gas_c (g : air_type) : R :=
  match g with AIR => 1008 / 1000 | ARGON => 519 / 1000 | SF6 => 614 / 1000 | KRYPTON => 245 / 1000 end * 10 ^ 3.

(* ABSOLUTE_ZERO 153, get_sigma 156-164 *)
Definition absolute_zero : R := 27315 / 100.
Definition sigma : R := 567 / 100 / 10 ^ 8.

(* NonLowESurface 188-207, LowESurface 210-286: the kind of surface with its vertical emissivity *)
Inductive surface := NonLowE | LowE (epsilon_n : R).

(* LowESurface.eps 262-286: the chain of elif, one branch for each pair of neighbours in the table *)
Fixpoint correction (e x1 y1 : R) (table : list (R * R)) : res R :=
  match table with
  | [] => Err ValueError
  | (x2, y2) :: rest =>
      if Rlt_dec e x2 then Ok (y1 * (x2 - e) / (x2 - x1) + y2 * (e - x1) / (x2 - x1)) else correction e x2 y2 rest
  end.

(* 247-257 without the first row *)
Definition correction_table : list (R * R) :=
  [(5 / 100, 118 / 100); (10 / 100, 114 / 100); (20 / 100, 110 / 100); (30 / 100, 106 / 100); (40 / 100, 103 / 100);
   (50 / 100, 100 / 100); (60 / 100, 98 / 100); (70 / 100, 96 / 100); (80 / 100, 95 / 100); (89 / 100, 94 / 100)].

(* eps 197-207 and 236-286 *)
Definition eps (s : surface) : res R :=
  match s with
  | NonLowE => Ok (837 / 1000)
  | LowE e =>
      if Rlt_dec e (3 / 100) then Err ValueError
      else bind (correction e (3 / 100) (122 / 100) correction_table) (fun c => Ok (e * c))
  end.

(* MixedAirProperty 289-374: percentages by volume *)
Record mix := { c_air : R; c_argon : R; c_sf6 : R; c_krypton : R }.

(* __init__ 294-311 *)
Definition make_mix (m : mix) : res mix :=
  if Req_EM_T (c_air m + c_argon m + c_sf6 m + c_krypton m) 100 then Ok m else Err ValueError.

(* get_mixed_property 313-326 *)
Definition mixed (m : mix) (f : air_type -> R) : R :=
  f AIR * c_air m / 100 + f ARGON * c_argon m / 100 + f SF6 * c_sf6 m / 100 + f KRYPTON * c_krypton m / 100.

(* AirLayer 377-397 *)
Record air_layer := { al_air : mix; al_direction : glass_direction; al_s : R }.

(* get_a 399-413 *)
Definition get_a (d : glass_direction) : R :=
  match d with VERTICAL => 35 / 1000 | HORIZONTAL => 16 / 100 | SLOPE => 10 / 100 end.

(* get_n 415-429 *)
Definition get_n (d : glass_direction) : R :=
  match d with VERTICAL => 38 / 100 | HORIZONTAL => 28 / 100 | SLOPE => 31 / 100 end.

(* get_gr 431-447 *)
Definition get_gr (s delta_t t_dash_m rho mu : R) : res R :=
  bind (fdiv (981 / 100 * s ^ 3 * delta_t * rho ^ 2) t_dash_m) (fun x => fdiv x (mu ^ 2)).

(* get_pr 450-466 *)
Definition get_pr (mu c lambda : R) : res R := fdiv (mu * c) lambda.

(* x ** n with 0 < n < 1; a power of a negative number is complex, and max() of 503 refuses it *)
Definition fpow (x n : R) : res R :=
  if Rlt_dec x 0 then Err TypeError else if Req_EM_T x 0 then Ok 0 else Ok (Rpower x n).

(* get_nu 469-486 *)
Definition get_nu (a n gr pr : R) : res R := bind (fpow (gr * pr) n) (fun p => Ok (a * p)).

(* get_cc 489-503 *)
Definition get_cc (nu : R) : R := Rmax 1 nu.

(* get_h_r 555-570 *)
Definition get_h_r (t_m eps_f eps_b : R) : res R :=
  bind (fdiv 1 eps_f) (fun x => bind (fdiv 1 eps_b) (fun y =>
  bind (fdiv (4 * sigma) (x + y - 1)) (fun z => Ok (z * t_m ^ 3)))).

(* get_h_g 572-621 *)
Definition get_h_g (l : air_layer) (delta_t t_dash_m : R) : res R :=
  let theta_dash_m := t_dash_m - absolute_zero in
  let a := get_a (al_direction l) in
  let n := get_n (al_direction l) in
  let rho := mixed (al_air l) (gas_rho theta_dash_m) in
  let mu := mixed (al_air l) (gas_mu theta_dash_m) in
  let c := mixed (al_air l) gas_c in
  let lambda := mixed (al_air l) (gas_lambda theta_dash_m) in
  bind (get_gr (al_s l) (Rabs delta_t) t_dash_m rho mu) (fun gr =>
  bind (get_pr mu c lambda) (fun pr =>
  bind (get_nu a n gr pr) (fun nu =>
  fdiv (get_cc nu * lambda) (al_s l)))).

(* get_h_s 537-552 *)
Definition get_h_s (l : air_layer) (t_m delta_t t_dash_m eps_f eps_b : R) : res R :=
  bind (get_h_r t_m eps_f eps_b) (fun h_r => bind (get_h_g l delta_t t_dash_m) (fun h_g => Ok (h_r + h_g))).

(* get_h_s_with_surfaces_temp 505-535 *)
Definition get_h_s_with_surfaces_temp (l : air_layer) (theta_f theta_b eps_f eps_b : R) : res R :=
  let t_m := (theta_f + theta_b) / 2 + absolute_zero in
  get_h_s l t_m (Rabs (theta_f - theta_b)) t_m eps_f eps_b.

(* GlassUnit 624-658, GlassLayer 661-703 *)
Record glass_unit := { gu_d : R; gu_lmd : R }.
Record glass_layer := { gl_units : list glass_unit; gl_sff : surface; gl_sfb : surface }.

(* GlassUnit.r 651-658; GlassLayer.__init__ 682: computed when the pane is made; here an error shows when it is used *)
Definition layer_res (l : glass_layer) : res R := sumM (fun u => fdiv (gu_d u) (gu_lmd u)) (gl_units l).

(* Glass 706-732: the panes from outside to inside, the first one apart; behind each further pane's gap the pane
   itself.  The number of gaps is therefore the number of panes less one, which __init__ 729-730 checks. *)
Record glass := { g_first : glass_layer; g_more : list (air_layer * glass_layer) }.

(* Glass.__init__ 714-732 *)
Definition make_glass (gls : list glass_layer) (als : list air_layer) : res glass :=
  match gls with
  | [] => Err ValueError
  | g :: rest => if (length rest =? length als)%nat then Ok {| g_first := g; g_more := combine als rest |} else Err ValueError
  end.

(* self._gls[-1] *)
Definition g_last (g : glass) : glass_layer := last (map snd (g_more g)) (g_first g).

(* the two methods of 734-788; season 'summer' or 'winter' *)
Inductive season := SUMMER | WINTER.
Inductive surface_method := JIS_R3107 | JIS_A2103 (s : season).

(* the sum of 754 and 782 *)
Definition radiative (e t_s t_r : R) : R := e * sigma * (t_s ^ 3 + t_s ^ 2 * t_r + t_s * t_r ^ 2 + t_r ^ 3).

(* get_h_e 734-760 *)
Definition get_h_e (g : glass) (m : surface_method) (theta_s theta_r_e : R) : res R :=
  bind (eps (gl_sff (g_first g))) (fun e =>
  match m with
  | JIS_A2103 s =>
      Ok (radiative e (theta_s + absolute_zero) (theta_r_e + absolute_zero) + match s with SUMMER => 8 | WINTER => 20 end)
  | JIS_R3107 => Ok (49 / 10 * e + 163 / 10)
  end).

(* get_h_i 762-788: with JIS_A2103 the emissivity is that of the outside of the outermost pane (782) *)
Definition get_h_i (g : glass) (m : surface_method) (theta_s theta_r_i : R) : res R :=
  match m with
  | JIS_A2103 s =>
      bind (eps (gl_sff (g_first g))) (fun e =>
      Ok (radiative e (theta_s + absolute_zero) (theta_r_i + absolute_zero) + match s with SUMMER => 25 / 10 | WINTER => 36 / 10 end))
  | JIS_R3107 => bind (eps (gl_sfb (g_last g))) (fun e => Ok (54 / 10 * e + 41 / 10))
  end.

(* get_r 862-936 with decision_air_layer_temp = 'fixed' (882-911): outside surface, first pane, then gap and pane in
   turn, inside surface.  The program fills an array by index; the list here is the filled array. *)
Fixpoint r_more (front : glass_layer) (more : list (air_layer * glass_layer)) : res (list R) :=
  match more with
  | [] => Ok []
  | (al, gl) :: rest =>
      bind (eps (gl_sfb front)) (fun ef => bind (eps (gl_sff gl)) (fun eb =>
      bind (get_h_s al 283 15 283 ef eb) (fun h => bind (fdiv 1 h) (fun rg =>
      bind (layer_res gl) (fun rp => bind (r_more gl rest) (fun rs => Ok (rg :: rp :: rs)))))))
  end.

Definition get_r_fixed (g : glass) : res (list R) :=
  bind (get_h_e g JIS_R3107 0 0) (fun he => bind (fdiv 1 he) (fun r0 =>
  bind (layer_res (g_first g)) (fun r1 => bind (r_more (g_first g) (g_more g)) (fun rs =>
  bind (get_h_i g JIS_R3107 0 0) (fun hi => bind (fdiv 1 hi) (fun rn =>
  Ok (r0 :: r1 :: rs ++ [rn]))))))).

(* get_r with any other decision_air_layer_temp (913-934): the gaps and surfaces at the temperatures theta.
   i counts the gaps. *)
Fixpoint r_more_calc (front : glass_layer) (more : list (air_layer * glass_layer)) (theta : list R) (i : nat) : res (list R) :=
  match more with
  | [] => Ok []
  | (al, gl) :: rest =>
      bind (eps (gl_sfb front)) (fun ef => bind (eps (gl_sff gl)) (fun eb =>
      bind (get_h_s_with_surfaces_temp al (nth (2 * i + 1) theta 0) (nth (2 * (i + 1)) theta 0) ef eb) (fun h =>
      bind (fdiv 1 h) (fun rg =>
      bind (layer_res gl) (fun rp => bind (r_more_calc gl rest theta (i + 1)) (fun rs => Ok (rg :: rp :: rs)))))))
  end.

Definition get_r_calc (g : glass) (m : surface_method) (theta_e theta_i : R) (theta : list R) : res (list R) :=
  bind (get_h_e g m (nth 0 theta 0) theta_e) (fun he => bind (fdiv 1 he) (fun r0 =>
  bind (layer_res (g_first g)) (fun r1 => bind (r_more_calc (g_first g) (g_more g) theta 0) (fun rs =>
  bind (get_h_i g m (nth (length theta - 1) theta 0) theta_i) (fun hi => bind (fdiv 1 hi) (fun rn =>
  Ok (r0 :: r1 :: rs ++ [rn]))))))).

(* get_heat_transmittance 790-801 with the resistances of r 981-1002 (default arguments: 'fixed') *)
Definition get_heat_transmittance (g : glass) : res R :=
  bind (get_r_fixed g) (fun r => fdiv 1 (py_sum r)).

(* q_b 860: half of what a pane absorbs at each of its surfaces *)
Definition half_each (ia : list R) : list R := flat_map (fun x => [x / 2; x / 2]) ia.

(* get_heat_flow 938-968, entry i of the result for 2 n surfaces: cb[i] less row i of ca times theta.  The row of a
   tridiagonal matrix is written without its zeros; the quotients are real quotients (r is not 0 in the theorems). *)
Definition at_ (l : list R) (i : nat) : R := nth i l 0.
Definition heat_flow (r q theta : list R) (theta_e theta_i : R) (i : nat) : R :=
  let n2 := length theta in
  let cb := if (i =? 0)%nat then at_ q i + theta_e / at_ r i
            else if (i =? n2 - 1)%nat then at_ q i + theta_i / at_ r (i + 1)
            else at_ q i in
  let left := if (i =? 0)%nat then 0 else - (1 / at_ r i) * at_ theta (i - 1) in
  let right := if (i =? n2 - 1)%nat then 0 else - (1 / at_ r (i + 1)) * at_ theta (i + 1) in
  cb - (left + (1 / at_ r i + 1 / at_ r (i + 1)) * at_ theta i + right).

(* get_r_qin 807-819 *)
Definition get_r_qin (ia reg : list R) : R :=
  py_sum (map (fun j => at_ ia j * ((py_sum (firstn (2 * j + 1) reg) + at_ reg (2 * j + 1) / 2) / py_sum reg)) (seq 0 (length ia))).

(* window.py calc 82-106: absorbed sun of each pane, and the solar heat gain coefficient *)
Definition shgc (tau : R) (abs reg : list R) (i_solar : R) : R :=
  get_r_qin (map (fun a => a * i_solar) abs) reg / i_solar + tau.

(* get_temp_and_r 821-979: the temperatures are a root of the heat flow (970; how scipy finds it is not modelled) at
   which the resistances are taken.  calc is None for decision_air_layer_temp = 'fixed'. *)
Definition balanced (g : glass) (calc : option surface_method) (theta_e theta_i : R) (ia theta reg : list R) : Prop :=
  length theta = (2 * S (length (g_more g)))%nat /\ length ia = S (length (g_more g)) /\
  match calc with
  | None => get_r_fixed g
  | Some m => get_r_calc g m theta_e theta_i theta
  end = Ok reg /\
  forall i, (i < length theta)%nat -> heat_flow reg (half_each ia) theta theta_e theta_i i = 0.
