(* heat_load_calc/initializer/outside_eqv_temp.py *)
From Coq Require Import Reals List String Bool.
From Verif Require Import Model.Py Model.Trig Model.BoundaryDict Model.Inclined.
Import ListNotations.
Local Open Scope R_scope.

Inductive oet :=
| OInternal
| OOpaque (direction : string) (a_s eps_r r_surf : R)
| ONotSun
| OTransparent (direction : string) (eps_r r_surf_o : R)
| OGround.

(* 19-60 OutsideEqvTemp.create *)
Definition create_oet (b : bdict) : res oet :=
  bind (key (boundary_type b)) (fun t =>
  if (t =? "internal")%string then Ok OInternal
  else if (t =? "external_general_part")%string || (t =? "external_opaque_part")%string then
    bind (key (is_sun_striked_outside b)) (fun sun =>
    if sun then
      bind (key (direction b)) (fun d => bind (key (outside_solar_absorption b)) (fun a =>
      bind (key (outside_emissivity b)) (fun e => bind (key (outside_heat_transfer_resistance b)) (fun r =>
      Ok (OOpaque d a e r)))))
    else Ok ONotSun)
  else if (t =? "external_transparent_part")%string then
    bind (key (is_sun_striked_outside b)) (fun sun =>
    if sun then
      bind (key (direction b)) (fun d => bind (key (outside_emissivity b)) (fun e =>
      bind (key (outside_heat_transfer_resistance b)) (fun r => Ok (OTransparent d e r))))
    else Ok ONotSun)
  else if (t =? "ground")%string then Ok OGround
  else Err KeyError).

Definition sum (l : list R) : R := fold_right Rplus 0 l.

(* 143-191 for one step *)
Definition theta_opaque (d : string) (a_s eps_r r_surf : R) (w : wstep) : res (option R) :=
  bind (get_w_alpha_j_w_beta_j d) (fun ab =>
  let r_n_is := get_r_n_is_j_n (r_n w) (snd ab) in
  let '(i_d, i_sk, i_ref) := get_i_is_j_n (i_dn w) (i_sky w) (h_sun w) (a_sun w) (fst ab) (snd ab) in
  Ok (obind i_d (fun i_d => Some (theta_o w + (a_s * (i_d + i_sk + i_ref) - eps_r * r_n_is) * r_surf)))).

(* 207-237 for one step *)
Definition theta_transparent (d : string) (eps_r r_surf_o : R) (w : wstep) : res (option R) :=
  bind (get_w_alpha_j_w_beta_j d) (fun ab =>
  let r_n_is := get_r_n_is_j_n (r_n w) (snd ab) in
  Ok (Some (theta_o w - eps_r * r_n_is * r_surf_o))).

(* get_theta_o_sol_i_j_ns: 117, 143-191, 207-237, 268, 302. np.average divides by the number of values. *)
Definition get_theta_o_sol (o : oet) (ws : list wstep) : res (list (option R)) :=
  match o with
  | OInternal => Ok (repeat (Some 0) (24 * 365 * 4))
  | OOpaque d a_s eps_r r_surf => mapM (theta_opaque d a_s eps_r r_surf) ws
  | OTransparent d eps_r r_surf_o => mapM (theta_transparent d eps_r r_surf_o) ws
  | ONotSun => Ok (map (fun w => Some (theta_o w)) ws)
  | OGround => Ok (repeat (div (sum (map theta_o ws)) (INR (List.length ws))) (24 * 365 * 4))
  end.
