(* C61: the comfort index of the load calculation is that of ISO 7730 *)
From Coq Require Import Reals Lra String.
From mathcomp Require Import all_ssreflect ssralg ssrnum.
From Verif Require Import Model.Py Model.OperationMode Model.RealNumbers Model.OtTarget Model.OtConv Lemmas.OtConvL.
From Verif Require Model.Iso7730.
Delimit Scope R_scope with coqR.
Local Open Scope coqR.

(* For a resting person (1 met, no work) in the same room air the two modules of the package give the same PMV, whatever
   solvers they use for the clothing temperature, as long as these return exact zeros. *)
Theorem C61_same_pmv : forall newton newton' p_a theta_r theta_mrt clo v rh pmv pmv' ppd,
  (forall g t, newton g = Ok t -> - 273 <= t /\ g t = 0) ->
  (forall g t, newton' g = Ok t -> - 273 <= t /\ g t = Ok 0) ->
  - 273 < theta_mrt -> - 27315 / 100 < theta_r -> 0 <= clo -> 0 <= v ->
  Iso7730.get_p_a rh theta_r = Ok p_a ->
  get_h_hum_and_pmv newton p_a theta_r theta_mrt clo v "convergence" = Ok pmv ->
  Iso7730.get_pmv_ppd newton' 1 0 theta_r theta_mrt clo v rh = Ok (pmv', ppd) ->
  pmv = pmv'.
Proof. by move=> n n' p r m c v h y y' q N N' M T C V P Y Y'; exact: (same_pmv n n' N N' p r m c v h y (y', q)). Qed.
Print Assumptions C61_same_pmv.

(* The equation for the clothing temperature has exactly one solution not below -273 degree C, between the lowest and the
   highest of skin, air and mean radiant temperature. *)
Theorem C61_clothing_temperature : forall theta_mrt theta_r clo v, - 273 < theta_mrt -> - 273 <= theta_r -> 0 <= clo ->
  let skin := 357 / 10 - 28 / 1000 * (5815 / 100) in
  exists t, Rmin skin (Rmin theta_r theta_mrt) <= t <= Rmax skin (Rmax theta_r theta_mrt) /\
    clothing_map theta_mrt theta_r clo v t = t /\
    forall t', - 273 <= t' -> clothing_map theta_mrt theta_r clo v t' = t' -> t' = t.
Proof. exact clothing_exists. Qed.
Print Assumptions C61_clothing_temperature.

(* PMV grows strictly with air temperature, mean radiant temperature and vapour pressure. *)
Theorem C61_increasing : forall newton p_a p_a' theta_r theta_r' theta_mrt theta_mrt' clo v pmv pmv',
  (forall g t, newton g = Ok t -> - 273 <= t /\ g t = 0) ->
  - 273 < theta_mrt <= theta_mrt' -> theta_r <= theta_r' -> p_a <= p_a' -> 0 <= clo ->
  theta_r < theta_r' \/ theta_mrt < theta_mrt' \/ p_a < p_a' ->
  get_h_hum_and_pmv newton p_a theta_r theta_mrt clo v "convergence" = Ok pmv ->
  get_h_hum_and_pmv newton p_a' theta_r' theta_mrt' clo v "convergence" = Ok pmv' -> pmv < pmv'.
Proof. by move=> n p p' r r' m m' c v y y' N; exact: conv_mono. Qed.
Print Assumptions C61_increasing.

(* The target operative temperature of the converged calculation gives the target PMV with the coefficients returned with it. *)
Theorem C61_target : forall newton x_r mns rad_heating rad_cooling theta_r theta_mrt ac h_c h_r om target,
  (forall g t, newton g = Ok t -> - 273 <= t /\ g t = 0) -> - 273 < theta_mrt ->
  ot_target_with newton x_r mns rad_heating rad_cooling theta_r theta_mrt ac "convergence" = Ok (h_c, h_r, om, target) ->
  let pmv_at clo := get_pmv (F:=R_realFieldType) exp_m target clo (get_p_v_r (F:=R_realFieldType) x_r) (h_c + h_r) target in
  0 < h_c + h_r /\ (om = HEATING -> pmv_at (clo_heavy _) = - (1 / 2)) /\ (om = COOLING -> pmv_at (clo_light _) = 1 / 2).
Proof. by move=> n x m a b r t d hc hr om g N; exact: conv_target. Qed.
Print Assumptions C61_target.

(* The person stands in moving air when the room is heated or cooled by air (0.2 m/s) or has open windows (0.1 m/s), otherwise
   in still air; their clothing has its equilibrium temperature, and the heat transfer follows ISO 7730. *)
Definition air_speed (om : mode) (rad_heating rad_cooling : bool) : R :=
  match om with
  | HEATING => if rad_heating then 0 else 1 / 5 | COOLING => if rad_cooling then 0 else 1 / 5 | STOP_OPEN => 1 / 10
  | _ => 0
  end.
Theorem C61_transfer : forall newton x_r mns rad_heating rad_cooling theta_r theta_mrt ac h_c h_r om target,
  (forall g t, newton g = Ok t -> - 273 <= t /\ g t = 0) ->
  ot_target_with newton x_r mns rad_heating rad_cooling theta_r theta_mrt ac "convergence" = Ok (h_c, h_r, om, target) ->
  exists t, let v := air_speed om rad_heating rad_cooling in
    clothing_map theta_mrt theta_r (get_clo R_realFieldType om) v t = t /\
    h_c = Rmax (121 / 10 * sqrt v) (238 / 100 * sqrt (sqrt (Rabs (t - theta_r)))) /\
    h_r * (t - theta_mrt) = 396 / 100 / 100000000 * ((t + 273) ^ 4 - (theta_mrt + 273) ^ 4).
Proof. by move=> n x m a b r t d hc hr om g N E; exact: (conv_transfer _ N _ _ _ _ _ _ _ _ _ _ _ E). Qed.
Print Assumptions C61_transfer.

(* Method 'constant' is the calculation used in every time step of core, whatever solver is given; unknown methods are rejected. *)
Theorem C61_constant : forall newton x_r mns rad_heating rad_cooling theta_r theta_mrt ac,
  ot_target_with newton x_r mns rad_heating rad_cooling theta_r theta_mrt ac "constant" =
  match ot_target_pmv (F:=R_realFieldType) exp_m x_r mns theta_r theta_mrt ac with
  | Some (om, t) => Ok (h_hum_c R_realFieldType : R, h_hum_r R_realFieldType : R, om, t)
  | None => Err ValueError
  end.
Proof. exact const_target. Qed.
Print Assumptions C61_constant.

Theorem C61_methods : forall newton x_r mns rad_heating rad_cooling theta_r theta_mrt ac method,
  method <> "convergence"%string -> method <> "constant"%string ->
  ot_target_with newton x_r mns rad_heating rad_cooling theta_r theta_mrt ac method = Err OtherError.
Proof. exact other_target. Qed.
Print Assumptions C61_methods.

(* a solver that finds the clothing temperature at 26 degree C air, 28 degree C surroundings, 0.7 clo and still air *)
Example C61_example : exists newton, (forall g t, newton g = Ok t -> - 273 <= t /\ g t = 0) /\
  forall p_a, exists pmv, get_h_hum_and_pmv newton p_a 26 28 (7 / 10) 0 "convergence" = Ok pmv.
Proof.
have [t [[L _] [E _]]] := C61_clothing_temperature 28 26 (7 / 10) 0 ltac:(lra) ltac:(lra) ltac:(lra).
exists (fun g => if Req_EM_T (g t) 0 then Ok t else Err OtherError); split.
- move=> g u; case: Req_EM_T => // Z [<-]; split=> //.
  by apply: (Rle_trans _ _ _ _ L); repeat apply: Rmin_glb; lra.
- move=> p; rewrite /get_h_hum_and_pmv /get_h_hum /=.
  by destruct (Req_EM_T (clothing_map 28 26 (7 / 10) 0 t - t) 0) as [Z|N]; [eexists|case: N; rewrite E; lra].
Qed.
