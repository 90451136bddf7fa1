(* The resistances of a glazing from outside to inside, as JIS R3107 and JIS A2103 state them. *)
From Coq Require Import Reals List.
From Verif Require Import Model.GlassBalance Spec.GlassHeat.
Import ListNotations.
Local Open Scope R_scope.

Definition panes (g : glass) : list glass_layer := g_first g :: map snd (g_more g).
Definition gaps (g : glass) : list air_layer := map fst (g_more g).

Definition stefan_boltzmann : R := 567 / 100 / 10 ^ 8.

(* radiation between two grey planes at the mean absolute temperature t *)
Definition radiant_gap (t ef eb : R) : R := 4 * stefan_boltzmann * t ^ 3 / (1 / ef + 1 / eb - 1).

(* the law of convection by the position of the glazing *)
Definition nusselt (d : glass_direction) (ra : R) : R :=
  match d with
  | VERTICAL => 35 / 1000 * Rpower ra (38 / 100)
  | HORIZONTAL => 16 / 100 * Rpower ra (28 / 100)
  | SLOPE => 10 / 100 * Rpower ra (31 / 100)
  end.

(* Grashof times Prandtl number: g s^3 dT rho^2 c / (T mu lambda) *)
Definition rayleigh (l : air_layer) (delta t : R) : R :=
  let th := t - 27315 / 100 in let m := al_air l in
  981 / 100 * al_s l ^ 3 * Rabs delta * mixed m (gas_rho th) ^ 2 * mixed m gas_c / (t * mixed m (gas_mu th) * mixed m (gas_lambda th)).

(* heat through the gas: at rest without a temperature difference *)
Definition at_rest (l : air_layer) (t : R) : R := mixed (al_air l) (gas_lambda (t - 27315 / 100)) / al_s l.
Definition gas_gap (l : air_layer) (delta t h : R) : Prop :=
  (delta = 0 -> h = at_rest l t) /\
  (delta <> 0 -> h = Rmax 1 (nusselt (al_direction l) (rayleigh l delta t)) * at_rest l t).

(* the resistances lie in the order surface, pane, gap, pane, ..., gap, pane, surface; t k and delta k are the mean
   temperature and the temperature difference of gap k *)
Definition resistances (g : glass) (he hi : R) (t delta : nat -> R) (reg : list R) : Prop :=
  length reg = (2 * length (panes g) + 1)%nat /\
  hd 0 reg = 1 / he /\ last reg 0 = 1 / hi /\
  (forall k p, nth_error (panes g) k = Some p -> nth_error reg (2 * k + 1) = Some (pane_resistance p)) /\
  (forall k p p' al, nth_error (panes g) k = Some p -> nth_error (panes g) (S k) = Some p' -> nth_error (gaps g) k = Some al ->
     exists ef eb h, has_eps (gl_sfb p) ef /\ has_eps (gl_sff p') eb /\ gas_gap al (delta k) (t k) h /\
     nth_error reg (2 * k + 2) = Some (1 / (radiant_gap (t k) ef eb + h))).

(* radiation between a surface and its surroundings, both in degrees Celsius, is e sigma (Ts^4 - Tr^4) / (Ts - Tr) *)
Definition radiant_surface (e theta_s theta_r : R) : R :=
  let ts := theta_s + 27315 / 100 in let tr := theta_r + 27315 / 100 in
  e * stefan_boltzmann * ((ts + tr) * (ts ^ 2 + tr ^ 2)).

Definition outside (m : surface_method) (e theta_s theta_r : R) : R :=
  match m with
  | JIS_R3107 => 49 / 10 * e + 163 / 10
  | JIS_A2103 SUMMER => radiant_surface e theta_s theta_r + 8
  | JIS_A2103 WINTER => radiant_surface e theta_s theta_r + 20
  end.
Definition inside (m : surface_method) (e theta_s theta_r : R) : R :=
  match m with
  | JIS_R3107 => 54 / 10 * e + 41 / 10
  | JIS_A2103 SUMMER => radiant_surface e theta_s theta_r + 25 / 10
  | JIS_A2103 WINTER => radiant_surface e theta_s theta_r + 36 / 10
  end.

(* mean absolute temperature and temperature difference of gap k, between surfaces 2 k + 1 and 2 k + 2 *)
Definition mean_of (theta : list R) (k : nat) : R := (nth (2 * k + 1) theta 0 + nth (2 * k + 2) theta 0) / 2 + 27315 / 100.
Definition drop_of (theta : list R) (k : nat) : R := nth (2 * k + 1) theta 0 - nth (2 * k + 2) theta 0.
