(* Radiation on a surface with outward unit normal n, for one row of weather data. *)
From Coq Require Import Reals.
From Verif Require Import Model.BoundaryDict Model.SolarShading Spec.Sky.
Local Open Scope R_scope.

Definition sun_of (w : wstep) : vec := Sky.direction (h_sun w) (azimuth (a_sun w)).

(* the sun stands between nadir and zenith; its azimuth is known or does not matter *)
Definition sun_known (w : wstep) : Prop := - (PI / 2) <= h_sun w <= PI / 2 /\ (a_sun w <> None \/ cos (h_sun w) = 0).

Definition direct (w : wstep) (n : vec) : R := i_dn w * Rmax 0 (dot (sun_of w) n).

Definition sky (w : wstep) (n : vec) : R := (1 + up n) / 2 * i_sky w.

Definition horizontal (w : wstep) : R := i_dn w * Rmax 0 (up (sun_of w)) + i_sky w.

(* the ground reflects a tenth *)
Definition reflected (w : wstep) (n : vec) : R := (1 - up n) / 2 * (1 / 10 * horizontal w).

Definition total (w : wstep) (n : vec) : R := direct w n + sky w n + reflected w n.

(* night radiation lost to the part of the sky the surface sees *)
Definition night (w : wstep) (n : vec) : R := (1 + up n) / 2 * r_n w.

(* the same row with other direct and sky radiation *)
Definition with_radiation (w : wstep) (dn sk : R) : wstep :=
  {| theta_o := theta_o w; i_dn := dn; i_sky := sk; r_n := r_n w; h_sun := h_sun w; a_sun := a_sun w |}.

(* an overhang with a depth that is not negative, not below the upper edge of a window that has a height *)
Definition sound_shading (s : shading) : Prop :=
  match s with Simple _ z dh de => 0 <= z /\ 0 < dh /\ 0 <= de | _ => True end.
