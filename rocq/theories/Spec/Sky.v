(* Directions seen from a place on the earth: components towards south, west and the zenith. *)
From Coq Require Import Reals List String.
Import ListNotations.
Local Open Scope R_scope.

Record vec := { south : R; west : R; up : R }.

(* the direction with altitude h above the horizon and azimuth a measured from south towards west *)
Definition direction (h a : R) : vec := {| south := cos h * cos a; west := cos h * sin a; up := sin h |}.

(* the direction of the sun with declination delta and hour angle omega, seen from latitude phi: the equatorial
   direction (cos delta cos omega, cos delta sin omega, sin delta) turned about the west axis by 90 degrees - phi *)
Definition sun (phi delta omega : R) : vec :=
  {| south := sin phi * (cos delta * cos omega) - cos phi * sin delta;
     west := cos delta * sin omega;
     up := cos phi * (cos delta * cos omega) + sin phi * sin delta |}.

Definition dot (u v : vec) : R := south u * south v + west u * west v + up u * up v.

(* the outward normal of a surface with azimuth alpha and tilt beta (0: facing up, pi: facing down) *)
Definition normal (alpha beta : R) : vec :=
  {| south := sin beta * cos alpha; west := sin beta * sin alpha; up := cos beta |}.

(* the largest distance of apparent solar time from mean solar time, rad (18.1 minutes) *)
Definition eqt_max : R := 1934 / 1000 * (PI / 180) + 43 / 957.

(* the largest declination: the obliquity of the ecliptic, 23.4393 degrees *)
Definition delta_max : R := 234393 / 10000 * (PI / 180).

(* an azimuth that does not matter (sun in the zenith) counts as 0 *)
Definition azimuth (a : option R) : R := match a with Some a => a | None => 0 end.

(* the names of the directions a part can face *)
Definition compass : list (string * vec) :=
  let q := 1 / sqrt 2 in
  [("s", Build_vec 1 0 0); ("sw", Build_vec q q 0); ("w", Build_vec 0 1 0); ("nw", Build_vec (- q) q 0);
   ("n", Build_vec (- 1) 0 0); ("ne", Build_vec (- q) (- q) 0); ("e", Build_vec 0 (- 1) 0); ("se", Build_vec q (- q) 0);
   ("top", Build_vec 0 0 1); ("bottom", Build_vec 0 0 (- 1))]%string.

(* how far below an overhang of the given depth its shadow reaches on a vertical wall of azimuth w, for the sun at v *)
Definition shadow (depth w : R) (v : vec) : R := depth * up v / dot v (normal w (PI / 2)).
