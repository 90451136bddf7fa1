(* heat_load_calc/convert/convert_lv4_to_h_hlc.py: tables by orientation *)
From Coq Require Import Reals ZArith List String Bool.
From Verif Require Import Model.Py.
Import ListNotations.
Local Open Scope R_scope.

(* d[k] for a dictionary literal *)
Definition entry {A} (k : string) (d : list (string * A)) : res A :=
  match find (fun e => (fst e =? k)%string) d with Some e => Ok (snd e) | None => Err KeyError end.

Definition faces : list string := ["N"; "NE"; "E"; "SE"; "S"; "SW"; "W"; "NW"]%string.
Definition spaces : list string := ["ClosedSpace"; "OpenBackFloor"; "ResidenceSpace"; "ClosedBackFloor"]%string.

(* get_directionangle_from_direction 259-277, in degrees; None where the source has None *)
Definition get_directionangle (d : string) : res (option R) :=
  entry d [("Top", None); ("N", Some 180); ("NE", Some (-135)); ("E", Some (-90)); ("SE", Some (-45)); ("S", Some 0);
           ("SW", Some 45); ("W", Some 90); ("NW", Some 135); ("Bottom", None); ("ClosedSpace", None);
           ("OpenBackFloor", None); ("ResidenceSpace", None); ("ClosedBackFloor", None)]%string.

(* get_inclinationangle_from_direction 280-298 *)
Definition get_inclinationangle (d : string) : res (option R) :=
  entry d [("Top", Some 0); ("N", Some 90); ("NE", Some 90); ("E", Some 90); ("SE", Some 90); ("S", Some 90);
           ("SW", Some 90); ("W", Some 90); ("NW", Some 90); ("Bottom", Some 180); ("ClosedSpace", None);
           ("OpenBackFloor", None); ("ResidenceSpace", None); ("ClosedBackFloor", None)]%string.

(* the rows 319-325; the keys are the regions 1 to 8 *)
Definition factor_row (next : string) : res (list Z) :=
  entry next [("outside", [100; 100; 100; 100; 100; 100; 100; 100]%Z); ("underfloor", [70; 70; 70; 70; 70; 70; 70; 70]%Z);
              ("next_room", [5; 5; 5; 15; 15; 15; 15; 15]%Z)]%string.

(* get_tempdifferentfactor_from_direction 301-328 *)
Definition get_tempdifferentfactor (region : Z) (d : string) : res R :=
  bind (entry d [("Top", "outside"); ("N", "outside"); ("NE", "outside"); ("E", "outside"); ("SE", "outside"); ("S", "outside");
                 ("SW", "outside"); ("W", "outside"); ("NW", "outside"); ("Bottom", "outside"); ("ClosedSpace", "underfloor");
                 ("OpenBackFloor", "underfloor"); ("ResidenceSpace", "next_room"); ("ClosedBackFloor", "next_room")]%string) (fun next =>
  bind (factor_row next) (fun row =>
  if (region <=? 0)%Z then Err KeyError
  else match nth_error row (Z.to_nat (region - 1)) with Some z => Ok (IZR z / 100) | None => Err KeyError end)).

(* the two shapes of dictionary of 349-362; GroundReflectRate is 0.1 *)
Inductive skin_boundary :=
| SkinOutdoor (name : string) (angle inclination : option R) (reflect : R)
| SkinDelta (name : string) (factor : R).

(* Type 332-347 and 379-394 *)
Definition skin_type (d : string) : res bool :=
  entry d [("Top", true); ("N", true); ("NE", true); ("E", true); ("SE", true); ("S", true); ("SW", true); ("W", true);
           ("NW", true); ("Bottom", true); ("ClosedSpace", false); ("OpenBackFloor", false); ("ResidenceSpace", false);
           ("ClosedBackFloor", false)]%string.

(* get_boundary_for_outer_skin 331-366: both entries of the dictionary are evaluated before one is taken *)
Definition get_boundary_for_outer_skin (region : Z) (nextspace direction : string) : res skin_boundary :=
  let place := if (nextspace =? "Outdoor")%string then direction else nextspace in
  bind (get_directionangle place) (fun a =>
  bind (get_inclinationangle place) (fun i =>
  bind (get_tempdifferentfactor region place) (fun h =>
  bind (skin_type place) (fun outdoor =>
  Ok (if outdoor : bool then SkinOutdoor direction a i (1 / 10) else SkinDelta direction h))))).

(* get_direction_from_direction_for_outer_skin 411-427 *)
Definition heat_flow_of (d : string) : res string :=
  entry d [("Top", "Downward"); ("N", "Vertical"); ("NE", "Vertical"); ("E", "Vertical"); ("SE", "Vertical"); ("S", "Vertical");
           ("SW", "Vertical"); ("W", "Vertical"); ("NW", "Vertical"); ("Bottom", "Upward"); ("ClosedSpace", "Vertical");
           ("OpenBackFloor", "Upward"); ("ResidenceSpace", "Vertical"); ("ClosedBackFloor", "Upward")]%string.
