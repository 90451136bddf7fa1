(* heat_load_calc/external/factor_h.py *)
From Coq Require Import Reals ZArith Bool.
From Verif Require Import Model.Py.
Local Open Scope R_scope.

(* 4-20 *)
Inductive next_space := OUTDOOR | OPEN_SPACE | CLOSED_SPACE | AIR_CONDITIONED | OPEN_UNDERFLOOR | CLOSED_UNDERFLOOR.

(* 22-35 *)
Definition get_is_sun_striked_outside (s : next_space) : bool := match s with OUTDOOR => true | _ => false end.

(* {1: 0.05, 2: 0.05, 3: 0.05, 4: 0.15, ..., 8: 0.15}[region]: 50-59, 60-69 *)
Definition by_region (region : Z) : res R :=
  if (1 <=? region)%Z && (region <=? 3)%Z then Ok (5 / 100)
  else if (4 <=? region)%Z && (region <=? 8)%Z then Ok (15 / 100)
  else Err KeyError.

(* 37-70: the whole table is built, so an unknown region is a KeyError for every kind of space *)
Definition get_h (s : next_space) (region : Z) : res R :=
  bind (by_region region) (fun h =>
  Ok (match s with
      | OUTDOOR => 1 | OPEN_SPACE => 1 | CLOSED_SPACE => 7 / 10 | OPEN_UNDERFLOOR => 7 / 10
      | AIR_CONDITIONED => h | CLOSED_UNDERFLOOR => h
      end)).
