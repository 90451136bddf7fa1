(* heat_load_calc/convert/a_06_common_items.py: resistances of the surfaces of a part *)
From Coq Require Import Reals String.
From Verif Require Import Model.Py.
Local Open Scope R_scope.

(* get_r_surf 19-84: part type and adjacent space are strings; the result is (inside, outside) *)
Definition get_r_surf (t next : string) : res (R * R) :=
  if (t =? "roof")%string then                                                              (* 34-39 *)
    if (next =? "outdoor")%string then Ok (9 / 100, 4 / 100) else Ok (9 / 100, 9 / 100)
  else if (t =? "ceiling")%string then                                                      (* 41-46 *)
    if (next =? "outdoor")%string then Err ValueError else Ok (9 / 100, 9 / 100)
  else if (t =? "wall")%string then                                                         (* 48-53 *)
    if (next =? "outdoor")%string then Ok (11 / 100, 4 / 100) else Ok (11 / 100, 11 / 100)
  else if (t =? "floor")%string then                                                        (* 55-60 *)
    if (next =? "outdoor")%string then Ok (15 / 100, 4 / 100) else Ok (15 / 100, 15 / 100)
  else if (t =? "boundary_wall")%string then                                                (* 62-67 *)
    if (next =? "air_conditioned")%string then Ok (11 / 100, 11 / 100) else Err ValueError
  else if (t =? "upward_boundary_floor")%string then                                        (* 69-74 *)
    if (next =? "air_conditioned")%string then Ok (9 / 100, 9 / 100) else Err ValueError
  else if (t =? "downward_boundary_floor")%string then                                      (* 76-81 *)
    if (next =? "air_conditioned")%string then Ok (15 / 100, 15 / 100) else Err ValueError
  else Err ValueError.                                                                      (* 82-84 *)
