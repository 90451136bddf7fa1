(* Vocabulary for the resistances of surfaces. *)
From Coq Require Import Reals.
From Verif Require Import Model.FactorH Model.EesHouse Model.PartSpec.
Local Open Scope R_scope.

(* the direction in which heat leaves the room through a part *)
Inductive heat_flow := Rising | Level | Falling.
Definition flow_through (t : gp_type) : heat_flow :=
  match t with
  | ROOF | CEILING | UPWARD_BOUNDARY_FLOOR => Rising | WALL | BOUNDARY_WALL => Level | FLOOR | DOWNWARD_BOUNDARY_FLOOR => Falling
  end.

(* resistance of the still air at a surface, m2K/W *)
Definition film (f : heat_flow) : R := match f with Rising => 9 / 100 | Level => 11 / 100 | Falling => 15 / 100 end.
(* and of a surface in the open air *)
Definition open_film : R := 4 / 100.
Definition far_film (t : gp_type) (n : next_space) : R := match n with OUTDOOR => open_film | _ => film (flow_through t) end.

(* which parts may face which spaces: a ceiling does not face the open air, a party wall or floor only faces another dwelling *)
Definition possible (t : gp_type) (n : next_space) : Prop :=
  match t with
  | ROOF | WALL | FLOOR => True
  | CEILING => n <> OUTDOOR
  | BOUNDARY_WALL | UPWARD_BOUNDARY_FLOOR | DOWNWARD_BOUNDARY_FLOOR => n = AIR_CONDITIONED
  end.

(* the place the converter to layers assumes for every part of a kind *)
Definition usual_place (t : gp_type) (n : next_space) : Prop :=
  match t with ROOF | WALL => n = OUTDOOR | FLOOR => n <> OUTDOOR | _ => True end.

(* the parts of the table of largest U values: what they are, where they are, and the board they are made of *)
Definition in_table (p : part_type) (t : gp_type) (n : next_space) (board : R) : Prop :=
  match p with
  | PRoof => t = ROOF /\ n = OUTDOOR /\ board = (95 / 10000) / (22 / 100)
  | PCeiling => t = CEILING /\ n <> OUTDOOR /\ board = (95 / 10000) / (22 / 100)
  | PWall => t = WALL /\ n = OUTDOOR /\ board = (95 / 10000) / (22 / 100)
  | PFloor => t = FLOOR /\ n = OUTDOOR /\ board = (12 / 1000) / (16 / 100)
  | PBoundaryWall => t = BOUNDARY_WALL /\ n = AIR_CONDITIONED /\ board = (95 / 10000) / (22 / 100)
  | PBoundaryCeiling => t = UPWARD_BOUNDARY_FLOOR /\ n = AIR_CONDITIONED /\ board = (95 / 10000) / (22 / 100)
  | PBoundaryFloor => t = DOWNWARD_BOUNDARY_FLOOR /\ n = AIR_CONDITIONED /\ board = (12 / 1000) / (16 / 100)
  | _ => False
  end.
