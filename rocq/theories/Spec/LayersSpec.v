(* Vocabulary for the layers the converter writes. *)
From Coq Require Import Reals List String.
From Verif Require Import Model.EesHouse Model.EesLayers Spec.EnvelopeSpec.
Import ListNotations.
Local Open Scope R_scope.

(* resistance of a layer of the description: thickness over conductivity, or as given *)
Definition resistance_of (l : layer) : R :=
  match l_method l with CONDUCTIVITY => l_thickness l / l_conductivity l | RESISTANCE => l_resistance l end.
Definition capacity_of (l : layer) : R := l_thickness l * l_specific_heat l.
Definition resistance (p : part) : R := sum (map resistance_of (p_layers p)).

(* the resistances can be computed and are together positive *)
Definition computable (l : layer) : Prop := l_method l = CONDUCTIVITY -> l_conductivity l <> 0.
Definition insulating (p : part) : Prop := (forall l, In l (p_layers p) -> computable l) /\ 0 < resistance p.

(* the U value of a stack of layers between two surfaces *)
Definition u_of (r_in r r_ex : R) : R := 1 / (r_in + r + r_ex).
(* of what is written for the initializer *)
Definition written_r (q : init_part) : R := sum (map il_r (ip_layers q)).
Definition written_u (q : init_part) : R := u_of (ip_r_in q) (written_r q) (ip_r_ex q).
Definition written_loss (ps : list init_part) : R := sum (map (fun q => ip_area q * written_u q) ps).

(* the written layers are those of the description with all resistances changed in the same proportion *)
Definition scaled (p : part) (q : init_part) : Prop :=
  exists k, Forall2 (fun l w => il_name w = l_name l /\ il_r w = k * resistance_of l /\ il_c w = capacity_of l) (p_layers p) (ip_layers q).

(* what is written for a part p of the structure d: its U value is increased by extra *)
Definition written_as (d : detail) (name : string) (area extra : R) (p : part) (q : init_part) : Prop :=
  ip_name q = (name ++ "_" ++ p_name p)%string /\ ip_area q = area * p_ratio p /\ ip_r_in q = s_r_in d /\ ip_r_ex q = s_r_ex d /\
  scaled p q /\ written_u q = u_of (s_r_in d) (resistance p) (s_r_ex d) + extra /\
  written_r q = 1 / (u_of (s_r_in d) (resistance p) (s_r_ex d) + extra) - s_r_in d - s_r_ex d.

(* a structure given by its layers, and the extra loss of a steel frame *)
Definition spec_detail (s : gp_spec) : option detail :=
  match s with SpecWood d => Some d | SpecRC d => Some d | SpecSteel _ d => Some d | SpecOther _ _ _ => None end.
Definition steel_bridges (s : gp_spec) : R := match s with SpecSteel u_r _ => u_r | _ => 0 end.

(* the structures assumed for a U value: what lies on the room side and on the other side of the insulation.
   A board: name, thickness, conductivity, heat capacity of a cubic metre. *)
Record board := { bo_name : string; bo_thickness : R; bo_conductivity : R; bo_heat : R }.
Definition gypsum : board := {| bo_name := "gypsum_board"; bo_thickness := 95 / 10000; bo_conductivity := 221 / 1000; bo_heat := 830 |}.
Definition plywood (t : R) : board := {| bo_name := "plywood"; bo_thickness := t; bo_conductivity := 16 / 100; bo_heat := 720 |}.
Definition concrete : board := {| bo_name := "concrete"; bo_thickness := 12 / 100; bo_conductivity := 16 / 10; bo_heat := 2000 |}.
Definition insulation (t : R) : board := {| bo_name := "default_insulation"; bo_thickness := t; bo_conductivity := 45 / 1000; bo_heat := 13 |}.

Definition weight (heavy : bool) : string := if heavy then "heavy" else "light".

Definition room_side (t : gp_type) (heavy : bool) : list board :=
  match t with
  | FLOOR | DOWNWARD_BOUNDARY_FLOOR => [plywood (24 / 1000)]
  | UPWARD_BOUNDARY_FLOOR => if heavy then [gypsum; concrete] else [gypsum]
  | _ => [gypsum]
  end.
Definition far_side (t : gp_type) (heavy : bool) : list board :=
  match t with
  | BOUNDARY_WALL => [gypsum]
  | UPWARD_BOUNDARY_FLOOR => [plywood (24 / 1000)]
  | DOWNWARD_BOUNDARY_FLOOR => if heavy then [concrete; gypsum] else [gypsum]
  | WALL => if heavy then [concrete] else [plywood (12 / 1000)]
  | _ => if heavy then [concrete] else []
  end.
Definition board_r (b : board) : R := bo_thickness b / bo_conductivity b.
Definition surface_in (t : gp_type) : R :=
  match t with WALL | BOUNDARY_WALL => 11 / 100 | FLOOR | DOWNWARD_BOUNDARY_FLOOR => 15 / 100 | _ => 9 / 100 end.
Definition surface_ex (t : gp_type) : R := match t with ROOF | WALL => 4 / 100 | _ => surface_in t end.

(* the U value without insulation *)
Definition bare_u (t : gp_type) (heavy : bool) : R :=
  u_of (surface_in t) (sum (map board_r (room_side t heavy ++ far_side t heavy))) (surface_ex t).
