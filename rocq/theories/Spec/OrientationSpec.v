(* Vocabulary for the orientation of parts: the names of the two halves of the program. *)
From Coq Require Import Reals String.
From Verif Require Import Model.FactorH Model.FactorNu.
Local Open Scope string_scope.

(* the name the converter to the core has for a direction *)
Definition capital (d : direction) : option string :=
  match d with
  | DTop => Some "Top" | DN => Some "N" | DNE => Some "NE" | DE => Some "E" | DSE => Some "SE" | DS => Some "S" | DSW => Some "SW"
  | DW => Some "W" | DNW => Some "NW" | DBottom => Some "Bottom" | DUpward | DHorizontal | DDownward => None
  end.
(* and for an adjacent space *)
Definition place_name (n : next_space) : option string :=
  match n with
  | CLOSED_SPACE => Some "ClosedSpace" | OPEN_UNDERFLOOR => Some "OpenBackFloor" | AIR_CONDITIONED => Some "ResidenceSpace"
  | CLOSED_UNDERFLOOR => Some "ClosedBackFloor" | OUTDOOR | OPEN_SPACE => None
  end.
(* upright faces have an azimuth *)
Definition upright (d : direction) : Prop := d <> DTop /\ d <> DBottom.
