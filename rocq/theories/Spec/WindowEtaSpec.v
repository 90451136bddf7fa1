(* Vocabulary for the solar gain of windows given by their glass. *)
From Coq Require Import Reals List String.
From Verif Require Import Model.Py Model.JsonValue.
Import ListNotations.
Local Open Scope R_scope.
Local Open Scope string_scope.

Definition frames : list string := ["WoodOrResin"; "Steel"].
Definition shades : list string := ["None"; "Shoji"; "ExtarnalBlind"].
(* panes: one, two, two with a coating, three with one or two coatings *)
Definition single_glass : list string := ["Theatreflect1"; "Theatreflect2"; "Theatreflect3"; "Theatabsorb2"; "Tsingle"].
Definition double_glass : list string := ["2FAheatreflect1"; "2FAheatreflect2"; "2FAheatreflect3"; "2FAheatabsorb2"; "2FAmulti"; "2FAsingle"].
Definition coated_glass : list string := ["2LgG"; "2LsG"; "3LgG"; "3LsG"; "3WgG"; "3WsG"].
Definition glasses : list string := single_glass ++ double_glass ++ coated_glass.

(* the entries of a dictionary *)
Definition says (d : value) (k s : string) : Prop := str_item k d = Ok s.
Definition gives (d : value) (k : string) (x : R) : Prop := num_item k d = Ok x.
