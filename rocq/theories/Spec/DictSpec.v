(* Which part descriptions can be written to a dictionary without losing anything *)
From Coq Require Import Reals List String.
From Verif Require Import Model.FactorH Model.FactorF Model.EesHouse Spec.EnvelopeSpec.
Import ListNotations.
Local Open Scope R_scope.

(* a layer given by its conductivity has no resistance of its own, and conversely *)
Definition plain_layer (l : layer) : Prop := match l_method l with CONDUCTIVITY => l_resistance l = 0 | RESISTANCE => l_conductivity l = 0 end.

(* the parts of a structure cover it *)
Definition covering (ps : list part) : Prop := Rabs (sum (map p_ratio ps) - 1) <= 1 / 1000000.

Definition plain_detail (d : detail) : Prop := covering (s_parts d) /\ forall p, In p (s_parts d) -> forall l, In l (p_layers p) -> plain_layer l.

(* a structure given by its U value is that of the part it belongs to *)
Definition plain_spec (t : gp_type) (s : gp_spec) : Prop :=
  match s with SpecWood d | SpecRC d | SpecSteel _ d => plain_detail d | SpecOther t' _ _ => t' = t end.

(* sunshades given by their lengths are not read back *)
Definition plain_opaque (s : opaque_shade) : Prop := match s with OpInput _ => False | _ => True end.
Definition plain_window_shade (s : window_shade) : Prop := match s with TrNotExist | TrDetail _ => False | _ => True end.

Definition plain_general_part (g : general_part) : Prop := plain_opaque (gp_shade (gp_ns g)) /\ plain_spec (gp_kind (gp_ns g)) (gp_spec_of g).
Definition plain_window (w : window) : Prop := plain_window_shade (w_shade (w_ns w)).
Definition plain_door (d : door) : Prop := plain_opaque (d_shade (d_ns d)).
