(* When two boundaries count as similar. *)
From Coq Require Import Reals List String ZArith.
From Verif Require Import Model.BoundarySimple.
Local Open Scope R_scope.

Definition outside (t : btype) : Prop := t = ExternalGeneralPart \/ t = ExternalTransparentPart \/ t = ExternalOpaquePart.

Definition near (x y : R) : Prop := Rabs (x - y) < 1 / 100000.

Definition similar (a b : bsimple) : Prop :=
  bs_connected_room_id a = bs_connected_room_id b /\ bs_type a = bs_type b /\ bs_is_floor a = bs_is_floor b /\
  bs_is_solar_absorbed_inside a = bs_is_solar_absorbed_inside b /\ near (bs_h_i a) (bs_h_i b) /\
  (outside (bs_type a) ->
     bs_is_sun_striked_outside a = bs_is_sun_striked_outside b /\ near (bs_h_td a) (bs_h_td b) /\
     (bs_is_sun_striked_outside a = Some true -> bs_direction a = bs_direction b)) /\
  (bs_type a = Internal -> bs_next_room_type a = bs_next_room_type b).

(* no two values that differ count as near *)
Definition clear_cut (l : list bsimple) : Prop :=
  forall a b, In a l -> In b l ->
  (near (bs_h_i a) (bs_h_i b) -> bs_h_i a = bs_h_i b) /\ (near (bs_h_td a) (bs_h_td b) -> bs_h_td a = bs_h_td b).

(* i is the first boundary of its group *)
Definition first_of_group (g : list Z) (i : nat) : Prop := forall k, (k < i)%nat -> nth k g (-1)%Z <> nth i g (-1)%Z.
