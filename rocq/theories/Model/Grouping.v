(* heat_load_calc/initializer/building_part_summarize.py 196-325 *)
From Coq Require Import Reals List String ZArith Bool.
From Verif Require Import Model.Py Model.BoundarySimple.
Import ListNotations.
Local Open Scope R_scope.

Definition lt_dec (x y : R) : bool := if Rlt_dec x y then true else false.
(* 311-325 *)
Definition is_almost_equal (v1 v2 : R) : bool := lt_dec (Rabs (v1 - v2)) (1 / 100000).

Definition btype_eqb (a b : btype) : bool :=
  match a, b with
  | Internal, Internal | ExternalGeneralPart, ExternalGeneralPart | ExternalTransparentPart, ExternalTransparentPart
  | ExternalOpaquePart, ExternalOpaquePart | Ground, Ground => true
  | _, _ => false
  end.
Definition opt_eqb {A} (eqb : A -> A -> bool) (a b : option A) : bool :=
  match a, b with Some x, Some y => eqb x y | None, None => true | _, _ => false end.

(* 236-308 _is_boundary_integratable; a None in 'if bs1.is_sun_striked_outside' counts as False *)
Definition is_boundary_integratable (bs1 bs2 : bsimple) : bool :=
  if negb (bs_connected_room_id bs1 =? bs_connected_room_id bs2)%Z then false                (* 261 *)
  else if negb (btype_eqb (bs_type bs1) (bs_type bs2)) then false                            (* 265 *)
  else if negb (Bool.eqb (bs_is_floor bs1) (bs_is_floor bs2)) then false                     (* 269 *)
  else if negb (Bool.eqb (bs_is_solar_absorbed_inside bs1) (bs_is_solar_absorbed_inside bs2)) then false (* 273 *)
  else if negb (is_almost_equal (bs_h_i bs1) (bs_h_i bs2)) then false                        (* 277 *)
  else
    let external := match bs_type bs1 with ExternalGeneralPart | ExternalTransparentPart | ExternalOpaquePart => true | _ => false end in
    if external && negb (opt_eqb Bool.eqb (bs_is_sun_striked_outside bs1) (bs_is_sun_striked_outside bs2)) then false (* 286 *)
    else if external && negb (is_almost_equal (bs_h_td bs1) (bs_h_td bs2)) then false        (* 290 *)
    else if external && (match bs_is_sun_striked_outside bs1 with Some b => b | None => false end)
              && negb (opt_eqb String.eqb (bs_direction bs1) (bs_direction bs2)) then false  (* 294-298 *)
    else if btype_eqb (bs_type bs1) Internal && negb (bs_next_room_type bs1 =? bs_next_room_type bs2)%Z then false (* 301-305 *)
    else true.

Definition max_list (l : list Z) : Z := fold_right Z.max (-1)%Z l.

(* the body of the loop 220-231 for k; the comparison is a parameter here: same k l says whether boundaries k and l may
   be merged. np.max of a non-empty array; entries are at least -1. *)
Definition group_step (same : nat -> nat -> bool) (n : nat) (g : list Z) (k : nat) : list Z :=
  let top := (max_list g + 1)%Z in
  map (fun p => if (snd p <? 0)%Z && same k (fst p) then top else snd p) (combine (seq 0 n) g).

(* 196-233 _get_group_indices *)
Definition get_group_indices (same : nat -> nat -> bool) (n : nat) : list Z :=
  fold_left (group_step same n) (seq 0 n) (repeat (-1)%Z n).

Definition same_of (bss : list bsimple) (k l : nat) : bool :=
  match nth_error bss k, nth_error bss l with
  | Some a, Some b => is_boundary_integratable a b
  | _, _ => false
  end.

(* the areas of the merged boundaries: integrate 62 *)
Definition areas_of_groups (areas : list R) (g : list Z) (groups : list Z) : list R :=
  map (fun i => fold_right Rplus 0 (map fst (filter (fun p => (snd p =? i)%Z) (combine areas g)))) groups.

(* The rest of integrate (18-193) is not modelled: it reads the field n_root (123), which a boundary description does not
   have, so that it ends with an AttributeError for every non-empty list that gets so far. *)
