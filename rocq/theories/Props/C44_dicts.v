(* C44: part descriptions through dictionaries *)
From Coq Require Import Reals ZArith List String Bool Lra.
From Verif Require Import Model.Py Model.JsonValue Model.FactorH Model.FactorNu Model.FactorF Model.EesHouse Model.EesDict.
From Verif Require Import Spec.EnvelopeSpec Spec.DictSpec Lemmas.EesDictL.
Import ListNotations.
Local Open Scope R_scope.

(* Written and read back, exactly the plain general parts, windows and doors are unchanged. *)
Theorem C44_general_part_partial : forall g, make_general_part (general_part_dict g) = Ok g <-> plain_general_part g.
Proof. exact general_part_rt. Qed.
Print Assumptions C44_general_part_partial.

Theorem C44_window_partial : forall w, make_window (window_dict w) = Ok w <-> plain_window w.
Proof. exact window_rt. Qed.
Print Assumptions C44_window_partial.

Theorem C44_door_partial : forall d, make_door (door_dict d) = Ok d <-> plain_door d.
Proof. exact door_rt. Qed.
Print Assumptions C44_door_partial.

(* Earth floors and heat bridges are always unchanged. *)
Theorem C44_earth_floor : forall p c, make_perimeter (perimeter_dict p) = Ok p /\ make_center (center_dict c) = Ok c.
Proof. intros p c; split; [exact (perimeter_rt p)|exact (center_rt c)]. Qed.
Print Assumptions C44_earth_floor.

Theorem C44_heat_bridge : forall h, make_heatbridge (heatbridge_dict h) = Ok h.
Proof. exact heatbridge_rt. Qed.
Print Assumptions C44_heat_bridge.

(* Inner floors and walls, when their layers carry only the number in use. *)
Theorem C44_inner : forall f w,
  (make_inner_floor (inner_floor_dict f) = Ok f <-> forall l, In l (if_layers f) -> plain_layer l) /\
  (make_inner_wall (inner_wall_dict w) = Ok w <-> forall l, In l (iw_layers w) -> plain_layer l).
Proof. intros f w; split; [exact (inner_floor_rt f)|exact (inner_wall_rt w)]. Qed.
Print Assumptions C44_inner.

(* Any layer keeps the resistance and capacity that are calculated from it. *)
Theorem C44_layer : forall l, exists l', make_layer (layer_dict l) = Ok l' /\ l_name l' = l_name l /\ l_method l' = l_method l /\
  layer_r l' = layer_r l /\ layer_c l' = layer_c l.
Proof. exact layer_calculated. Qed.
Print Assumptions C44_layer.

(* Whatever has been read from a dictionary, whoever wrote it, is unchanged by writing and reading it again; general parts and
   doors unless their sunshade is given by lengths. *)
Theorem C44_reread : forall d,
  (forall g, make_general_part d = Ok g -> plain_opaque (gp_shade (gp_ns g)) -> make_general_part (general_part_dict g) = Ok g) /\
  (forall w, make_window d = Ok w -> make_window (window_dict w) = Ok w) /\
  (forall f, make_inner_floor d = Ok f -> make_inner_floor (inner_floor_dict f) = Ok f) /\
  (forall f, make_inner_wall d = Ok f -> make_inner_wall (inner_wall_dict f) = Ok f).
Proof.
intro d; split; [exact (reread_general_part d)|]; split; [exact (reread_window d)|]; split; intros f E.
- apply inner_floor_rt; exact (read_inner_floor _ _ E).
- apply inner_wall_rt; exact (read_inner_wall _ _ E).
Qed.
Print Assumptions C44_reread.

(* Lists of parts keep their order and number. *)
Theorem C44_lists : forall gs ws ds, Forall plain_general_part gs -> Forall plain_window ws -> Forall plain_door ds ->
  make_general_parts (map general_part_dict gs) = Ok gs /\ make_windows (map window_dict ws) = Ok ws /\ make_doors (map door_dict ds) = Ok ds.
Proof.
intros gs ws ds G W D; rewrite Forall_forall in G, W, D; split; [|split]; apply list_rt; intros x I.
- apply general_part_rt, G, I.
- apply window_rt, W, I.
- apply door_rt, D, I.
Qed.
Print Assumptions C44_lists.

(* Sunshades given by lengths, and windows known to have none, cannot be read back. *)
Theorem C44_sunshade_refuted : forall k,
  make_opaque (opaque_dict (OpInput k)) = Err KeyError /\
  make_window_shade (window_shade_dict (TrDetail k)) = Err KeyError /\
  make_window_shade (window_shade_dict TrNotExist) = Err TypeError.
Proof. intro k; split; [exact (opaque_rt (OpInput k))|]; split; [exact (window_shade_rt (TrDetail k))|exact (window_shade_rt TrNotExist)]. Qed.
Print Assumptions C44_sunshade_refuted.

(* The lengths themselves could be read if they were written where they are looked for. *)
Theorem C44_lengths : forall k, make_kernel (VDict (kernel_entries k)) = Ok k /\
  make_opaque (VDict (("is_defined", VBool true) :: ("input", VStr "complex") :: kernel_entries k)%string) = Ok (OpInput k).
Proof. intros []; split; reflexivity. Qed.
Print Assumptions C44_lengths.

(* The names of the directions in a dictionary. *)
Theorem C44_directions : forall s, Direction s =
  if (s =? "n")%string then Ok DN else if (s =? "ne")%string then Ok DNE else if (s =? "e")%string then Ok DE
  else if (s =? "se")%string then Ok DSE else if (s =? "s")%string then Ok DS else if (s =? "sw")%string then Ok DSW
  else if (s =? "w")%string then Ok DW else if (s =? "nw")%string then Ok DNW else if (s =? "top")%string then Ok DTop
  else if (s =? "bottom")%string then Ok DBottom else if (s =? "upward")%string then Ok DUpward
  else if (s =? "horizontal")%string then Ok DHorizontal else if (s =? "downward")%string then Ok DDownward else Err ValueError.
Proof. exact direction_names. Qed.
Print Assumptions C44_directions.

Example C44_example :
  let p r := {| p_name := "half"; p_ratio := r; p_layers := [{| l_name := "wool"; l_method := CONDUCTIVITY; l_thickness := 1 / 10; l_specific_heat := 13; l_conductivity := 45 / 1000; l_resistance := 0 |};
                                                        {| l_name := "air"; l_method := RESISTANCE; l_thickness := 0; l_specific_heat := 0; l_conductivity := 0; l_resistance := 9 / 100 |}] |} in
  plain_general_part {| gp_ns := {| gp_env := {| e_name := "wall"; e_next_space := OUTDOOR; e_direction := DS; e_area := 20; e_space_type := MAIN |};
                                    gp_kind := WALL; gp_shade := OpNotInput |};
                        gp_spec_of := SpecSteel (1 / 10) {| s_r_in := 11 / 100; s_r_ex := 4 / 100; s_parts := [p (1 / 3); p (2 / 3)] |} |}.
Proof.
intro p; split; [exact I|]; split.
- unfold covering, sum; cbn; replace (1 / 3 + (2 / 3 + 0) - 1) with 0 by field; rewrite Rabs_R0; lra.
- intros q [<- |[<- |[]]] l [<- |[<- |[]]]; reflexivity.
Qed.
