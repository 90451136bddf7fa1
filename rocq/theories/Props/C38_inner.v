From Coq Require Import Reals List String Bool Lra.
From Verif Require Import Model.Py Model.FactorH Model.FactorNu Model.EesHouse Model.JsonValue Model.Lv4 Spec.EnvelopeSpec Spec.InnerSpec Lemmas.Lv4L.
Import ListNotations.
Local Open Scope R_scope.

(* C38: inner floors are made exactly when there is a main room; all have positive area and lie between two different spaces *)
Theorem C38_floors_positive : forall a_mr a_or a_a ss ecs,
  (a_mr <= 0 /\ make_inner_floors a_mr a_or a_a ss ecs = Err ValueError) \/
  (0 < a_mr /\ exists l, make_inner_floors a_mr a_or a_a ss ecs = Ok l /\ forall f, In f l ->
     0 < if_area f /\ if_upper f <> if_lower f /\ (exists s, In s rooms /\ if_upper f = room_name s) /\
     (exists s, In s (UNDERFLOOR :: rooms) /\ if_lower f = room_name s) /\ if_layers f = inner_floor_layers).
Proof.
intros a_mr a_or a_a ss ecs; rewrite floors_ok; destruct (Rle_dec a_mr 0) as [H|H]; [left; split; [exact H|reflexivity]|right].
split; [lra|]; exists (floor_list a_mr a_or a_a ss ecs); split; [reflexivity|exact (floors_positive _ _ _ _ _)].
Qed.
Print Assumptions C38_floors_positive.

Theorem C38_walls_positive : forall a_mr a_or a_a ss,
  (exists l, make_inner_walls a_mr a_or a_a ss = Ok l /\ 0 < a_mr /\ 0 <= a_or /\ 0 <= a_a - a_mr - a_or /\ forall w, In w l ->
     0 < iw_area w /\ iw_space_1 w <> iw_space_2 w /\ (exists s, In s rooms /\ iw_space_1 w = room_name s) /\
     (exists s, In s rooms /\ iw_space_2 w = room_name s) /\ iw_layers w = inner_wall_layers) \/
  ((a_mr <= 0 \/ a_or < 0 \/ a_a - a_mr - a_or < 0) /\ exists e, make_inner_walls a_mr a_or a_a ss = Err e).
Proof.
intros a_mr a_or a_a ss; rewrite walls_ok.
destruct (Rlt_dec a_mr 0) as [H|H]; [right; split; [lra|eexists; reflexivity]|].
destruct (Rlt_dec a_or 0) as [H0|H0]; [right; split; [lra|eexists; reflexivity]|].
destruct (Rlt_dec (a_a - a_mr - a_or) 0) as [H1|H1]; [right; split; [lra|eexists; reflexivity]|].
destruct (Rle_dec a_mr 0) as [H2|H2]; [right; split; [lra|eexists; reflexivity]|].
left; exists (wall_list a_mr a_or a_a ss); split; [reflexivity|]; split; [lra|]; split; [lra|]; split; [lra|]; exact (walls_positive _ _ _ _).
Qed.
Print Assumptions C38_walls_positive.

(* the floors above the underfloor space add up to the earth floor, each room having its share *)
Theorem C38_underfloor_partial : forall a_mr a_or a_a ss ecs l, make_inner_floors a_mr a_or a_a ss ecs = Ok l ->
  let need := inner_floor_need a_mr a_or a_a ss ecs in
  0 <= earth_floor UNDERFLOOR ecs -> 0 < need MAIN + need OTHER + need NON ->
  floors_over (room_name UNDERFLOOR) l = earth_floor UNDERFLOOR ecs /\
  forall s, In s rooms ->
    sum (map if_area (filter (fun f => (if_upper f =? room_name s)%string && (if_lower f =? room_name UNDERFLOOR)%string) l)) =
    earth_floor UNDERFLOOR ecs * need s / (need MAIN + need OTHER + need NON).
Proof.
intros a_mr a_or a_a ss ecs l; rewrite floors_ok; destruct (Rle_dec a_mr 0); [discriminate|].
intro E; injection E as <-; intros need U T; split; [exact (floors_underfloor _ _ _ _ _ U T)|exact (fun s => floors_underfloor_each _ _ _ _ _ s U T)].
Qed.
Print Assumptions C38_underfloor_partial.

(* each room has exactly the inner floor it needs, if there are at least two rooms and the underfloor space is not larger than the house *)
Theorem C38_floors_partial : forall a_mr a_or a_a ss ecs l s, make_inner_floors a_mr a_or a_a ss ecs = Ok l ->
  let need := inner_floor_need a_mr a_or a_a ss ecs in
  0 <= a_or -> 0 <= a_a - a_mr - a_or -> a_mr < a_a -> nonneg_parts ss ecs ->
  earth_floor UNDERFLOOR ecs <= need MAIN + need OTHER + need NON ->
  In s rooms -> floors_of (room_name s) l = need s.
Proof.
intros a_mr a_or a_a ss ecs l s; rewrite floors_ok; destruct (Rle_dec a_mr 0); [discriminate|].
intro E; injection E as <-; intros need O N A P U; apply floors_room; trivial; lra.
Qed.
Print Assumptions C38_floors_partial.

(* three rooms: each has exactly the inner wall it needs, under the triangle inequalities *)
Theorem C38_walls : forall a_mr a_or a_a ss l s, make_inner_walls a_mr a_or a_a ss = Ok l ->
  let need := inner_wall_need a_mr a_or a_a ss in
  0 < a_or -> 0 < a_a - a_mr - a_or ->
  need NON <= need MAIN + need OTHER -> need OTHER <= need MAIN + need NON -> need MAIN <= need OTHER + need NON ->
  In s rooms -> walls_of (room_name s) l = need s.
Proof.
intros a_mr a_or a_a ss l s; rewrite walls_ok.
destruct (Rlt_dec a_mr 0), (Rlt_dec a_or 0), (Rlt_dec (a_a - a_mr - a_or) 0), (Rle_dec a_mr 0); try discriminate.
intro E; injection E as <-; intros need O N T1 T2 T3; exact (walls_three _ _ _ _ s O N T1 T2 T3).
Qed.
Print Assumptions C38_walls.

(* two rooms share a wall that is the mean of their needs *)
Theorem C38_walls_two_rooms : forall a_mr a_or a_a ss l, make_inner_walls a_mr a_or a_a ss = Ok l ->
  let need := inner_wall_need a_mr a_or a_a ss in
  (0 < a_or -> a_a - a_mr - a_or = 0 -> forall s, In s [MAIN; OTHER] -> walls_of (room_name s) l = (need MAIN + need OTHER) / 2) /\
  (a_or = 0 -> 0 < a_a - a_mr - a_or -> forall s, In s [MAIN; NON] -> walls_of (room_name s) l = (need MAIN + need NON) / 2).
Proof.
intros a_mr a_or a_a ss l; rewrite walls_ok.
destruct (Rlt_dec a_mr 0), (Rlt_dec a_or 0), (Rlt_dec (a_a - a_mr - a_or) 0), (Rle_dec a_mr 0); try discriminate.
intro E; injection E as <-; intro need; split; intros O N s; [exact (walls_two_other _ _ _ _ s O N)|exact (walls_two_non _ _ _ _ s O N)].
Qed.
Print Assumptions C38_walls_two_rooms.

Definition whole_floor : list envelope :=
  [ {| e_name := "floor"; e_next_space := OPEN_UNDERFLOOR; e_direction := DDownward; e_area := 20; e_space_type := MAIN |};
    {| e_name := "floor"; e_next_space := OPEN_UNDERFLOOR; e_direction := DDownward; e_area := 20; e_space_type := OTHER |} ].
Definition earth_below : list center :=
  [ {| ec_ns := {| ec_name := "center"; ec_area := 40; ec_space_type := "underfloor" |}; ec_layers := VList [] |} ].

(* a one-storey house on insulated floors above 40 m2 of underfloor space: the whole floor is envelope, nothing is over the underfloor space *)
Theorem C38_underfloor_refuted : exists a_mr a_or a_a ss ecs l, make_inner_floors a_mr a_or a_a ss ecs = Ok l /\
  nonneg_parts ss ecs /\ 0 < earth_floor UNDERFLOOR ecs /\ floors_over (room_name UNDERFLOOR) l = 0.
Proof.
exists 20, 20, 40, whole_floor, earth_below.
rewrite floors_ok; destruct (Rle_dec 20 0); [lra|]; eexists; split; [reflexivity|].
split; [split; [intros e [<- |[<- |[]]]|intros c [<- |[]]]; simpl; lra|].
split; [unfold earth_floor, sum; simpl; lra|].
assert (Z : forall s, In s rooms -> inner_floor_need 20 20 40 whole_floor earth_below s = 0).
{ intros s [<- |[<- |[<- |[]]]]; unfold inner_floor_need, facing_down, earth_floor, sum; simpl; apply Rmax_left; lra. }
assert (A : forall s, above 20 20 40 whole_floor earth_below s = 0).
{ intro s; unfold above; rewrite !Z by (simpl; auto); destruct (Rlt_dec 0 (0 + 0 + 0)); [lra|reflexivity]. }
destruct (between_nonneg 20 20 40 whole_floor earth_below) as (B1 & B2 & B3 & B4 & B5 & B6).
unfold floor_list; rewrite !floors_over_app, !floors_over_append by (trivial; rewrite A; lra); rewrite !A; simpl; ring.
Qed.
Print Assumptions C38_underfloor_refuted.

(* a house that is one main room on two storeys: its inner floor disappears *)
Theorem C38_floors_refuted : exists a_mr a_or a_a ss ecs l, make_inner_floors a_mr a_or a_a ss ecs = Ok l /\ nonneg_parts ss ecs /\
  0 <= a_or /\ 0 <= a_a - a_mr - a_or /\ l = [] /\ inner_floor_need a_mr a_or a_a ss ecs MAIN = 40.
Proof.
exists 40, 0, 40, [], []; rewrite floors_ok; destruct (Rle_dec 40 0); [lra|]; eexists; split; [reflexivity|].
split; [split; intros ? []|]; split; [lra|]; split; [lra|].
assert (NM : inner_floor_need 40 0 40 [] [] MAIN = 40) by (unfold inner_floor_need, facing_down, earth_floor, sum; simpl; rewrite Rmax_right; lra).
split; [|exact NM].
assert (U : earth_floor UNDERFLOOR [] = 0) by reflexivity.
assert (A : forall s, above 40 0 40 [] [] s = 0).
{ intro s; unfold above; rewrite U; destruct (Rlt_dec 0 _); [unfold Rdiv; ring|reflexivity]. }
unfold floor_list, between; rewrite !A; destruct (Rle_dec 0 0); [|lra]; destruct (Rle_dec (40 - 40 - 0) 0); [|lra]; simpl.
unfold append_floor; destruct (Rlt_dec 0 0); [lra|reflexivity].
Qed.
Print Assumptions C38_floors_refuted.

(* 30 + 30 + 40 m2 with 50 m2 of insulated floor below and no earth floor *)
Example C38_example : exists l w ss, make_inner_floors 30 30 100 ss [] = Ok l /\ make_inner_walls 30 30 100 ss = Ok w /\
  nonneg_parts ss [] /\ earth_floor UNDERFLOOR [] <= inner_floor_need 30 30 100 ss [] MAIN + inner_floor_need 30 30 100 ss [] OTHER + inner_floor_need 30 30 100 ss [] NON /\
  floors_of (room_name MAIN) l = 10.
Proof.
destruct (C38_floors_positive 30 30 100 [ {| e_name := "floor"; e_next_space := OPEN_UNDERFLOOR; e_direction := DDownward; e_area := 20; e_space_type := MAIN |} ] [])
  as [(H & _)|(_ & l & E & _)]; [lra|].
destruct (C38_walls_positive 30 30 100 [ {| e_name := "floor"; e_next_space := OPEN_UNDERFLOOR; e_direction := DDownward; e_area := 20; e_space_type := MAIN |} ])
  as [(w & W & _)|([H|[H|H]] & _)]; try lra.
assert (P : nonneg_parts [ {| e_name := "floor"; e_next_space := OPEN_UNDERFLOOR; e_direction := DDownward; e_area := 20; e_space_type := MAIN |} ] []).
{ split; [intros e [<- |[]]; simpl; lra|intros c []]. }
exists l, w; eexists; split; [exact E|]; split; [exact W|]; split; [exact P|].
assert (U : forall ss, earth_floor UNDERFLOOR [] <= inner_floor_need 30 30 100 ss [] MAIN + inner_floor_need 30 30 100 ss [] OTHER + inner_floor_need 30 30 100 ss [] NON).
{ intro ss; unfold earth_floor, sum; simpl; assert (H := need_nonneg 30 30 100 ss []); assert (H1 := H MAIN); assert (H2 := H OTHER); assert (H3 := H NON); lra. }
split; [apply U|].
rewrite (C38_floors_partial _ _ _ _ _ _ MAIN E); trivial; try lra; try (simpl; auto).
unfold inner_floor_need, facing_down, earth_floor, sum; simpl; rewrite Rmax_right; lra.
Qed.
