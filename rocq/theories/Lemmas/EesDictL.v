(* Parts through dictionaries *)
From Coq Require Import Reals ZArith List String Bool Lra.
From Verif Require Import Model.Py Model.JsonValue Model.FactorH Model.FactorNu Model.FactorF Model.EesHouse Model.Lv3 Model.EesDict.
From Verif Require Import Spec.EnvelopeSpec Spec.DictSpec Lemmas.PyL Lemmas.Lv3L.
Import ListNotations.
Local Open Scope string_scope.

Lemma dir_rt d : Direction (direction_value d) = Ok d. Proof. destruct d; reflexivity. Qed.
Lemma next_rt d : NextSpace (next_value d) = Ok d. Proof. destruct d; reflexivity. Qed.
Lemma space_rt d : SpaceType (space_value d) = Ok d. Proof. destruct d; reflexivity. Qed.
Lemma kind_rt d : GeneralPartType (kind_value d) = Ok d. Proof. destruct d; reflexivity. Qed.
Lemma glass_rt d : GlassType (glass_value d) = Ok d. Proof. destruct d; reflexivity. Qed.
Lemma flame_rt d : FlameType (flame_value d) = Ok d. Proof. destruct d; reflexivity. Qed.
Lemma method_rt d : HeatResistanceInputMethod (method_value d) = Ok d. Proof. destruct d; reflexivity. Qed.

(* reading a layer back: the number not in use becomes 0 *)
Definition cleaned (l : layer) : layer :=
  {| l_name := l_name l; l_method := l_method l; l_thickness := l_thickness l; l_specific_heat := l_specific_heat l;
     l_conductivity := match l_method l with CONDUCTIVITY => l_conductivity l | RESISTANCE => 0%R end;
     l_resistance := match l_method l with CONDUCTIVITY => 0%R | RESISTANCE => l_resistance l end |}.

Lemma layer_read l : make_layer (layer_dict l) = Ok (cleaned l).
Proof. destruct l as [n m t c k r]; destruct m; reflexivity. Qed.

Lemma layer_plain l : plain_layer l <-> cleaned l = l.
Proof. destruct l as [n m t c k r]; destruct m; unfold plain_layer, cleaned; simpl; split; [intros ->|intros [= <-]|intros ->|intros [= <-]]; reflexivity. Qed.

Lemma mapM_image A B (f : B -> res A) (g : A -> B) (h : A -> A) : (forall x, f (g x) = Ok (h x)) -> forall l, mapM f (map g l) = Ok (map h l).
Proof. intros E l; induction l as [|x l IH]; simpl; [reflexivity|]; rewrite E; simpl; rewrite IH; reflexivity. Qed.

Lemma map_fixed A (h : A -> A) l : (forall x, In x l -> h x = x) <-> map h l = l.
Proof.
induction l as [|x l IH]; simpl; split; intro H; [reflexivity|intros ? []| |].
- rewrite (H x (or_introl eq_refl)); f_equal; apply IH; intros y I; apply H; right; exact I.
- injection H as H1 H2; intros y [<- |I]; [exact H1|apply (proj2 IH H2 _ I)].
Qed.

Lemma layers_read ls : make_layers (map layer_dict ls) = Ok (map cleaned ls).
Proof. apply mapM_image, layer_read. Qed.

Definition cleaned_part (p : part) : part := {| p_name := p_name p; p_ratio := p_ratio p; p_layers := map cleaned (p_layers p) |}.

Lemma part_read p : make_part (part_dict p) = Ok (cleaned_part p).
Proof. unfold make_part, part_dict; cbn -[make_layers]; rewrite layers_read; reflexivity. Qed.

Lemma part_plain p : (forall l, In l (p_layers p) -> plain_layer l) <-> cleaned_part p = p.
Proof.
destruct p as [n r ls]; unfold cleaned_part; simpl; split; intro H.
- f_equal; apply map_fixed; intros l I; apply layer_plain, H, I.
- injection H as H; intros l I; apply layer_plain; exact (proj2 (map_fixed _ cleaned ls) H l I).
Qed.

Lemma ratios_read ps : mapM (num_item "part_area_ratio") (map part_dict ps) = Ok (map p_ratio ps).
Proof. induction ps as [|p ps IH]; simpl; [reflexivity|]; rewrite IH; reflexivity. Qed.

Lemma parts_read ps : covering ps -> make_parts (map part_dict ps) = Ok (map cleaned_part ps).
Proof.
intro C; unfold make_parts; rewrite ratios_read; cbn [bind]; destruct (Rlt_dec _ _) as [L|_]; [|apply mapM_image, part_read].
exfalso; unfold covering in C; change py_sum with sum in L; lra.
Qed.

Lemma parts_refused ps : ~ covering ps -> make_parts (map part_dict ps) = Err OtherError.
Proof.
intro C; unfold make_parts; rewrite ratios_read; cbn [bind]; destruct (Rlt_dec _ _) as [_|L]; [reflexivity|].
destruct C; unfold covering; change py_sum with sum in L; lra.
Qed.

Definition cleaned_detail (d : detail) : detail := {| s_r_in := s_r_in d; s_r_ex := s_r_ex d; s_parts := map cleaned_part (s_parts d) |}.

Lemma covering_dec ps : {covering ps} + {~ covering ps}.
Proof. unfold covering; apply Rle_dec. Qed.

Lemma detail_plain d : (covering (s_parts d) /\ cleaned_detail d = d) <-> plain_detail d.
Proof.
unfold plain_detail; destruct d as [i e ps]; unfold cleaned_detail; simpl; split; intros (C & H); split; [exact C| |exact C|].
- injection H as H; intros p I; apply part_plain; exact (proj2 (map_fixed _ cleaned_part ps) H p I).
- f_equal; apply map_fixed; intros p I; apply part_plain, H, I.
Qed.

Lemma entries_read r d :
  lookup "r_srf_in" r = None -> lookup "r_srf_ex" r = None -> lookup "parts" r = None ->
  make_detail (VDict (r ++ detail_entries d)) = bind (make_parts (map part_dict (s_parts d))) (fun ps => Ok {| s_r_in := s_r_in d; s_r_ex := s_r_ex d; s_parts := ps |}).
Proof.
assert (L : forall k, lookup k (r ++ detail_entries d) = match lookup k (detail_entries d) with Some w => Some w | None => lookup k r end).
{ intro k; generalize (detail_entries d); intro e; induction r as [|[k' v] r IH]; simpl; [destruct (lookup k e); reflexivity|].
  rewrite IH; destruct (lookup k e); reflexivity. }
intros H1 H2 H3; unfold make_detail, num_item, list_item, item; rewrite !L; simpl; destruct (make_parts _); reflexivity.
Qed.

Lemma detail_rt (mk : detail -> gp_spec) (r : list (string * value)) d :
  (forall a b, mk a = mk b -> a = b) ->
  bind (bind (make_parts (map part_dict (s_parts d))) (fun ps => Ok {| s_r_in := s_r_in d; s_r_ex := s_r_ex d; s_parts := ps |})) (fun x => Ok (mk x)) = Ok (mk d) <-> plain_detail d.
Proof.
intros inj; rewrite <- detail_plain; destruct (covering_dec (s_parts d)) as [C|C].
- rewrite parts_read by exact C; cbn [bind]; fold (cleaned_detail d); split; [intro E; split; [exact C|apply inj; injection E; auto]|intros (_ & ->); reflexivity].
- rewrite parts_refused by exact C; cbn [bind]; split; [discriminate|intros (C' & _); destruct (C C')].
Qed.

Lemma spec_rt t s : make_spec (spec_dict s) t = Ok s <-> plain_spec t s.
Proof.
destruct s as [d|d|u d|t' u w]; simpl plain_spec.
- rewrite <- (detail_rt SpecWood []) by (intros a b [= ->]; reflexivity); unfold make_spec.
  change (str_item "structure" (spec_dict (SpecWood d))) with (Ok "wood"); cbn -[make_detail make_parts part_dict].
  change (("structure", VStr "wood") :: detail_entries d) with ([("structure", VStr "wood")] ++ detail_entries d)%list; rewrite entries_read by reflexivity; reflexivity.
- rewrite <- (detail_rt SpecRC []) by (intros a b [= ->]; reflexivity); unfold make_spec.
  change (str_item "structure" (spec_dict (SpecRC d))) with (Ok "rc"); cbn -[make_detail make_parts part_dict].
  change (("structure", VStr "rc") :: detail_entries d) with ([("structure", VStr "rc")] ++ detail_entries d)%list; rewrite entries_read by reflexivity; reflexivity.
- rewrite <- (detail_rt (SpecSteel u) []) by (intros a b [= ->]; reflexivity); unfold make_spec.
  change (str_item "structure" (spec_dict (SpecSteel u d))) with (Ok "steel"); change (num_item "u_r_value_steel" (spec_dict (SpecSteel u d))) with (Ok u); cbn -[make_detail make_parts part_dict].
  change (("structure", VStr "steel") :: ("u_r_value_steel", VNum u) :: detail_entries d) with ([("structure", VStr "steel"); ("u_r_value_steel", VNum u)] ++ detail_entries d)%list.
  rewrite entries_read by reflexivity; reflexivity.
- change (make_spec (spec_dict (SpecOther t' u w)) t) with (@Ok gp_spec (SpecOther t u w)); split; [intros [= ->]; reflexivity|intros ->; reflexivity].
Qed.

Lemma opaque_rt s : make_opaque (opaque_dict s) = match s with OpInput _ => Err KeyError | _ => Ok s end.
Proof. destruct s as [| |k]; reflexivity. Qed.

Lemma window_shade_rt s :
  make_window_shade (window_shade_dict s) = match s with TrNotExist => Err TypeError | TrDetail _ => Err KeyError | _ => Ok s end.
Proof. destruct s; reflexivity. Qed.

Lemma general_part_rt g : make_general_part (general_part_dict g) = Ok g <-> plain_general_part g.
Proof.
destruct g as [[[n ns dir a st] t sh] sp]; unfold plain_general_part; simpl gp_shade; simpl gp_spec_of; simpl gp_kind.
unfold make_general_part, enum_item.
change (str_item "general_part_type" _) with (Ok (kind_value t)); cbn [bind]; rewrite kind_rt; cbn [bind].
change (str_item "name" _) with (Ok n); change (str_item "next_space" _) with (Ok (next_value ns)); change (str_item "direction" _) with (Ok (direction_value dir)).
change (num_item "area" _) with (Ok a); change (str_item "space_type" _) with (Ok (space_value st)).
change (item "sunshade" _) with (Ok (opaque_dict sh)); change (item "spec" _) with (Ok (spec_dict sp)).
cbn [bind]; rewrite next_rt; cbn [bind]; rewrite dir_rt; cbn [bind]; rewrite space_rt; cbn [bind]; rewrite opaque_rt, <- spec_rt.
destruct sh as [| |k]; cbn [bind plain_opaque].
- destruct (make_spec _ _) as [s|e]; cbn [bind]; split; [intros [= ->]; tauto|intros (_ & [= ->]); reflexivity|discriminate|intros (_ & E); discriminate].
- destruct (make_spec _ _) as [s|e]; cbn [bind]; split; [intros [= ->]; tauto|intros (_ & [= ->]); reflexivity|discriminate|intros (_ & E); discriminate].
- split; [discriminate|tauto].
Qed.

Lemma window_rt w : make_window (window_dict w) = Ok w <-> plain_window w.
Proof.
destruct w as [[[n ns dir a st] sh] [u h c g f]]; unfold plain_window; simpl w_shade; unfold make_window, enum_item.
change (str_item "name" _) with (Ok n); change (str_item "next_space" _) with (Ok (next_value ns)); change (str_item "direction" _) with (Ok (direction_value dir)).
change (num_item "area" _) with (Ok a); change (str_item "space_type" _) with (Ok (space_value st)).
change (item "sunshade" _) with (Ok (window_shade_dict sh)).
change (item "spec" _) with (Ok (window_spec_dict {| ws_u := u; ws_eta_d_h := h; ws_eta_d_c := c; ws_glass := g; ws_flame := f |})).
cbn [bind]; rewrite next_rt; cbn [bind]; rewrite dir_rt; cbn [bind]; rewrite space_rt; cbn [bind]; rewrite window_shade_rt.
assert (W : make_window_spec (window_spec_dict {| ws_u := u; ws_eta_d_h := h; ws_eta_d_c := c; ws_glass := g; ws_flame := f |}) =
            Ok {| ws_u := u; ws_eta_d_h := h; ws_eta_d_c := c; ws_glass := g; ws_flame := f |}) by (destruct g, f; reflexivity).
rewrite W; destruct sh; cbn [bind plain_window_shade]; split; auto; try discriminate; intros [].
Qed.

Lemma door_rt w : make_door (door_dict w) = Ok w <-> plain_door w.
Proof.
destruct w as [[[n ns dir a st] sh] u]; unfold plain_door; simpl d_shade; unfold make_door, enum_item.
change (str_item "name" _) with (Ok n); change (str_item "next_space" _) with (Ok (next_value ns)); change (str_item "direction" _) with (Ok (direction_value dir)).
change (num_item "area" _) with (Ok a); change (str_item "space_type" _) with (Ok (space_value st)).
change (item "sunshade" _) with (Ok (opaque_dict sh)); change (item "spec" _) with (Ok (VDict [("u_value", VNum u)])).
cbn [bind]; rewrite next_rt; cbn [bind]; rewrite dir_rt; cbn [bind]; rewrite space_rt; cbn [bind]; rewrite opaque_rt.
destruct sh; cbn [bind plain_opaque]; split; auto; try discriminate; intros [].
Qed.

Lemma perimeter_rt p : make_perimeter (perimeter_dict p) = Ok p.
Proof. destruct p as [[n ns l st] psi]; destruct ns, st; reflexivity. Qed.

Lemma center_rt c : make_center (center_dict c) = Ok c.
Proof. destruct c as [[n a st] ls]; reflexivity. Qed.

Lemma heatbridge_rt h : make_heatbridge (heatbridge_dict h) = Ok h.
Proof.
destruct h as [n ns ds l st psi]; unfold make_heatbridge, enum_item.
change (str_item "name" _) with (Ok n); change (list_item "next_spaces" _) with (Ok (map (fun n => VStr (next_value n)) ns)).
change (list_item "directions" _) with (Ok (map VStr ds)); change (num_item "length" _) with (Ok l); change (str_item "space_type" _) with (Ok (space_value st)).
change (item "spec" _) with (Ok (VDict [("psi_value", VNum psi)])); cbn [bind].
rewrite (mapM_image _ _ (fun v => bind (as_str v) NextSpace) (fun n => VStr (next_value n)) (fun x => x) next_rt); cbn [bind].
rewrite (mapM_image _ _ as_str VStr (fun x => x) (fun _ => eq_refl)); cbn [bind]; rewrite space_rt; cbn [bind]; rewrite !map_id; reflexivity.
Qed.

Lemma inner_floor_rt f : make_inner_floor (inner_floor_dict f) = Ok f <-> forall l, In l (if_layers f) -> plain_layer l.
Proof.
destruct f as [n a u l ls]; unfold make_inner_floor, inner_floor_dict; cbn -[make_layers]; rewrite layers_read; cbn [bind].
split; [intros [= E] x I; apply layer_plain; exact (proj2 (map_fixed _ cleaned ls) E x I)|].
intro H; replace (map cleaned ls) with ls; [reflexivity|symmetry; apply map_fixed; intros x I; apply layer_plain, H, I].
Qed.

Lemma inner_wall_rt f : make_inner_wall (inner_wall_dict f) = Ok f <-> forall l, In l (iw_layers f) -> plain_layer l.
Proof.
destruct f as [n a u l ls]; unfold make_inner_wall, inner_wall_dict; cbn -[make_layers]; rewrite layers_read; cbn [bind].
split; [intros [= E] x I; apply layer_plain; exact (proj2 (map_fixed _ cleaned ls) E x I)|].
intro H; replace (map cleaned ls) with ls; [reflexivity|symmetry; apply map_fixed; intros x I; apply layer_plain, H, I].
Qed.

Lemma list_rt A (mk : value -> res A) (dict : A -> value) l : (forall x, In x l -> mk (dict x) = Ok x) -> mapM mk (map dict l) = Ok l.
Proof.
induction l as [|x l IH]; simpl; intro H; [reflexivity|]; rewrite (H x (or_introl eq_refl)); simpl; rewrite IH; [reflexivity|intros y I; apply H; right; exact I].
Qed.

(* what has been read is plain *)
Lemma read_layer d l : make_layer d = Ok l -> plain_layer l.
Proof.
unfold make_layer; intro E; apply bind_ok in E; destruct E as (m & _ & E); do 3 (apply bind_ok in E; destruct E as (? & _ & E)).
destruct m; apply bind_ok in E; destruct E as (? & _ & E); injection E as <-; reflexivity.
Qed.

Lemma mapM_in A B (f : A -> res B) l r y : mapM f l = Ok r -> In y r -> exists x, In x l /\ f x = Ok y.
Proof.
revert r; induction l as [|x l IH]; simpl; intros r E I; [injection E as <-; destruct I|].
apply bind_ok in E; destruct E as (b & Eb & E); apply bind_ok in E; destruct E as (bs & Ebs & E); injection E as <-.
destruct I as [<- |I]; [exists x; auto|]; destruct (IH _ Ebs I) as (z & Iz & Ez); exists z; auto.
Qed.

Lemma read_layers ds ls l : make_layers ds = Ok ls -> In l ls -> plain_layer l.
Proof. intros E I; destruct (mapM_in _ _ _ _ _ _ E I) as (d & _ & H); exact (read_layer _ _ H). Qed.

Lemma read_part d p : make_part d = Ok p -> num_item "part_area_ratio" d = Ok (p_ratio p) /\ forall l, In l (p_layers p) -> plain_layer l.
Proof.
unfold make_part; intro E; apply bind_ok in E; destruct E as (n & _ & E); apply bind_ok in E; destruct E as (r & Er & E).
apply bind_ok in E; destruct E as (ls & El & E); injection E as <-; simpl; split; [exact Er|].
apply bind_ok in El; destruct El as (ds & _ & El); intros l; exact (read_layers _ _ _ El).
Qed.

Lemma read_parts ds ps : make_parts ds = Ok ps -> covering ps /\ forall p, In p ps -> forall l, In l (p_layers p) -> plain_layer l.
Proof.
unfold make_parts; intro E; apply bind_ok in E; destruct E as (rs & Er & E); destruct (Rlt_dec _ _) as [|L]; [discriminate|]; split.
- assert (H : rs = map p_ratio ps).
  { clear L; revert rs ps Er E; induction ds as [|d ds IH]; simpl; intros rs ps Er E; [injection Er as <-; injection E as <-; reflexivity|].
    apply bind_ok in Er; destruct Er as (r & E1 & Er); apply bind_ok in Er; destruct Er as (rs' & E2 & Er); injection Er as <-.
    apply bind_ok in E; destruct E as (p & E3 & E); apply bind_ok in E; destruct E as (ps' & E4 & E); injection E as <-.
    simpl; destruct (read_part _ _ E3) as (E5 & _); rewrite E5 in E1; injection E1 as ->; f_equal; apply IH; assumption. }
  subst rs; unfold covering; change py_sum with sum in L; lra.
- intros p I; destruct (mapM_in _ _ _ _ _ _ E I) as (d & _ & H); apply (read_part _ _ H).
Qed.

Lemma read_detail d x : make_detail d = Ok x -> plain_detail x.
Proof.
unfold make_detail; intro E; do 2 (apply bind_ok in E; destruct E as (? & _ & E)); apply bind_ok in E; destruct E as (ps & Ep & E); injection E as <-.
apply bind_ok in Ep; destruct Ep as (ds & _ & Ep); exact (read_parts _ _ Ep).
Qed.

Lemma read_spec d t s : make_spec d t = Ok s -> plain_spec t s.
Proof.
unfold make_spec; intro E; apply bind_ok in E; destruct E as (n & _ & E).
destruct (n =? "wood"); [apply bind_ok in E; destruct E as (x & Ex & E); injection E as <-; exact (read_detail _ _ Ex)|].
destruct (n =? "rc"); [apply bind_ok in E; destruct E as (x & Ex & E); injection E as <-; exact (read_detail _ _ Ex)|].
destruct (n =? "steel"); [apply bind_ok in E; destruct E as (u & _ & E); apply bind_ok in E; destruct E as (x & Ex & E); injection E as <-; exact (read_detail _ _ Ex)|].
destruct (n =? "other"); [|discriminate]; do 2 (apply bind_ok in E; destruct E as (? & _ & E)); injection E as <-; reflexivity.
Qed.

Lemma read_general_part d g : make_general_part d = Ok g -> plain_spec (gp_kind (gp_ns g)) (gp_spec_of g).
Proof.
unfold make_general_part; intro E; do 7 (apply bind_ok in E; destruct E as (? & _ & E)); apply bind_ok in E; destruct E as (sp & Es & E); injection E as <-.
apply bind_ok in Es; destruct Es as (v & _ & Es); exact (read_spec _ _ _ Es).
Qed.

Lemma read_window_shade d s : make_window_shade d = Ok s -> plain_window_shade s.
Proof.
unfold make_window_shade; intro E; apply bind_ok in E; destruct E as (b & _ & E); destruct b; [|injection E as <-; exact I].
apply bind_ok in E; destruct E as (n & _ & E); destruct (n =? "not_input"); [injection E as <-; exact I|].
destruct (n =? "not_exist"); [discriminate|]; destruct (n =? "simple"); [do 3 (apply bind_ok in E; destruct E as (? & _ & E)); injection E as <-; exact I|].
destruct (n =? "complex"); [apply bind_ok in E; destruct E as (? & _ & E)|]; discriminate.
Qed.

Lemma read_window d w : make_window d = Ok w -> plain_window w.
Proof.
unfold make_window; intro E; do 5 (apply bind_ok in E; destruct E as (? & _ & E)); apply bind_ok in E; destruct E as (sh & Es & E).
apply bind_ok in E; destruct E as (? & _ & E); injection E as <-; apply bind_ok in Es; destruct Es as (v & _ & Es); exact (read_window_shade _ _ Es).
Qed.

Lemma reread_general_part d g : make_general_part d = Ok g -> plain_opaque (gp_shade (gp_ns g)) -> make_general_part (general_part_dict g) = Ok g.
Proof. intros E P; apply general_part_rt; split; [exact P|exact (read_general_part _ _ E)]. Qed.

Lemma reread_window d w : make_window d = Ok w -> make_window (window_dict w) = Ok w.
Proof. intro E; apply window_rt; exact (read_window _ _ E). Qed.

Lemma read_inner_floor d f : make_inner_floor d = Ok f -> forall l, In l (if_layers f) -> plain_layer l.
Proof.
unfold make_inner_floor; intro E; do 4 (apply bind_ok in E; destruct E as (? & _ & E)); apply bind_ok in E; destruct E as (ls & El & E); injection E as <-.
apply bind_ok in El; destruct El as (v & _ & El); intro l; exact (read_layers _ _ _ El).
Qed.

Lemma read_inner_wall d f : make_inner_wall d = Ok f -> forall l, In l (iw_layers f) -> plain_layer l.
Proof.
unfold make_inner_wall; intro E; do 4 (apply bind_ok in E; destruct E as (? & _ & E)); apply bind_ok in E; destruct E as (ls & El & E); injection E as <-.
apply bind_ok in El; destruct El as (v & _ & El); intro l; exact (read_layers _ _ _ El).
Qed.

(* reading a layer back keeps everything that is calculated from it *)
Lemma layer_calculated l : exists l', make_layer (layer_dict l) = Ok l' /\ l_name l' = l_name l /\ l_method l' = l_method l /\
  layer_r l' = layer_r l /\ layer_c l' = layer_c l.
Proof. exists (cleaned l); split; [apply layer_read|]; destruct l as [n m t c k r]; destruct m; repeat split; reflexivity. Qed.

Lemma direction_names s : Direction s =
  if (s =? "n")%string then Ok DN else if (s =? "ne")%string then Ok DNE else if (s =? "e")%string then Ok DE
  else if (s =? "se")%string then Ok DSE else if (s =? "s")%string then Ok DS else if (s =? "sw")%string then Ok DSW
  else if (s =? "w")%string then Ok DW else if (s =? "nw")%string then Ok DNW else if (s =? "top")%string then Ok DTop
  else if (s =? "bottom")%string then Ok DBottom else if (s =? "upward")%string then Ok DUpward
  else if (s =? "horizontal")%string then Ok DHorizontal else if (s =? "downward")%string then Ok DDownward else Err ValueError.
Proof.
repeat match goal with |- context [if (s =? ?t)%string then _ else _] => destruct (String.eqb_spec s t) as [->|]; [reflexivity|] end.
unfold Direction, enum, directions, find; cbn [direction_value].
repeat match goal with |- context [(?t =? s)%string] => destruct (String.eqb_spec t s) as [E|_]; [symmetry in E; contradiction|] end; reflexivity.
Qed.
