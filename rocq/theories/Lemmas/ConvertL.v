(* The chain of conversions *)
From Coq Require Import Reals ZArith List String Bool Lra Lia.
From Verif Require Import Model.Py Model.JsonValue Model.FactorH Model.FactorF Model.EesHouse Model.EesLayers Model.EesDict Model.EesInit Model.CheckUa
  Model.PartSpec Model.ModelHouse Model.Lv3 Model.Lv4 Model.Convert.
From Verif Require Import Spec.EnvelopeSpec Spec.IndexSpec Spec.ShapeSpec Spec.InnerSpec Spec.LayersSpec Spec.DictSpec Spec.ConvertSpec Lemmas.PyL Lemmas.Lv3L Lemmas.Lv4L Lemmas.CheckUaL
  Lemmas.PartSpecL Lemmas.PartSpecTotalL Lemmas.EesDictL Lemmas.EesLayersL Lemmas.ModelHouseL Lemmas.ModelHouseNonnegL.
Import ListNotations.
Local Open Scope R_scope.

Lemma mapM_forall2 A B (f : A -> res B) l r : mapM f l = Ok r <-> Forall2 (fun a b => f a = Ok b) l r.
Proof.
split.
- revert r; induction l as [|a l IH]; simpl; intros r E; [apply ok_inj in E; subst; constructor|].
  apply bind_ok in E; destruct E as (b & Eb & E); apply bind_ok in E; destruct E as (s & Es & E); apply ok_inj in E; subst r; constructor; auto.
- intro F; induction F as [|a b l r E F IH]; simpl; [reflexivity|]; rewrite E; simpl; rewrite IH; reflexivity.
Qed.

Lemma lists_at A (make : value -> res A) k v l : parts_at make k v = Ok l <-> lists k make v l.
Proof.
unfold parts_at, lists, list_item; split.
- intro E; apply bind_ok in E; destruct E as (vs & E & M); apply bind_ok in E; destruct E as (x & E & X).
  destruct x; try discriminate X; simpl in X; apply ok_inj in X; subst vs; exists l0; split; [exact E|apply mapM_forall2, M].
- intros (vs & E & F); rewrite E; cbn [bind as_list]; apply mapM_forall2, F.
Qed.

Lemma written A (make : value -> res A) (dict : A -> value) l : (forall x, In x l -> make (dict x) = Ok x) -> Forall2 (fun d x => make d = Ok x) (map dict l) l.
Proof. induction l as [|x l IH]; simpl; intro H; constructor; [apply H; left; reflexivity|apply IH; intros y I; apply H; right; exact I]. Qed.

Lemma areas_at common a_mr a_or a_a : floor_areas common = Ok (a_mr, a_or, a_a) <-> has_floors common a_mr a_or a_a.
Proof.
unfold floor_areas, has_floors; split.
- intro E; apply bind_ok in E; destruct E as (x & -> & E); apply bind_ok in E; destruct E as (y & -> & E); apply bind_ok in E; destruct E as (z & -> & E).
  apply ok_inj in E; injection E as -> -> ->; repeat split.
- intros (-> & -> & ->); reflexivity.
Qed.

Section written.
Variable p : parts.
Hypothesis P : plain_house p.

Lemma gps_back x : In x (ps_gps p) -> make_general_part (general_part_dict x) = Ok x.
Proof. intro I; apply general_part_rt; destruct P as (G & _); rewrite Forall_forall in G; apply G, I. Qed.
Lemma ws_back x : In x (ps_ws p) -> make_window (window_dict x) = Ok x.
Proof. intro I; apply window_rt; destruct P as (_ & G & _); rewrite Forall_forall in G; apply G, I. Qed.
Lemma ds_back x : In x (ps_ds p) -> make_door (door_dict x) = Ok x.
Proof. intro I; apply door_rt; destruct P as (_ & _ & G); rewrite Forall_forall in G; apply G, I. Qed.

Lemma described v : item "general_parts" v = Ok (VList (map general_part_dict (ps_gps p))) -> item "windows" v = Ok (VList (map window_dict (ps_ws p))) ->
  item "doors" v = Ok (VList (map door_dict (ps_ds p))) -> item "earthfloor_perimeters" v = Ok (VList (map perimeter_dict (ps_eps p))) ->
  item "earthfloor_centers" v = Ok (VList (map center_dict (ps_ecs p))) -> item "heat_bridges" v = Ok (VList (map heatbridge_dict (ps_hbs p))) -> describes v p.
Proof.
intros E1 E2 E3 E4 E5 E6; repeat split; (eexists; split; [eassumption|apply written; intros x I]).
- exact (gps_back x I).
- exact (ws_back x I).
- exact (ds_back x I).
- apply perimeter_rt.
- apply center_rt.
- apply heatbridge_rt.
Qed.
End written.

(* level 2 to level 3 *)
Lemma plain_split a_mr a_or a_a p p' : a_a <> 0 -> lv2_to_lv3 a_mr a_or a_a p = Ok p' -> plain_house p -> plain_house p'.
Proof.
intros A E (G & W & D); rewrite lv3_ok in E by exact A; apply ok_inj in E; subst p'; unfold plain_house; simpl.
assert (X : forall T (Q : T -> Prop) size share l, (forall x s a, Q x -> Q (share x s a)) -> Forall Q l -> Forall Q (List.concat (map (shares a_mr a_or a_a T size share) l))).
{ intros T Q size share l H F; apply Forall_concat, Forall_map; revert F; apply Forall_impl; intros x QX; unfold shares; repeat constructor; apply H, QX. }
split; [|split]; (apply X; [|assumption]); intros x s a; trivial.
Qed.

Lemma rooms_split a_mr a_or a_a p p' : a_a <> 0 -> lv2_to_lv3 a_mr a_or a_a p = Ok p' -> in_rooms p'.
Proof.
intros A E; rewrite lv3_ok in E by exact A; apply ok_inj in E; subst p'; unfold in_rooms; simpl.
assert (X : forall T (Q : T -> Prop) size share l, (forall x s a, In s rooms -> Q (share x s a)) -> Forall Q (List.concat (map (shares a_mr a_or a_a T size share) l))).
{ intros T Q size share l H; apply Forall_concat, Forall_map; apply Forall_forall; intros x _; unfold shares; repeat constructor; apply H; simpl; tauto. }
split; [|split]; (apply Forall_forall; apply X); intros x s a; trivial.
Qed.

Lemma lv3_done common v p a_mr a_or a_a : describes v p -> has_floors common a_mr a_or a_a -> a_a <> 0 ->
  exists v' p', lv3_convert_spec common v = Ok v' /\ lv2_to_lv3 a_mr a_or a_a p = Ok p' /\ in_rooms p' /\ (plain_house p -> plain_house p' /\ describes v' p').
Proof.
intros (E1 & E2 & E3 & E4 & E5 & E6) F A; apply lists_at in E1, E2, E3, E4, E5, E6; apply areas_at in F.
destruct (lv2_to_lv3 a_mr a_or a_a p) as [p'|e] eqn:L; [|rewrite lv3_ok in L by exact A; discriminate].
eexists; exists p'; split.
- unfold lv3_convert_spec; rewrite F; cbn [bind]; rewrite E1; cbn [bind]; rewrite E2; cbn [bind]; rewrite E3; cbn [bind].
  rewrite E6; cbn [bind]; rewrite E4; cbn [bind]; rewrite E5; cbn [bind]; destruct p as [g w d b e c]; simpl; simpl in L; rewrite L; reflexivity.
- split; [reflexivity|]; split; [exact (rooms_split _ _ _ _ _ A L)|]; intro P; assert (P' := plain_split _ _ _ _ _ A L P); split; [exact P'|].
  apply described; trivial.
Qed.

(* level 3 to level 4 *)
Lemma inner_made a_mr a_or a_a ss ecs : 0 < a_mr -> 0 <= a_or -> a_mr + a_or <= a_a ->
  exists ifs iws, make_inner_floors a_mr a_or a_a ss ecs = Ok ifs /\ make_inner_walls a_mr a_or a_a ss = Ok iws /\
  (forall f, In f ifs -> if_layers f = inner_floor_layers) /\ (forall w, In w iws -> iw_layers w = inner_wall_layers).
Proof.
intros M O A; exists (floor_list a_mr a_or a_a ss ecs), (wall_list a_mr a_or a_a ss).
rewrite floors_ok, walls_ok; destruct (Rle_dec a_mr 0); [lra|]; destruct (Rlt_dec a_mr 0); [lra|]; destruct (Rlt_dec a_or 0); [lra|].
destruct (Rlt_dec (a_a - a_mr - a_or) 0); [lra|]; split; [reflexivity|]; split; [reflexivity|]; split; intros f I.
- apply floors_positive in I; destruct I as (_ & _ & _ & _ & E); exact E.
- apply walls_positive in I; destruct I as (_ & _ & _ & _ & E); exact E.
Qed.

Lemma lv4_done common v p a_mr a_or a_a : describes v p -> has_floors common a_mr a_or a_a -> 0 < a_mr -> 0 <= a_or -> a_mr + a_or <= a_a ->
  exists v' ifs iws, lv4_convert_spec common v = Ok v' /\ make_inner_floors a_mr a_or a_a (outer_parts p) (ps_ecs p) = Ok ifs /\
  make_inner_walls a_mr a_or a_a (outer_parts p) = Ok iws /\
  lists "inner_floors" make_inner_floor v' ifs /\ lists "inner_walls" make_inner_wall v' iws /\ (plain_house p -> describes v' p).
Proof.
intros (E1 & E2 & E3 & E4 & E5 & E6) F M O A; apply lists_at in E1, E2, E3, E4, E5, E6; apply areas_at in F.
change (outer_parts p) with (outer_envelopes (ps_gps p) (ps_ws p) (ps_ds p)).
destruct (inner_made a_mr a_or a_a (outer_envelopes (ps_gps p) (ps_ws p) (ps_ds p)) (ps_ecs p) M O A) as (ifs & iws & I1 & I2 & L1 & L2).
eexists; exists ifs, iws; split.
- unfold lv4_convert_spec; rewrite E1; cbn [bind]; rewrite E2; cbn [bind]; rewrite E3; cbn [bind]; rewrite E4; cbn [bind]; rewrite E5; cbn [bind].
  rewrite E6; cbn [bind]; rewrite F; cbn [bind]; rewrite I1; cbn [bind]; rewrite I2; reflexivity.
- split; [exact I1|]; split; [exact I2|]; split; [|split].
  + eexists; split; [reflexivity|]; apply written; intros f I; apply inner_floor_rt; rewrite (L1 f I); intros l [<- |[]]; reflexivity.
  + eexists; split; [reflexivity|]; apply written; intros f I; apply inner_wall_rt; rewrite (L2 f I); intros l [<- |[<- |[<- |[]]]]; reflexivity.
  + intro P; apply described; trivial.
Qed.

(* the last step *)
Lemma never_returns common envelope d natural_vent : exists e, convert_lv4_to_initializer common envelope d natural_vent = Err e.
Proof.
destruct (convert_lv4_to_initializer common envelope d natural_vent) as [v|e] eqn:E; [exfalso|exists e; reflexivity].
unfold convert_lv4_to_initializer, make_rooms in E; repeat (apply bind_ok in E; destruct E as (? & _ & E)); discriminate.
Qed.

Definition made {A B} (f : A -> res B) (l : list A) : Prop := forall x, In x l -> exists y, f x = Ok y.

Lemma name_error common v d nv region p ifs iws a_mr a_or a_a : describes v p -> lists "inner_floors" make_inner_floor v ifs -> lists "inner_walls" make_inner_wall v iws ->
  int_item "region" common = Ok region -> has_floors common a_mr a_or a_a -> 0 < a_mr -> 0 <= a_or -> ventilated d nv ->
  made (general_part_init 0 region) (ps_gps p) -> made (window_init region) (ps_ws p) -> made (door_init region) (ps_ds p) ->
  convert_lv4_to_initializer common v d nv = Err NameError.
Proof.
intros (E1 & E2 & E3 & E4 & E5 & E6) E7 E8 R (F1 & F2 & F3) M O ((ve & n & V & N) & (t1 & T1) & (t2 & T2)) G W D.
apply lists_at in E1, E2, E3, E4, E5, E6, E7, E8; unfold convert_lv4_to_initializer.
rewrite R; cbn [bind]; rewrite F3; cbn [bind]; rewrite F1; cbn [bind]; rewrite F2; cbn [bind]; rewrite E1; cbn [bind]; rewrite E2; cbn [bind].
rewrite E3; cbn [bind]; rewrite E4; cbn [bind]; rewrite E5; cbn [bind]; rewrite E6; cbn [bind]; rewrite E7; cbn [bind]; rewrite E8; cbn [bind].
rewrite V; cbn [bind]; unfold make_rooms; rewrite N; cbn [bind]; rewrite T1; cbn [bind]; rewrite T2; cbn [bind].
unfold make_initial_rooms, get_room_volume, get_v_vent_ex, fdiv; destruct (Req_EM_T (a_mr + a_or) 0); [lra|]; cbn [bind].
destruct (Rle_dec a_mr 0); [lra|]; cbn [bind].
destruct (mapM_exists _ _ _ _ G) as (? & ->), (mapM_exists _ _ _ _ W) as (? & ->), (mapM_exists _ _ _ _ D) as (? & ->); reflexivity.
Qed.

(* parts of a house by indices *)
Lemma model_plain s h : get_model_house_no_spec s = Ok h ->
  (forall g, In g (n_gps h) -> plain_opaque (gp_shade g)) /\ (forall w, In w (n_ws h) -> plain_window_shade (w_shade w)) /\
  (forall d, In d (n_ds h) -> plain_opaque (d_shade d)).
Proof.
unfold get_model_house_no_spec; destruct (sh_type s), (sh_ins s); repeat (destruct (none_of _); cbn [bind]; [|discriminate]); try discriminate;
  intro E; apply ok_inj in E; subst h; simpl; (split; [|split]); each; exact Logic.I.
Qed.

Lemma forall2_in A B (P : A -> B -> Prop) l r y : Forall2 P l r -> In y r -> exists x, In x l /\ P x y.
Proof.
intro F; induction F as [|x z l r H F IH]; intros I; [destruct I|]; destruct I as [<- |I]; [exists x; split; [left; reflexivity|exact H]|].
destruct (IH I) as (x' & I' & H'); exists x'; split; [right; exact I'|exact H'].
Qed.

Section index.
Variables (region : Z) (u_a eta_h eta_c : R) (h : parts_ns) (gps : list general_part) (ws : list window) (ds : list door) (eps : list perimeter) (ecs : list center).
Hypotheses (NN : nonneg_house h) (DE : describable h) (AP : 0 < house_area h) (U : 0 < u_a).
Hypothesis OK : spec_from_indices region u_a eta_h eta_c h = Ok (gps, ws, ds, eps, ecs).

Lemma index_u g : In g gps -> exists u, 0 < u /\ gp_spec_of g = SpecOther (gp_kind (gp_ns g)) u "light" /\ In (gp_ns g) (n_gps h).
Proof.
assert (UA : 0 <= house_area h * u_a) by (apply Rmult_le_pos; lra).
intro I; destruct (result_parts _ _ _ _ _ _ _ _ _ _ NN UA OK) as (u & e_h & e_c & [RG (std & v & ST & SP & V & EU & LA) _] & G & _).
assert (VP : 0 < v).
{ destruct V as [V|V]; [exact V|exfalso]; subst v.
  assert (Z : forall p, u_level std 0 p = 0).
  { intro p; rewrite u_level_min by apply SP; rewrite Rmult_0_r; apply Rmin_left; left; apply u_max_pos. }
  assert (Z0 : loss_amount (u_level std 0) region h = 0).
  { unfold loss_amount; cbn [map part_types]; rewrite !Z; unfold sum; cbn [fold_right]; ring. }
  assert (L : 0 < loss_amount get_u_psi_max region h).
  { destruct DE as (_ & _ & _ & _ & (w & Iw & A & O & _)).
    assert (N : forall p, 0 <= amount region h p * get_u_psi_max p) by (intro p; apply Rmult_le_pos; [apply amount_nonneg, NN|left; apply u_max_pos]).
    assert (W : 0 < amount region h PWindow).
    { apply Rlt_le_trans with (e_area (w_env w) * hh region (e_next_space (w_env w))).
      - rewrite O; assert (H1 : hh region OUTDOOR = 1); [|rewrite H1; lra].
        assert (H := hh_ok region OUTDOOR RG); unfold get_h in H; apply bind_ok in H; destruct H as (? & _ & H); apply ok_inj in H; symmetry; exact H.
      - simpl amount; destruct NN as (_ & NW & _); clear - Iw NW; revert NW Iw; induction (n_ws h) as [|x l IH]; intros NW I; [destruct I|].
        cbn [map]; change (sum (?a :: ?b)) with (a + sum b).
        assert (T : 0 <= sum (map (fun w0 => e_area (w_env w0) * hh region (e_next_space (w_env w0))) l)).
        { apply sum_map_nonneg; intros y Iy; apply Rmult_le_pos; [apply NW; right; exact Iy|apply hh_nonneg]. }
        destruct I as [<- |I].
        + change (sum (e_area (w_env x) * hh region (e_next_space (w_env x)) :: map (fun w0 => e_area (w_env w0) * hh region (e_next_space (w_env w0))) l))
            with (e_area (w_env x) * hh region (e_next_space (w_env x)) + sum (map (fun w0 => e_area (w_env w0) * hh region (e_next_space (w_env w0))) l)); lra.
        + change (sum (e_area (w_env x) * hh region (e_next_space (w_env x)) :: map (fun w0 => e_area (w_env w0) * hh region (e_next_space (w_env w0))) l))
            with (e_area (w_env x) * hh region (e_next_space (w_env x)) + sum (map (fun w0 => e_area (w_env w0) * hh region (e_next_space (w_env w0))) l)).
          assert (0 <= e_area (w_env x) * hh region (e_next_space (w_env x))) by (apply Rmult_le_pos; [apply NW; left; reflexivity|apply hh_nonneg]).
          assert (X := IH (fun y Iy => NW y (or_intror Iy)) I); lra. }
    assert (WP : 0 < amount region h PWindow * get_u_psi_max PWindow) by (apply Rmult_lt_0_compat; [exact W|apply u_max_pos]).
    unfold loss_amount; cbn [map part_types]; unfold sum; cbn [fold_right].
    assert (N1 := N PRoof); assert (N2 := N PCeiling); assert (N3 := N PWall); assert (N4 := N PFloor); assert (N5 := N PBoundaryCeiling).
    assert (N6 := N PBoundaryWall); assert (N7 := N PBoundaryFloor); assert (N8 := N PDoor); assert (N9 := N PPerimeter); lra. }
  assert (0 < house_area h * u_a) by (apply Rmult_lt_0_compat; assumption).
  rewrite Z0 in LA; assert (X : 0 < Rmin (house_area h * u_a) (loss_amount get_u_psi_max region h)) by (apply Rmin_pos; assumption); lra. }
destruct (forall2_in _ _ _ _ _ _ G I) as (x & Ix & E); unfold add_spec_gp in E; apply bind_ok in E; destruct E as (y & E & E'); apply ok_inj in E'; subst g; simpl.
apply bind_ok in E; destruct E as (t & Et & E); apply part_of_type_std in Et; destruct Et as (-> & PB); unfold get_u_psi in E; rewrite PB, EU in E; apply ok_inj in E; subst y.
eexists; split; [|split; [reflexivity|exact Ix]]; rewrite u_level_min by apply SP; apply Rmin_pos; [apply Rmult_lt_0_compat; [apply SP|exact VP]|apply u_max_pos].
Qed.

Lemma index_w w : In w ws -> exists x, In x (n_ws h) /\ w_shade (w_ns w) = w_shade x.
Proof.
assert (UA : 0 <= house_area h * u_a) by (apply Rmult_le_pos; lra).
intro I; destruct (result_parts _ _ _ _ _ _ _ _ _ _ NN UA OK) as (u & e_h & e_c & _ & _ & W & _).
destruct (forall2_in _ _ _ _ _ _ W I) as (x & Ix & E); exists x; split; [exact Ix|].
unfold add_spec_w in E; apply bind_ok in E; destruct E as (y & _ & E); apply ok_inj in E; subst w; reflexivity.
Qed.

Lemma index_d w : In w ds -> In (d_ns w) (n_ds h).
Proof.
assert (UA : 0 <= house_area h * u_a) by (apply Rmult_le_pos; lra).
intro I; destruct (result_parts _ _ _ _ _ _ _ _ _ _ NN UA OK) as (u & e_h & e_c & _ & _ & _ & D & _).
destruct (forall2_in _ _ _ _ _ _ D I) as (x & Ix & E).
unfold add_spec_d in E; apply bind_ok in E; destruct E as (y & _ & E); apply ok_inj in E; subst w; exact Ix.
Qed.
End index.

Lemma outer_init region e : (1 <= region <= 8)%Z -> In (e_space_type e) rooms -> (exists id, get_connected_id (e_space_type e) = Ok id) /\ exists h, env_h e region = Ok h.
Proof.
intros R I; split; [|exists (hh region (e_next_space e)); apply hh_ok, R].
destruct I as [<- |[<- |[<- |[]]]]; eexists; reflexivity.
Qed.

Lemma init_general region g u : (1 <= region <= 8)%Z -> In (e_space_type (gp_env (gp_ns g))) rooms -> 0 < u ->
  gp_spec_of g = SpecOther (gp_kind (gp_ns g)) u "light" -> exists vs, general_part_init 0 region g = Ok vs.
Proof.
intros R I U S; destruct (outer_init region _ R I) as ((id & C) & (h & H)); unfold general_part_init; rewrite S.
destruct (u_value_written (e_name (gp_env (gp_ns g))) (e_area (gp_env (gp_ns g))) 0 (gp_kind (gp_ns g)) false u U) as (q & _ & _ & E & _); [lra|].
change (weight false) with "light"%string in E; rewrite E; cbn [bind]; rewrite C; cbn [bind mapM]; unfold general_part_entry; rewrite H; eexists; reflexivity.
Qed.
Lemma init_window region w : (1 <= region <= 8)%Z -> In (e_space_type (w_env (w_ns w))) rooms -> exists v, window_init region w = Ok v.
Proof. intros R I; destruct (outer_init region _ R I) as ((id & C) & (h & H)); unfold window_init; rewrite C; cbn [bind]; rewrite H; eexists; reflexivity. Qed.
Lemma init_door region w : (1 <= region <= 8)%Z -> In (e_space_type (d_env (d_ns w))) rooms -> exists v, door_init region w = Ok v.
Proof. intros R I; destruct (outer_init region _ R I) as ((id & C) & (h & H)); unfold door_init; rewrite C; cbn [bind]; rewrite H; eexists; reflexivity. Qed.

Lemma specs_split a_mr a_or a_a p p' : a_a <> 0 -> lv2_to_lv3 a_mr a_or a_a p = Ok p' ->
  forall g, In g (ps_gps p') -> exists g0, In g0 (ps_gps p) /\ gp_spec_of g = gp_spec_of g0 /\ gp_kind (gp_ns g) = gp_kind (gp_ns g0).
Proof.
intros A E; rewrite lv3_ok in E by exact A; apply ok_inj in E; subst p'; simpl; intros g I; apply in_concat in I; destruct I as (l & Il & I).
apply in_map_iff in Il; destruct Il as (g0 & <- & I0); exists g0; split; [exact I0|]; destruct I as [<- |[<- |[<- |[]]]]; split; reflexivity.
Qed.

(* the whole chain *)
Lemma chain d common region a_mr a_or a_a env u_a eta_h eta_c : asks_for d common region a_a env u_a eta_h eta_c -> has_floors common a_mr a_or a_a ->
  (1 <= region <= 7)%Z -> 11 <= a_a <= 1000 -> env <= 2 * (a_a / (177 / 100)) + 41 * sqrt (a_a / (177 / 100)) -> 0 < u_a ->
  0 < a_mr -> 0 <= a_or -> a_mr + a_or <= a_a ->
  exists d2 d3 d4 p q s h worst, indices_convert_spec d = Ok d2 /\ lv3_convert_spec common d2 = Ok d3 /\ lv4_convert_spec common d3 = Ok d4 /\
  describes d4 p /\ in_rooms p /\ env <= sum (areas p) /\ house_loss region p q /\ q / sum (areas p) = Rmin u_a (worst / sum (areas p)) /\
  calc_area Detached a_a (1 / 10) InsFloor InsBase (Some env) = Ok s /\ get_model_house_no_spec s = Ok h /\ loss_with get_u_psi_max region h worst /\
  forall dv nv, ventilated dv nv -> convert_lv4_to_initializer common d4 dv nv = Err NameError.
Proof.
intros (D1 & D2 & D3 & D4 & (ev & ix & D5 & D6 & D7 & D8 & D9 & D10)) F R A M U MR OR LE.
destruct (index_house a_a env A M) as (s & h & S0 & H & NN & DE & _ & HA & HP).
destruct (spec_total region u_a eta_h eta_c h R NN DE) as (((((gps & ws) & ds) & eps) & ecs) & E); [apply Rmult_le_pos; lra|].
assert (UA : 0 <= house_area h * u_a) by (apply Rmult_le_pos; lra).
destruct (result_loss _ _ _ _ _ _ _ _ _ _ NN UA E) as (std & v & _ & _ & _ & _ & _ & _ & Q).
assert (AR := result_area _ _ _ _ _ _ _ _ _ _ NN UA E).
set (p2 := {| ps_gps := gps; ps_ws := ws; ps_ds := ds; ps_hbs := []; ps_eps := eps; ps_ecs := ecs |}).
assert (P2 : plain_house p2).
{ destruct (model_plain _ _ H) as (PG & PW & PD); split; [|split]; apply Forall_forall; simpl; intros x I.
  - destruct (index_u _ _ _ _ _ _ _ _ _ _ NN DE HP U E x I) as (u & _ & S & I'); split; [apply PG, I'|rewrite S; reflexivity].
  - destruct (index_w _ _ _ _ _ _ _ _ _ _ NN HP U E x I) as (y & Iy & S); unfold plain_window; rewrite S; apply PW, Iy.
  - apply PD; exact (index_d _ _ _ _ _ _ _ _ _ _ NN HP U E x I). }
eassert (C1 : indices_convert_spec d = Ok _).
{ unfold indices_convert_spec; rewrite D1; cbn [bind]; rewrite D2; cbn [bind]; rewrite D3; cbn [bind]; rewrite D4; cbn [bind]; rewrite D5; cbn [bind].
  rewrite D6; cbn [bind]; rewrite D7; cbn [bind]; rewrite D8; cbn [bind]; rewrite D9; cbn [bind]; rewrite D10; cbn [bind].
  change ("detached" =? "detached")%string with true; cbn [bind]; unfold indices_to_lv2; rewrite S0; cbn [bind]; rewrite H; cbn [bind]; rewrite E; reflexivity. }
match type of C1 with _ = Ok ?d2 => assert (T2 : describes d2 p2) by (apply (described p2 P2); reflexivity) end.
assert (A0 : a_a <> 0) by lra.
destruct (lv3_done common _ p2 a_mr a_or a_a T2 F A0) as (d3 & p & C2 & L & IR & PD); destruct (PD P2) as (P3 & T3).
destruct (lv4_done common d3 p a_mr a_or a_a T3 F MR OR LE) as (d4 & ifs & iws & C3 & _ & _ & X1 & X2 & T4); specialize (T4 P3).
destruct (lv3_sizes _ _ _ _ _ A0 L) as (SA & _).
assert (SA2 : sum (areas p2) = house_area h) by exact AR.
assert (Q2 : total_q region (ps_gps p) (ps_ws p) (ps_ds p) (ps_eps p) = Ok (Rmin (house_area h * u_a) (loss_amount get_u_psi_max region h))).
{ rewrite <- Q; unfold total_q; destruct (lv3_q _ _ _ _ _ region A0 L) as (-> & -> & -> & _ & ->); reflexivity. }
do 3 eexists; exists p; eexists; exists s, h, (loss_amount get_u_psi_max region h); split; [exact C1|]; split; [exact C2|]; split; [exact C3|]; split; [exact T4|].
split; [exact IR|]; split; [rewrite SA, SA2, HA; apply Rmax_l|]; split; [apply total_q_ok; exact Q2|]; split.
{ rewrite SA, SA2; assert (DV : forall x y, x <= y -> x / house_area h <= y / house_area h).
  { intros x y Lx; apply Rmult_le_compat_r; [left; apply Rinv_0_lt_compat, HP|exact Lx]. }
  assert (EU : u_a = house_area h * u_a / house_area h) by (field; lra); rewrite EU at 2.
  unfold Rmin; destruct (Rle_dec (house_area h * u_a) _) as [L1|L1], (Rle_dec (house_area h * u_a / house_area h) _) as [M1|M1]; try reflexivity.
  - exfalso; apply M1, DV, L1.
  - apply Rle_antisym; [|exact M1]; apply DV; lra. }
split; [exact S0|]; split; [exact H|]; split; [apply loss_with_ok; [lia|reflexivity]|].
intros dv nv VE; apply (name_error common d4 dv nv region p ifs iws a_mr a_or a_a); trivial.
- intros g I; destruct (specs_split _ _ _ _ _ A0 L g I) as (g0 & I0 & S1 & S2).
  destruct (index_u _ _ _ _ _ _ _ _ _ _ NN DE HP U E g0 I0) as (u & UP & S3 & _); rewrite <- S1, <- S2 in S3.
  apply (init_general region g u); [lia|apply IR, I|exact UP|exact S3].
- intros w I; apply init_window; [lia|apply IR, I].
- intros w I; apply init_door; [lia|apply IR, I].
Qed.
