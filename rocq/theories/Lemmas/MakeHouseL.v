From Coq Require Import Reals List String ZArith Bool Lra Lia.
From Verif Require Import Model.Py Model.Trig Model.BoundaryDict Model.Inclined Model.SolarShading Model.Transmission Model.OutsideEqvTemp
  Model.BoundarySimple Model.ResponseFactor Model.HouseDict Model.Residents Model.Schedule Model.Initializer Spec.HouseholdSpec Spec.HouseSpec Spec.CompleteSpec
  Lemmas.PyL Lemmas.CoreLoopL Lemmas.ScheduleL Lemmas.VentL Lemmas.RoomsL Lemmas.BoundariesL Lemmas.WeightsL.
Import ListNotations.
Local Open Scope R_scope.

Notation year := (24 * 365 * 4)%nat.

(* a boundary *)
Lemma direction_known d : In d directions -> exists ab, get_w_alpha_j_w_beta_j d = Ok ab.
Proof.
intro H; unfold directions in H; simpl in H; unfold get_w_alpha_j_w_beta_j.
repeat (destruct H as [<-|H]; [cbn -[radians]; eauto|]); destruct H.
Qed.

Lemma next_room_known n : In n room_types -> exists k, next_room_index n = Ok k.
Proof. intro H; unfold room_types in H; simpl in H; repeat (destruct H as [<-|H]; [cbn; eauto|]); destruct H. Qed.

Lemma mapM_length A B (f : A -> res B) l r : mapM f l = Ok r -> List.length r = List.length l.
Proof. intro H; apply (mapM_ok A B f l r) in H; apply H. Qed.

Definition usable (s : shading) : Prop := match s with Simple _ _ h _ => h <> 0 | Detail => False | NotShaded => True end.

Lemma shading_complete b t : given (solar_shading_part b) -> BoundaryDict.boundary_type b = Some t ->
  (is_external t = false -> t = "internal"%string \/ t = "ground"%string) -> (is_external t = true -> complete_outside b t) ->
  exists s, create_shading b = Ok s /\ usable s.
Proof.
intros [p P] T I X; unfold create_shading; rewrite P, T; cbn [key of_option bind].
destruct (is_external t) eqn:E.
- destruct (X eq_refl) as [_ [sun [S C]]]; rewrite S; cbn [key of_option bind].
  destruct (existence p) eqn:Ex; [|exists NotShaded; split; [reflexivity|exact I0 || exact Logic.I]].
  destruct sun; [|exists NotShaded; split; [reflexivity|exact Logic.I]].
  destruct (C eq_refl) as [[d [D Dk]] [_ [_ [[p' [P' Cs]] _]]]]; rewrite P in P'; injection P' as <-.
  destruct (Cs Ex) as [M [[z Z] [[e Ee] [h [H N]]]]]; rewrite M, D; cbn [andb key of_option bind].
  destruct (direction_known d Dk) as [ab ->]; cbn [bind]; rewrite Z, H, Ee; cbn.
  eexists; split; [reflexivity|exact N].
- destruct (I eq_refl) as [-> | ->]; cbn; (destruct (existence p); exists NotShaded; split; [reflexivity|exact Logic.I|reflexivity|exact Logic.I]).
Qed.

Lemma shaded_total s h a : usable s -> exists x, get_f_ss_d_j_n s h a = Ok x.
Proof. destruct s; simpl; intro U; [eauto|destruct U|eauto]. Qed.
Lemma shaded_sky_total s : usable s -> exists x, get_f_ss_s_j s = Ok x.
Proof. destruct s; simpl; intro U; [|destruct U|eauto]; destruct (Req_EM_T (2 * d_h) 0); [lra|eauto]. Qed.

Lemma glazing_total g t : g = "single"%string \/ g = "multiple"%string -> (exists x, get_tau_d_j_n t g = Ok x) /\ exists c, get_c_d_j g = Ok c.
Proof. intros [-> | ->]; cbn; eauto. Qed.

Lemma qgt_total d a s g e ws : In d directions -> usable s -> g = "single"%string \/ g = "multiple"%string ->
  exists q, get_qgt (SunStrike d a s g e) ws = Ok q /\ List.length q = List.length ws.
Proof.
intros D U G; unfold get_qgt; destruct (mapM_total _ _ (get_qgt_n d a s g e) ws) as [q Q].
- intros w _; unfold get_qgt_n; destruct (direction_known d D) as [ab ->]; cbn [bind].
  destruct (get_i_is_j_n _ _ _ _ _ _) as [[i1 i2] i3].
  destruct (shaded_total s (h_sun w) (a_sun w) U) as [x ->]; destruct (shaded_sky_total s U) as [y ->]; cbn [bind].
  destruct (glazing_total g (get_theta_aoi_j_n (h_sun w) (a_sun w) (fst ab) (snd ab)) G) as [[tau ->] [c ->]]; cbn [bind]; eauto.
- exists q; split; [exact Q|apply (mapM_length _ _ _ _ _ Q)].
Qed.

Lemma transmission_total b t s ws : BoundaryDict.boundary_type b = Some t -> given (BoundaryDict.area b) -> (is_external t = true -> complete_outside b t) -> usable s ->
  List.length ws = year -> exists tr q, create_transmission b s = Ok tr /\ get_qgt tr ws = Ok q /\ List.length q = year.
Proof.
intros T [a A] X U L; unfold create_transmission; rewrite T; cbn [key of_option bind].
destruct (String.eqb_spec t "external_transparent_part"%string) as [->|N].
- destruct (X eq_refl) as [_ [sun [S C]]]; rewrite S; cbn [key of_option bind]; destruct sun.
  + destruct (C eq_refl) as [[d [D Dk]] [_ [_ [_ [_ Tr]]]]]; destruct (Tr eq_refl) as [[e E] G].
    rewrite D, A, E; cbn [key of_option bind].
    assert (Gg : exists g, incident_angle_characteristics b = Some g /\ (g = "single"%string \/ g = "multiple"%string)) by (destruct G as [G|G]; eauto).
    destruct Gg as [g [-> Gg]]; cbn [key of_option bind].
    destruct (qgt_total d a s g e ws Dk U Gg) as [q [Q Lq]]; do 2 eexists; (split; [reflexivity|split; [exact Q|congruence]]).
  + do 2 eexists; split; [reflexivity|split; [reflexivity|apply repeat_length]].
- do 2 eexists; split; [reflexivity|split; [reflexivity|apply repeat_length]].
Qed.

Lemma oet_total b t ws : BoundaryDict.boundary_type b = Some t -> (is_external t = false -> t = "internal"%string \/ t = "ground"%string) ->
  (is_external t = true -> complete_outside b t) -> List.length ws = year ->
  exists o th, create_oet b = Ok o /\ get_theta_o_sol o ws = Ok th /\ List.length th = year.
Proof.
intros T I X L; unfold create_oet; rewrite T; cbn [key of_option bind]; destruct (is_external t) eqn:E.
- destruct (X eq_refl) as [_ [sun [S C]]]; rewrite S; cbn [key of_option bind].
  assert (Ty : t = "external_general_part"%string \/ t = "external_transparent_part"%string \/ t = "external_opaque_part"%string).
  { unfold is_external in E; apply orb_true_iff in E; destruct E as [E|E]; [apply orb_true_iff in E; destruct E as [E|E]|]; apply String.eqb_eq in E; auto. }
  destruct sun.
  + destruct (C eq_refl) as [[d [D Dk]] [[e Ee] [[r Rr] [_ [Ab _]]]]]; rewrite D, Ee, Rr; cbn [key of_option bind].
    destruct (direction_known d Dk) as [ab Hab].
    assert (Op : forall a, exists th, get_theta_o_sol (OOpaque d a e r) ws = Ok th /\ List.length th = year).
    { intro a; cbn [get_theta_o_sol]; destruct (mapM_total _ _ (theta_opaque d a e r) ws) as [th Th].
      - intros w _; unfold theta_opaque; rewrite Hab; cbn [bind]; destruct (get_i_is_j_n _ _ _ _ _ _) as [[i1 i2] i3]; eauto.
      - exists th; split; [exact Th|rewrite (mapM_length _ _ _ _ _ Th); exact L]. }
    destruct Ty as [->|[->| ->]]; cbn -[get_theta_o_sol Nat.mul].
    * destruct (Ab ltac:(discriminate)) as [a ->]; cbn -[get_theta_o_sol Nat.mul]; destruct (Op a) as [th [Th Lt]]; eauto 6.
    * destruct (mapM_total _ _ (theta_transparent d e r) ws) as [th Th].
      { intros w _; unfold theta_transparent; rewrite Hab; cbn [bind]; eauto. }
      do 2 eexists; split; [reflexivity|]; cbn [get_theta_o_sol]; split; [exact Th|rewrite (mapM_length _ _ _ _ _ Th); exact L].
    * destruct (Ab ltac:(discriminate)) as [a ->]; cbn -[get_theta_o_sol Nat.mul]; destruct (Op a) as [th [Th Lt]]; eauto 6.
  + destruct Ty as [->|[->| ->]]; cbn -[get_theta_o_sol Nat.mul]; do 2 eexists; (split; [reflexivity|cbn [get_theta_o_sol]; split; [reflexivity|rewrite map_length; exact L]]).
- destruct (I eq_refl) as [-> | ->]; cbn -[get_theta_o_sol Nat.mul]; do 2 eexists; (split; [reflexivity|cbn [get_theta_o_sol]; split; [reflexivity|apply repeat_length]]).
Qed.

Lemma boundary_total ws b : List.length ws = year -> complete_boundary b ->
  exists bs, get_boundary_simple ws b = Ok bs /\ List.length (bs_q_trs_sol bs) = year /\ List.length (bs_theta_o_sol bs) = year.
Proof.
intros L [[id Hid] [[nm Hnm] [[cn Hcn] [A [[ab Hab] [[fl Hfl] [[hc Hhc] [[ri [Hri Nri]] [Sh [t [T C]]]]]]]]]]].
assert (I : is_external t = false -> t = "internal"%string \/ t = "ground"%string).
{ intro E; destruct C as [[-> _]|[[-> _]|[[-> _]|[[-> _]|[-> _]]]]]; auto; discriminate E. }
assert (X : is_external t = true -> complete_outside b t).
{ intro E; destruct C as [[-> _]|[[-> _]|[[-> C]|[[-> C]|[-> C]]]]]; try discriminate E; apply C. }
destruct (shading_complete b t Sh T I X) as [s [Hs U]].
destruct (oet_total b t ws T I X L) as [o [th [Ho [Hth Lth]]]].
destruct (transmission_total b t s ws T A X U L) as [tr [q [Htr [Hq Lq]]]].
destruct A as [a A].
unfold get_boundary_simple; rewrite Hid, Hnm, Hcn, T, A; cbn [key of_option bind].
assert (Ty : exists k, BoundaryType t = Ok k) by (destruct C as [[-> _]|[[-> _]|[[-> _]|[[-> _]|[-> _]]]]]; cbn; eauto).
destruct Ty as [k ->]; cbn [bind].
assert (S1 : exists v, (if is_external t then bind (key (BoundaryDict.is_sun_striked_outside b)) (fun s => Ok (Some s)) else Ok None) = Ok v).
{ destruct (is_external t); [|eauto]; destruct (X eq_refl) as [_ [sun [-> _]]]; cbn; eauto. }
destruct S1 as [v1 ->]; cbn [bind].
assert (S2 : exists v, (if is_external t then key (temp_dif_coef b) else Ok 0) = Ok v).
{ destruct (is_external t); [|eauto]; destruct (X eq_refl) as [[h ->] _]; cbn; eauto. }
destruct S2 as [v2 ->]; cbn [bind].
assert (S3 : exists v, (if (t =? "internal")%string then bind (key (BoundaryDict.next_room_type b)) next_room_index else Ok (-1)%Z) = Ok v).
{ destruct (String.eqb_spec t "internal"%string) as [->|]; [|eauto].
  destruct C as [[_ [_ [[n [-> N]] _]]]|[[E _]|[[E _]|[[E _]|[E _]]]]]; try discriminate E; cbn; apply next_room_known, N. }
destruct S3 as [v3 ->]; cbn [bind].
assert (S4 : exists v, (if (t =? "internal")%string then bind (key (BoundaryDict.rear_surface_boundary_id b)) (fun k => Ok (Some k)) else Ok None) = Ok v).
{ destruct (String.eqb_spec t "internal"%string) as [->|]; [|eauto].
  destruct C as [[_ [_ [_ [[n ->] _]]]]|[[E _]|[[E _]|[[E _]|[E _]]]]]; try discriminate E; cbn; eauto. }
destruct S4 as [v4 ->]; cbn [bind]; rewrite Hab, Hfl; cbn [key of_option bind].
assert (S5 : exists v, match BoundaryDict.is_sun_striked_outside b with Some true => bind (key (BoundaryDict.direction b)) (fun d => Ok (Some d)) | _ => Ok None end = Ok v).
{ destruct (BoundaryDict.is_sun_striked_outside b) as [[|]|] eqn:Es; [|eauto|eauto].
  destruct (is_external t) eqn:Et.
  - destruct (X eq_refl) as [_ [sun [S' Cs]]]; rewrite Es in S'; injection S' as <-; destruct (Cs eq_refl) as [[d [-> _]] _]; cbn; eauto.
  - exfalso; destruct C as [[_ [N _]]|[[_ [N _]]|[[-> _]|[[-> _]|[-> _]]]]]; try discriminate Et; congruence. }
destruct S5 as [v5 ->]; cbn [bind]; rewrite Hri; cbn [key of_option bind].
destruct (Req_EM_T ri 0) as [|_]; [contradiction|]; rewrite Hhc; cbn [key of_option bind].
rewrite Hs; cbn [bind]; rewrite Ho; cbn [bind]; rewrite Hth; cbn [bind]; rewrite Htr; cbn [bind]; rewrite Hq; cbn [bind].
eexists; split; [reflexivity|split; assumption].
Qed.

Lemma spec_total ws b bs : complete_boundary b -> get_boundary_simple ws b = Ok bs -> exists s, get_boundary_spec b (bs_type bs) = Ok s.
Proof.
intros C H; destruct (simple_fields _ _ _ H) as [_ [_ [_ [_ [_ [_ [t [T [Ty _]]]]]]]]].
destruct C as [_ [_ [_ [_ [_ [_ [_ [[ri [Hri _]] [_ [t' [T' C]]]]]]]]]]]; rewrite T in T'; injection T' as <-.
destruct C as [[-> C]|[[-> C]|[[-> C]|[[-> C]|[-> C]]]]]; cbn in Ty; injection Ty as <-; unfold get_boundary_spec.
- destruct C as [_ [_ [_ [[l ->] [r ->]]]]]; cbn; eauto.
- destruct C as [_ [l ->]]; cbn; eauto.
- destruct C as [_ [[l ->] [r ->]]]; cbn; eauto.
- destruct C as [_ [u ->]]; rewrite Hri; cbn; eauto.
- destruct C as [_ [u ->]]; rewrite Hri; cbn; eauto.
Qed.

Lemma k_inside_total ws round1 b bs : get_boundary_simple ws b = Ok bs -> exists k, k_inside round1 bs = Ok k.
Proof.
intro H; destruct (simple_fields _ _ _ H) as [_ [_ [_ [_ [_ [_ [t [T [Ty [_ Re]]]]]]]]]].
unfold k_inside; apply boundary_type_ok in Ty; destruct (bs_type bs); subst t; try (destruct (Rlt_dec (bs_h_td bs) 1); eauto; fail); eauto.
cbn in Re; destruct Re as [_ [k ->]]; eauto.
Qed.

(* sums of rows *)
Lemma add_series_ok a b c : add_series a b = Ok c -> List.length a = List.length b /\ List.length c = List.length a /\
  forall t, nth t c None = obind (nth t a None) (fun x => obind (nth t b None) (fun y => Some (x + y))).
Proof.
unfold add_series; destruct (Nat.eqb_spec (List.length a) (List.length b)) as [E|]; [|discriminate].
intro H; injection H as <-; split; [exact E|split; [rewrite map_length, combine_length; lia|]].
intro t; revert b E t; induction a as [|x a IH]; intros [|y b] E [|t]; simpl in *; try reflexivity; try discriminate.
apply IH; lia.
Qed.

Lemma add_series_total a b : List.length a = List.length b -> exists c, add_series a b = Ok c /\ List.length c = List.length a.
Proof. intro E; unfold add_series; rewrite (proj2 (Nat.eqb_eq _ _) E); eexists; split; [reflexivity|rewrite map_length, combine_length; lia]. Qed.

Lemma fold_series_total l n : forall a, (forall x, In x l -> List.length x = n) -> List.length a = n -> exists s, foldM add_series l a = Ok s /\ List.length s = n.
Proof.
induction l as [|x l IH]; intros a H L; simpl; [eauto|].
destruct (add_series_total a x) as [c [-> Lc]]; [rewrite L; symmetry; apply H; left; reflexivity|].
cbn [bind]; apply IH; [intros y I; apply H; right; exact I|congruence].
Qed.

Lemma sum_series_total l n : l <> [] -> (forall x, In x l -> List.length x = n) -> exists s, sum_series l = Ok s /\ List.length s = n.
Proof.
destruct l as [|a l]; intros N H; [congruence|]; cbn [sum_series].
apply fold_series_total; [intros x I; apply H; right; exact I|apply H; left; reflexivity].
Qed.

Lemma per_room_total bss rs (f : Z -> list R -> list bool -> res (list (option R))) :
  (forall i, In i rs -> exists v, let l := select (map (fun bs => (bs_connected_room_id bs =? i)%Z) bss) bss in f i (map bs_area l) (map bs_is_floor l) = Ok v) ->
  exists out, per_room bss rs f = Ok out.
Proof.
unfold per_room; generalize (repeat (Some 0) (List.length bss)); induction rs as [|i rs IH]; intros acc H; simpl; [eauto|].
destruct (H i) as [v V]; [left; reflexivity|]; cbv zeta in V; rewrite V; cbn [bind]; apply IH; intros j I; apply H; right; exact I.
Qed.

Lemma select_self A (P : A -> bool) l : select (map P l) l = filter P l.
Proof. induction l as [|x l IH]; simpl; [reflexivity|]; destruct (P x); rewrite IH; reflexivity. Qed.

Lemma rectangular_total A (l : list (list A)) n : (forall x, In x l -> List.length x = n) -> rectangular l = Ok l.
Proof.
destruct l as [|a l]; intro H; [reflexivity|]; unfold rectangular.
replace (forallb _ l) with true; [reflexivity|]; symmetry; apply forallb_forall; intros x I; apply Nat.eqb_eq.
rewrite (H a), (H x); [reflexivity|right; exact I|left; reflexivity].
Qed.

Lemma schedules_total tbl cal n rooms a : (forall room type, complete tbl room type) -> List.length cal = 365%nat -> 1 <= n <= 4 ->
  rooms <> [] -> List.length a = List.length rooms -> exists c, get_compiled_schedules tbl cal n rooms a = Ok c.
Proof.
intros C L N E La.
assert (G : forall t, exists r, room_schedules tbl n cal t rooms = Ok r).
{ intro t; apply mapM_total; intros x _; apply get_schedule_total; [apply C|exact L|exact N]. }
unfold get_compiled_schedules; destruct rooms as [|r rooms]; [congruence|].
destruct (G "local_vent_amount"%string) as [? H1]; destruct (G "heat_generation_appliances"%string) as [? H2].
destruct (G "vapor_generation_cooking"%string) as [? H3]; destruct (G "heat_generation_cooking"%string) as [? H4].
destruct (G "heat_generation_lighting"%string) as [? H5]; destruct (G "number_of_people"%string) as [? H6].
destruct (G "is_temp_limit_set"%string) as [? H7]; cbn [List.length Nat.eqb].
rewrite H1, H2, H3, H4, H5, H6, H7; cbn [bind].
cbn [List.length] in La; rewrite (proj2 (Nat.eqb_eq _ _) La); cbn [negb]; eauto.
Qed.

Lemma residents_range x : 1 <= get_total_number_of_residents x <= 4.
Proof. unfold get_total_number_of_residents; destruct (Rlt_dec x 30); [lra|]; destruct (Rlt_dec x 120); lra. Qed.

Lemma in_ids ids n : List.length ids = n -> ids = map Z.of_nat (seq 0 (List.length ids)) -> forall i, (0 <= i < Z.of_nat n)%Z -> In i ids.
Proof.
intros L -> i H; apply in_map_iff; exists (Z.to_nat i); split; [apply Z2Nat.id; lia|]; apply in_seq; rewrite L; lia.
Qed.

Lemma building_total b : complete_building b -> exists r, make_building_dict b = Ok r.
Proof.
intros [S [[c C] P]]; unfold make_building_dict.
assert (G : exists s, story b = Some s /\ ((s =? 1)%Z || (s =? 2)%Z) = true) by (destruct S as [S|S]; eauto).
destruct G as [s [-> G]]; cbn [key of_option bind]; rewrite G; cbn; rewrite C; cbn; destruct P as [->|[->| ->]]; cbn; eauto.
Qed.

Lemma boundaries_total round1 ws bss rooms bds :
  mapM (get_boundary_simple ws) bds = Ok bss -> Forall complete_boundary bds ->
  (forall r, In r rooms -> exists e t, r_heating r = Some e /\ e_type e = Some t) ->
  (forall i, (0 <= i < Z.of_nat (List.length rooms))%Z -> exists b, In b bds /\ BoundaryDict.connected_room_id b = Some i) ->
  exists out, make_boundaries round1 bss rooms bds = Ok out.
Proof.
intros M C Hr Hb; assert (F := mapM_forall2 _ _ _ _ _ M); unfold make_boundaries.
assert (From : forall bs, In bs bss -> exists b, In b bds /\ get_boundary_simple ws b = Ok bs).
{ intros bs I; clear -F I; induction F as [|b s bds bss E F IH]; [destruct I|]; destruct I as [<-|I]; [exists b; split; [left; reflexivity|exact E]|].
  destruct (IH I) as [x [X Y]]; exists x; split; [right; exact X|exact Y]. }
assert (To : forall b, In b bds -> exists bs, In bs bss /\ get_boundary_simple ws b = Ok bs).
{ intros b I; apply In_nth_error in I; destruct I as [j J]; destruct (simple_of _ _ _ _ _ M J) as [bs [E G]]; exists bs; split; [apply (nth_error_In _ _ E)|exact G]. }
destruct (mapM_total _ _ (k_inside round1) bss) as [kei K].
{ intros bs I; destruct (From bs I) as [b [_ E]]; apply (k_inside_total _ _ _ _ E). }
rewrite K; cbn [bind].
assert (NE : forall i, In i (range 0 (Z.of_nat (List.length rooms))) ->
  Nat.eqb (List.length (map bs_area (filter (fun bs => (bs_connected_room_id bs =? i)%Z) bss))) 0 = false).
{ intros i I; apply in_range in I; destruct (Hb i ltac:(lia)) as [b [Ib Cb]]; destruct (To b Ib) as [bs [Is Es]].
  destruct (simple_fields _ _ _ Es) as [_ [E _]]; rewrite Cb in E; injection E as E.
  rewrite map_length; apply Nat.eqb_neq; intro Z; apply length_zero_iff_nil in Z.
  assert (J : In bs (filter (fun bs => (bs_connected_room_id bs =? i)%Z) bss)) by (apply filter_In; split; [exact Is|apply Z.eqb_eq; congruence]).
  rewrite Z in J; destruct J. }
destruct (per_room_total bss (range 0 (Z.of_nat (List.length rooms))) (fun _ a fl => get_f_mrt_hum_is a fl)) as [fm Fm].
{ intros i I; cbv zeta; rewrite select_self; unfold get_f_mrt_hum_is; rewrite (NE i I); eauto. }
rewrite Fm; cbn [bind].
destruct (mapM_total _ _ is_radiative rooms) as [rad Rad].
{ intros r I; destruct (Hr r I) as [e [t [E T]]]; unfold is_radiative; rewrite E; cbn; rewrite T; cbn; eauto. }
rewrite Rad; cbn [bind].
destruct (per_room_total bss (range 0 (Z.of_nat (List.length rooms))) (fun i a fl => bind (py_get rad i) (fun r => get_flr_i_js a r fl))) as [fr Fr].
{ intros i I; cbv zeta; rewrite select_self.
  assert (P : exists x, py_get rad i = Ok x).
  { assert (H := proj1 (in_range _ _ _) I); rewrite <- (Z2Nat.id i) by lia; assert (Lr := mapM_length _ _ _ _ _ Rad); rewrite py_get_nat by lia.
    destruct (nth_error rad (Z.to_nat i)) eqn:E; [cbn; eauto|]; apply nth_error_None in E; lia. }
  destruct P as [x ->]; cbn [bind]; unfold get_flr_i_js; rewrite (NE i I); eauto. }
rewrite Fr; cbn [bind].
assert (L := mapM_length _ _ _ _ _ M).
destruct (mapM_total _ _ (fun p => get_boundary_spec (fst p) (bs_type (snd p))) (combine bds bss)) as [sp Sp].
{ intros [b bs] I; assert (Cb := proj1 (Forall_forall _ _) C b (in_combine_l _ _ _ _ I)); cbn [fst snd].
  assert (E : get_boundary_simple ws b = Ok bs).
  { clear -F I; induction F as [|x y bds bss E F IH]; [destruct I|]; destruct I as [I|I]; [injection I as <- <-; exact E|apply IH, I]. }
  apply (spec_total _ _ _ Cb E). }
rewrite Sp; cbn [bind].
assert (Lk := mapM_length _ _ _ _ _ K); assert (Ls := mapM_length _ _ _ _ _ Sp); rewrite combine_length in Ls.
destruct (per_room_ok _ _ mrt_size _ _ Fm) as [Lm _]; destruct (per_room_ok _ _ (flr_size rad) _ _ Fr) as [Lr _].
assert (Get : forall A (l : list A) i, List.length l = List.length bss -> In i (range 0 (Z.of_nat (List.length bss))) -> exists x, py_get l i = Ok x).
{ intros A l i E I; apply in_range in I; rewrite <- (Z2Nat.id i) by lia; rewrite py_get_nat by lia.
  destruct (nth_error l (Z.to_nat i)) eqn:Q; [cbn; eauto|]; apply nth_error_None in Q; lia. }
apply mapM_total; intros i I.
destruct (Get _ bss i eq_refl I) as [x1 ->]; destruct (Get _ fr i Lr I) as [x2 ->]; destruct (Get _ fm i Lm I) as [x3 ->].
destruct (Get _ kei i Lk I) as [x4 ->]; destruct (Get _ sp i ltac:(lia) I) as [x5 ->]; cbn [bind]; eauto.
Qed.

Lemma equipment_type e : complete_equipment e -> exists t, e_type e = Some t.
Proof. intros [H|[[H _]|[H _]]]; eauto. Qed.

Lemma house_total round1 tbl cal ws d : (forall room type, complete tbl room type) -> List.length cal = 365%nat -> List.length ws = year ->
  complete_house d -> exists m, make_house round1 tbl cal ws d = Ok m.
Proof.
intros Ct Lc Lw [rooms [bds [bd [ids [types [Hr [Hb [Hd [Hi [Ht [V [Cr [Fa [Cb [Bd NE]]]]]]]]]]]]]]].
assert (Lid : List.length ids = List.length rooms) by (rewrite <- (map_length Some ids), <- Hi, map_length; reflexivity).
assert (NE' : forall i, (0 <= i < Z.of_nat (List.length rooms))%Z -> exists b, In b bds /\ BoundaryDict.connected_room_id b = Some i).
{ intros i I; apply NE, (in_ids ids _ Lid); [apply V|exact I]. }
unfold make_house; rewrite Hr, Hb, Hd; cbn [key of_option bind].
destruct (mapM_given _ _ r_name rooms) as [names Nm].
{ intros r I; assert (X := proj1 (Forall_forall _ _) Cr r I); apply X. }
rewrite Nm; cbn [bind].
destruct (mapM_total _ _ (get_boundary_simple ws) bds) as [bss B].
{ intros b I; destruct (boundary_total ws b Lw (proj1 (Forall_forall _ _) Cb b I)) as [bs [E _]]; eauto. }
rewrite B; cbn [bind].
assert (Len : forall bs, In bs bss -> List.length (bs_q_trs_sol bs) = year /\ List.length (bs_theta_o_sol bs) = year).
{ intros bs I; apply In_nth_error in I; destruct I as [j J].
  assert (F := mapM_forall2 _ _ _ _ _ B).
  assert (Lj := mapM_length _ _ _ _ _ B).
  destruct (nth_error bds j) as [b|] eqn:Eb.
  - destruct (simple_of _ _ _ _ _ B Eb) as [bs' [J' E']]; rewrite J in J'; injection J' as <-.
    destruct (boundary_total ws b Lw (proj1 (Forall_forall _ _) Cb b (nth_error_In _ _ Eb))) as [bs2 [E2 P]]; rewrite E' in E2; injection E2 as <-; exact P.
  - apply nth_error_None in Eb; assert (j < List.length bss)%nat by (apply nth_error_Some; congruence); lia. }
set (col := fun i => sum_series (map bs_q_trs_sol (filter (fun bs => (bs_connected_room_id bs =? i)%Z) bss))).
assert (Q : forall i, In i (range 0 (Z.of_nat (List.length rooms))) -> exists s, col i = Ok s /\ List.length s = year).
{ intros i I; apply sum_series_total.
  - apply in_range in I; destruct (NE' i ltac:(lia)) as [b [Ib Eb]]; apply In_nth_error in Ib; destruct Ib as [j J].
    destruct (simple_of _ _ _ _ _ B J) as [bs [J' E']]; destruct (simple_fields _ _ _ E') as [_ [E _]]; rewrite Eb in E; injection E as E.
    intro Z; apply map_eq_nil in Z; assert (K : In bs (filter (fun bs => (bs_connected_room_id bs =? i)%Z) bss))
      by (apply filter_In; split; [apply (nth_error_In _ _ J')|apply Z.eqb_eq; congruence]); rewrite Z in K; destruct K.
  - intros x I'; apply in_map_iff in I'; destruct I' as [bs [<- I']]; apply filter_In in I'; apply Len, I'. }
destruct (mapM_total _ _ col (range 0 (Z.of_nat (List.length rooms)))) as [q Hq].
{ intros i I; destruct (Q i I) as [s [E _]]; eauto. }
rewrite Hq; cbn [bind].
destruct (mapM_given _ _ r_floor_area rooms Fa) as [a A]; rewrite A; cbn [bind].
destruct (schedules_total tbl cal (get_total_number_of_residents (sum a)) names a Ct Lc (residents_range _)) as [sch S].
{ assert (L := mapM_length _ _ _ _ _ Nm); intro Z; subst names; simpl in L.
  destruct rooms; [|discriminate L]; simpl in Ht; destruct types; [|discriminate Ht]; destruct V as [_ [_ [V _]]]; discriminate V. }
{ rewrite (mapM_length _ _ _ _ _ A), (mapM_length _ _ _ _ _ Nm); reflexivity. }
rewrite S; cbn [bind].
destruct (building_total bd Bd) as [bld ->]; cbn [bind].
destruct (proj2 (proj1 (rooms_accepted rooms ids types Hi Ht Cr)) V) as [ss ->]; cbn [bind].
destruct (boundaries_total round1 ws bss rooms bds B Cb) as [out ->]; [|exact NE'|].
{ intros r I; assert (X := proj1 (Forall_forall _ _) Cr r I); destruct X as [_ [_ [_ [_ [_ [_ [_ [[e [E Ce]] _]]]]]]]].
  destruct (equipment_type e Ce) as [t T]; eauto. }
cbn [bind].
rewrite (rectangular_total _ q year); [|].
2:{ intros x I; apply In_nth_error in I; destruct I as [j J]; apply (mapM_ok _ _ col _ q) in Hq; destruct Hq as [Lq Hq].
    destruct (nth_error (range 0 (Z.of_nat (List.length rooms))) j) as [i|] eqn:Ej.
    - destruct (Hq j i Ej) as [y [Ey Jy]]; rewrite J in Jy; injection Jy as <-; destruct (Q i (nth_error_In _ _ Ej)) as [s [Es Ls]]; rewrite Ey in Es; injection Es as <-; exact Ls.
    - apply nth_error_None in Ej; assert (j < List.length q)%nat by (apply nth_error_Some; congruence); lia. }
cbn [bind]; rewrite (rectangular_total _ (map bs_theta_o_sol bss) year).
2:{ intros x I; apply in_map_iff in I; destruct I as [bs [<- I]]; apply Len, I. }
cbn [bind]; eauto.
Qed.
