From Coq Require Import Reals List String Bool Lra Lia.
From Verif Require Import Model.Py Model.EesHouse Model.EesLayers Spec.EnvelopeSpec Spec.LayersSpec
  Lemmas.PyL Lemmas.Lv3L Lemmas.CheckUaL Lemmas.PartSpecL.
Import ListNotations.
Local Open Scope R_scope.

Lemma sum_cons x l : sum (x :: l) = x + sum l. Proof. reflexivity. Qed.

(* four passes over the same list *)
Section Passes.
Variables (A B C : Type) (f1 : A -> res B) (g : B -> B) (f2 : B -> res B) (f3 : A * B -> res B) (f4 : A * B -> res C).
Definition passes (ps : list A) : res (list C) :=
  bind (mapM f1 ps) (fun us => bind (mapM f2 (map g us)) (fun rs => bind (mapM f3 (combine ps rs)) (fun ss => mapM f4 (combine ps ss)))).
Definition pass (p : A) (q : C) : Prop := exists u r s, f1 p = Ok u /\ f2 (g u) = Ok r /\ f3 (p, r) = Ok s /\ f4 (p, s) = Ok q.

Lemma passes_inv ps : forall qs, passes ps = Ok qs -> Forall2 pass ps qs.
Proof.
induction ps as [|p ps IH]; unfold passes; simpl; intros qs E; [apply ok_inj in E; subst; constructor|].
destruct (f1 p) as [u|] eqn:E1; cbn [bind] in E; [|discriminate].
unfold passes in IH; destruct (mapM f1 ps) as [us|]; cbn [bind map mapM] in E; [|discriminate].
destruct (f2 (g u)) as [r|] eqn:E2; cbn [bind] in E; [|discriminate].
cbn [bind] in IH; destruct (mapM f2 (map g us)) as [rs|]; cbn [bind map mapM combine] in E; [|discriminate].
destruct (f3 (p, r)) as [s|] eqn:E3; cbn [bind] in E; [|discriminate].
cbn [bind] in IH; destruct (mapM f3 (combine ps rs)) as [ss|]; cbn [bind map mapM combine] in E; [|discriminate].
destruct (f4 (p, s)) as [q|] eqn:E4; cbn [bind] in E; [|discriminate].
cbn [bind] in IH; destruct (mapM f4 (combine ps ss)) as [qs'|]; cbn [bind] in E; [|discriminate].
apply ok_inj in E; subst qs; constructor; [exists u, r, s; auto|apply IH; reflexivity].
Qed.

Lemma passes_ok ps qs : Forall2 pass ps qs -> passes ps = Ok qs.
Proof.
induction 1 as [|p q ps qs (u & r & s & E1 & E2 & E3 & E4) F IH]; [reflexivity|].
unfold passes in *; simpl; rewrite E1; cbn [bind].
destruct (mapM f1 ps) as [us|]; cbn [bind map mapM] in *; [|discriminate]; rewrite E2; cbn [bind].
destruct (mapM f2 (map g us)) as [rs|]; cbn [bind map mapM combine] in *; [|discriminate]; rewrite E3; cbn [bind].
destruct (mapM f3 (combine ps rs)) as [ss|]; cbn [bind map mapM combine] in *; [|discriminate]; rewrite E4; cbn [bind].
rewrite IH; reflexivity.
Qed.
End Passes.

Lemma detail_passes name area u_add d : detail_init name area u_add d =
  passes _ _ _ (fun p => bind (get_r_total p) (fun r => fdiv 1 (s_r_in d + r + s_r_ex d))) (fun u => u + u_add)
    (fun u => bind (fdiv 1 u) (fun r => Ok (r - s_r_in d - s_r_ex d)))
    (fun pr => bind (get_r_total (fst pr)) (fun r => fdiv (snd pr) r)) (part_init name area (s_r_in d) (s_r_ex d)) (s_parts d).
Proof. reflexivity. Qed.

Lemma layer_r_inv l r : layer_r l = Ok r -> r = resistance_of l.
Proof.
unfold layer_r, resistance_of; destruct (l_method l); intro E; [apply fdiv_inv in E; apply E|apply ok_inj in E; auto].
Qed.

Lemma layer_r_ok l : computable l -> layer_r l = Ok (resistance_of l).
Proof.
unfold computable, layer_r, resistance_of; destruct (l_method l); intro H; [rewrite fdiv_ok by auto|]; reflexivity.
Qed.

Lemma total_inv p r : get_r_total p = Ok r -> r = resistance p.
Proof.
unfold get_r_total, resistance; generalize (p_layers p); intro ls; revert r; induction ls as [|l ls IH]; intro r; [intro E; apply ok_inj in E; symmetry; exact E|].
rewrite sumM_cons; destruct (layer_r l) as [x|] eqn:El; cbn [bind]; [|discriminate]; destruct (sumM layer_r ls) as [y|]; cbn [bind]; [|discriminate].
intro E; apply ok_inj in E; subst r; cbn [map]; rewrite sum_cons, (layer_r_inv _ _ El), (IH y eq_refl); reflexivity.
Qed.

Lemma total_ok p : (forall l, In l (p_layers p) -> computable l) -> get_r_total p = Ok (resistance p).
Proof.
intro H; unfold get_r_total, resistance; apply sumM_ok; intros l I; apply layer_r_ok; auto.
Qed.

Lemma layers_init k ls qs : mapM (layer_init k) ls = Ok qs ->
  Forall2 (fun l w => il_name w = l_name l /\ il_r w = k * resistance_of l /\ il_c w = capacity_of l) ls qs /\
  sum (map il_r qs) = k * sum (map resistance_of ls).
Proof.
revert qs; induction ls as [|l ls IH]; simpl; intros qs E; [apply ok_inj in E; subst; split; [constructor|unfold sum; simpl; ring]|].
unfold layer_init in E at 1; destruct (layer_r l) as [r|] eqn:El; cbn [bind] in E; [|discriminate].
destruct (mapM (layer_init k) ls) as [qs'|]; cbn [bind] in E; [|discriminate]; apply ok_inj in E; subst qs.
destruct (IH _ eq_refl) as (F & S0); apply layer_r_inv in El; subst r; split.
- constructor; [simpl; split; [reflexivity|]; split; [ring|reflexivity]|exact F].
- cbn [map]; rewrite !sum_cons, S0; simpl; ring.
Qed.

Lemma detail_written name area u_add d ps : detail_init name area u_add d = Ok ps -> Forall2 (written_as d name area u_add) (s_parts d) ps.
Proof.
rewrite detail_passes; intro E; apply passes_inv in E; induction E as [|p q l l' H F IH]; constructor; [|exact IH].
destruct H as (u & r & s & E1 & E2 & E3 & E4); cbn [fst snd] in *.
apply bind_ok in E1; destruct E1 as (x & Ex & E1); apply total_inv in Ex; subst x; apply fdiv_inv in E1; destruct E1 as (N1 & E1).
apply bind_ok in E2; destruct E2 as (y & Ey & E2); apply fdiv_inv in Ey; destruct Ey as (N2 & Ey); apply ok_inj in E2.
apply bind_ok in E3; destruct E3 as (x & Ex & E3); apply total_inv in Ex; subst x; apply fdiv_inv in E3; destruct E3 as (N3 & E3).
unfold part_init in E4; cbn [fst snd] in E4; apply bind_ok in E4; destruct E4 as (ls & El & E4); apply ok_inj in E4.
destruct (layers_init _ _ _ El) as (F' & S0).
assert (Wr : written_r q = r).
{ subst q; unfold written_r; simpl; rewrite S0; fold (resistance p); subst s; field; exact N3. }
unfold written_as, u_of; change (u = 1 / (s_r_in d + resistance p + s_r_ex d)) in E1; rewrite <- E1.
rewrite Wr; subst q; cbn; repeat (split; [reflexivity|]); split; [exists s; exact F'|].
split; [|subst r; rewrite Ey; reflexivity].
unfold written_u, u_of in *; cbn in *; unfold written_r in *; cbn in *; rewrite Wr, <- E2, Ey; field; split; [exact N2|].
replace (s_r_in d * (u + u_add) + (1 - s_r_in d * (u + u_add) - s_r_ex d * (u + u_add)) + s_r_ex d * (u + u_add)) with 1 by ring; lra.
Qed.

Lemma detail_total name area u_add d : 0 <= s_r_in d -> 0 <= s_r_ex d -> 0 <= u_add ->
  (forall p, In p (s_parts d) -> insulating p) ->
  exists ps, detail_init name area u_add d = Ok ps.
Proof.
intros R1 R2 A H; cut (exists ps, Forall2 (pass _ _ _ (fun p => bind (get_r_total p) (fun r => fdiv 1 (s_r_in d + r + s_r_ex d))) (fun u => u + u_add)
    (fun u => bind (fdiv 1 u) (fun r => Ok (r - s_r_in d - s_r_ex d)))
    (fun pr => bind (get_r_total (fst pr)) (fun r => fdiv (snd pr) r)) (part_init name area (s_r_in d) (s_r_ex d))) (s_parts d) ps).
{ intros (ps & F); exists ps; rewrite detail_passes; apply passes_ok; exact F. }
induction (s_parts d) as [|p l IH]; [exists []; constructor|].
destruct IH as (ps & F); [intros p' I; apply H; right; exact I|].
destruct (H p (or_introl eq_refl)) as (L & P); assert (E := total_ok p L).
assert (U : 0 < 1 / (s_r_in d + resistance p + s_r_ex d)) by (apply Rdiv_lt_0_compat; lra).
set (r := 1 / (1 / (s_r_in d + resistance p + s_r_ex d) + u_add) - s_r_in d - s_r_ex d).
destruct (mapM_total _ _ (layer_init (r / resistance p)) (p_layers p)) as (ls & El).
{ intros x I; unfold layer_init; rewrite (layer_r_ok x (L x I)); simpl; eauto. }
eexists (_ :: ps); constructor; [|exact F].
exists (1 / (s_r_in d + resistance p + s_r_ex d)), r, (r / resistance p).
rewrite E; cbn [bind fst]; split; [apply fdiv_ok; lra|]; split; [rewrite fdiv_ok by lra; reflexivity|]; split; [rewrite E; apply fdiv_ok; lra|].
unfold part_init; cbn [fst snd]; rewrite El; reflexivity.
Qed.

(* total loss *)
Lemma loss_forall2 d name area u_add l ps : Forall2 (written_as d name area u_add) l ps ->
  written_loss ps = area * (sum (map (fun p => p_ratio p * u_of (s_r_in d) (resistance p) (s_r_ex d)) l) + u_add * sum (map p_ratio l)).
Proof.
unfold written_loss; induction 1 as [|p q l ps H F IH]; cbn [map]; [unfold sum; simpl; ring|].
rewrite !sum_cons, IH; destruct H as (_ & A & _ & _ & _ & U & _); rewrite A, U; ring.
Qed.

Lemma u_general d u : get_u_general_part d = Ok u -> u = sum (map (fun p => p_ratio p * u_of (s_r_in d) (resistance p) (s_r_ex d)) (s_parts d)).
Proof.
unfold get_u_general_part; revert u; induction (s_parts d) as [|p l IH]; intros u; [intro E; apply ok_inj in E; symmetry; exact E|].
rewrite sumM_cons; intro E; apply bind_ok in E; destruct E as (x & Ex & E); apply bind_ok in E; destruct E as (y & Ey & E); apply ok_inj in E.
apply bind_ok in Ex; destruct Ex as (z & Ez & Ex); apply total_inv in Ez; subst z; apply fdiv_inv in Ex; destruct Ex as (N & Ex).
cbn [map]; rewrite sum_cons, <- (IH _ Ey), <- E, Ex; unfold u_of; field; exact N.
Qed.

Lemma u_general_ok d : 0 <= s_r_in d -> 0 <= s_r_ex d ->
  (forall p, In p (s_parts d) -> insulating p) -> exists u, get_u_general_part d = Ok u.
Proof.
intros R1 R2 H; unfold get_u_general_part; eexists; apply (sumM_ok _ _ (fun p => p_ratio p / (s_r_in d + resistance p + s_r_ex d))).
intros p I; destruct (H p I) as (L & P); rewrite (total_ok p L); cbn [bind]; apply fdiv_ok; lra.
Qed.

(* a given U value *)
Definition as_board (l : layer) : board :=
  {| bo_name := l_name l; bo_thickness := l_thickness l; bo_conductivity := l_conductivity l; bo_heat := l_specific_heat l |}.

Lemma surfaces t : r_srf_in t = surface_in t /\ r_srf_ex t = surface_ex t.
Proof. destruct t; split; reflexivity. Qed.

Lemma surface_pos t : 0 < surface_in t /\ 0 < surface_ex t.
Proof. destruct t; simpl; lra. Qed.

Lemma bare_pos t heavy : 0 < sum (map board_r (room_side t heavy ++ far_side t heavy)).
Proof. destruct t, heavy; unfold sum, board_r; simpl; lra. Qed.

Lemma u_value_layers t u heavy : 0 < u ->
  exists d p e, u_value_detail t u (weight heavy) = Ok d /\ s_parts d = [p] /\ p_name p = "sole_part"%string /\ p_ratio p = 1 /\
    s_r_in d = surface_in t /\ s_r_ex d = surface_ex t /\ 0 <= e /\
    (forall l, In l (p_layers p) -> l_method l = CONDUCTIVITY) /\
    map as_board (p_layers p) = room_side t heavy ++ insulation e :: far_side t heavy /\
    insulating p /\ u_of (surface_in t) (resistance p) (surface_ex t) = Rmin u (bare_u t heavy).
Proof.
intro U; set (o := sum (map board_r (room_side t heavy ++ far_side t heavy))).
assert (O : 0 < o) by apply bare_pos.
destruct (surface_pos t) as (S1 & S2), (surfaces t) as (T1 & T2).
set (e := Rmax (1 / u - surface_ex t - o - surface_in t) 0 * (45 / 1000)).
assert (E0 : 0 <= e) by (unfold e; assert (H := Rmax_r (1 / u - surface_ex t - o - surface_in t) 0); lra).
assert (D : exists d p, u_value_detail t u (weight heavy) = Ok d /\ s_parts d = [p] /\ p_name p = "sole_part"%string /\ p_ratio p = 1 /\
  s_r_in d = surface_in t /\ s_r_ex d = surface_ex t /\ (forall l, In l (p_layers p) -> l_method l = CONDUCTIVITY) /\
    map as_board (p_layers p) = room_side t heavy ++ insulation e :: far_side t heavy).
{ unfold u_value_detail.
  assert (Q : exists ls, default_layers t (weight heavy) = Ok ls /\ sumM layer_r (only_layers ls) = Ok o /\
    forall e, map as_board (map (fun d => match d with DLayer l => l | DInsulation => insulation_of e end) ls) = room_side t heavy ++ insulation e :: far_side t heavy /\
      forall l, In l (map (fun d => match d with DLayer l => l | DInsulation => insulation_of e end) ls) -> l_method l = CONDUCTIVITY).
  { unfold o; destruct t, heavy; eexists; (split; [reflexivity|]); (split; [erewrite (sumM_ok _ _ resistance_of); [|intros l I; apply layer_r_ok; intro; simpl in I; decompose [or] I; subst; simpl; solve [lra|contradiction]]; unfold sum; simpl; unfold board_r, resistance_of; simpl; f_equal; ring|]);
    (intro e0; split; [reflexivity|simpl; intros l I; decompose [or] I; subst; solve [reflexivity|contradiction]]). }
  destruct Q as (ls & -> & E & F); cbn [bind]; rewrite E; cbn [bind]; rewrite fdiv_ok by lra; cbn [bind].
  eexists _, _; split; [reflexivity|]; cbn [s_parts s_r_in s_r_ex p_name p_ratio p_layers].
  rewrite T1, T2; fold e; destruct (F e) as (F1 & F2); repeat (split; [reflexivity|]); split; assumption. }
destruct D as (d & p & D1 & D2 & D3 & D4 & D5 & D6 & D7 & D8); exists d, p, e; repeat (split; [assumption|]).
assert (RP : resistance p = o + Rmax (1 / u - surface_ex t - o - surface_in t) 0).
{ unfold resistance; rewrite (sum_map_ext _ _ (fun l => board_r (as_board l))).
  - rewrite <- map_map, D8, map_app; cbn [map]; rewrite sum_app, sum_cons.
    assert (O' : o = sum (map board_r (room_side t heavy)) + sum (map board_r (far_side t heavy))) by (unfold o; rewrite map_app, sum_app; reflexivity).
    replace (board_r (insulation e)) with (Rmax (1 / u - surface_ex t - o - surface_in t) 0) by (unfold board_r, e; simpl; field); lra.
  - intros l I; unfold resistance_of; rewrite (D7 l I); reflexivity. }
assert (G : 0 < resistance p) by (rewrite RP; assert (H := Rmax_r (1 / u - surface_ex t - o - surface_in t) 0); lra).
split.
- split; [|exact G]; intros l I _.
  assert (J : In (as_board l) (room_side t heavy ++ insulation e :: far_side t heavy)) by (rewrite <- D8; apply in_map; exact I).
  change (l_conductivity l) with (bo_conductivity (as_board l)); revert J; generalize (as_board l); clear.
  intros b; destruct t, heavy; simpl; intro J; decompose [or] J; subst; simpl; solve [lra|contradiction].
- unfold bare_u; fold o; unfold u_of; rewrite RP.
  assert (B : 0 < 1 / (surface_in t + o + surface_ex t)) by (apply Rdiv_lt_0_compat; lra).
  destruct (Rle_dec (1 / u) (surface_in t + o + surface_ex t)) as [L|L].
  + rewrite Rmax_right by lra; rewrite Rmin_right; [f_equal; ring|].
    unfold Rdiv; rewrite !Rmult_1_l; replace u with (/ (1 / u)) by (field; lra); apply Rinv_le_contravar; [apply Rdiv_lt_0_compat; lra|exact L].
  + rewrite Rmax_left by lra; rewrite Rmin_left; [replace (surface_in t + (o + (1 / u - surface_ex t - o - surface_in t)) + surface_ex t) with (1 / u) by ring; field; lra|].
    unfold Rdiv; rewrite Rmult_1_l; replace u with (/ (1 / u)) at 1 by (field; lra); apply Rinv_le_contravar; lra.
Qed.

Lemma detailed_init name area u_add s d : spec_detail s = Some d -> spec_init name area u_add s = detail_init name area (u_add + steel_bridges s) d.
Proof. destruct s as [d'|d'|u_r d'|t u w]; simpl; intro E; [| | |discriminate]; injection E as ->; [| |reflexivity]; f_equal; ring. Qed.

Lemma detailed_u s d u : spec_detail s = Some d -> spec_u s = Ok u ->
  u = sum (map (fun p => p_ratio p * u_of (s_r_in d) (resistance p) (s_r_ex d)) (s_parts d)) + steel_bridges s.
Proof.
destruct s as [d'|d'|u_r d'|t u' w]; simpl; intro E; [| | |discriminate]; injection E as ->; intro U.
- rewrite <- (u_general _ _ U); ring.
- rewrite <- (u_general _ _ U); ring.
- apply bind_ok in U; destruct U as (x & Ex & U); apply ok_inj in U; rewrite <- (u_general _ _ Ex); symmetry; exact U.
Qed.

Lemma detailed_loss name area u_add s d u ps : spec_detail s = Some d -> sum (map p_ratio (s_parts d)) = 1 ->
  spec_u s = Ok u -> spec_init name area u_add s = Ok ps -> written_loss ps = area * (u + u_add).
Proof.
intros D S1 U E; rewrite (detailed_init _ _ _ _ _ D) in E; apply detail_written in E; rewrite (loss_forall2 _ _ _ _ _ _ E), S1, (detailed_u _ _ _ D U); ring.
Qed.

Lemma scaled_sign p q k : (forall l, In l (p_layers p) -> 0 <= resistance_of l) -> 0 <= k ->
  Forall2 (fun l w => il_name w = l_name l /\ il_r w = k * resistance_of l /\ il_c w = capacity_of l) (p_layers p) (ip_layers q) ->
  forall w, In w (ip_layers q) -> 0 <= il_r w.
Proof.
intros H K; induction 1 as [|l w ls ws (_ & E & _) F IH]; intros v; simpl; [contradiction|intros [<- |I]].
- rewrite E; apply Rmult_le_pos; [exact K|apply H; left; reflexivity].
- apply IH; [intros l' I'; apply H; right; exact I'|exact I].
Qed.

Lemma scaled_sum p q k :
  Forall2 (fun l w => il_name w = l_name l /\ il_r w = k * resistance_of l /\ il_c w = capacity_of l) (p_layers p) (ip_layers q) ->
  written_r q = k * resistance p.
Proof.
unfold written_r, resistance; induction 1 as [|l w ls ws (_ & E & _) F IH]; cbn [map]; [unfold sum; simpl; ring|].
rewrite !sum_cons, IH, E; ring.
Qed.

Lemma written_nonneg d name area u_add p q : written_as d name area u_add p q ->
  (forall l, In l (p_layers p) -> 0 <= resistance_of l) -> 0 < resistance p ->
  0 < u_of (s_r_in d) (resistance p) (s_r_ex d) + u_add ->
  (u_of (s_r_in d) (resistance p) (s_r_ex d) + u_add) * (s_r_in d + s_r_ex d) <= 1 -> forall w, In w (ip_layers q) -> 0 <= il_r w.
Proof.
intros (_ & _ & _ & _ & (k & F) & _ & R0) H P U L; apply (scaled_sign p q k H); [|exact F].
rewrite (scaled_sum _ _ _ F) in R0; set (v := u_of _ _ _ + u_add) in *.
assert (Q : 0 <= k * resistance p).
{ rewrite R0; assert (V : 1 / v * v = 1) by (field; lra); assert (0 < 1 / v) by (apply Rdiv_lt_0_compat; lra); nra. }
nra.
Qed.

Lemma u_value_written name area u_add t heavy u : 0 < u -> 0 <= u_add ->
  exists q e k, spec_init name area u_add (SpecOther t u (weight heavy)) = Ok [q] /\
    ip_name q = (name ++ "_sole_part")%string /\ ip_area q = area /\ ip_r_in q = surface_in t /\ ip_r_ex q = surface_ex t /\
    written_u q = Rmin u (bare_u t heavy) + u_add /\ 0 <= e /\
    Forall2 (fun b w => il_name w = bo_name b /\ il_r w = k * board_r b /\ il_c w = bo_thickness b * bo_heat b)
      (room_side t heavy ++ insulation e :: far_side t heavy) (ip_layers q) /\ (u_add = 0 -> k = 1).
Proof.
intros U A; destruct (u_value_layers t u heavy U) as (d & p & e & D1 & D2 & D3 & D4 & D5 & D6 & E0 & D7 & D8 & I & UO).
destruct (surface_pos t) as (S1 & S2).
destruct (detail_total name area u_add d) as (ps & E); [lra|lra|exact A|rewrite D2; intros p' [<- |[]]; exact I|].
assert (F := detail_written _ _ _ _ _ E); rewrite D2 in F; inversion F as [|p' q l l' W F']; subst; inversion F'; subst.
destruct W as (W1 & W2 & W3 & W4 & (k & W5) & W6 & W7); exists q, e, k; unfold spec_init; rewrite D1; cbn [bind]; rewrite E.
rewrite D5, D6 in *; rewrite UO in W6; rewrite D4, Rmult_1_r in W2; rewrite D3 in W1; repeat (split; [first [reflexivity|assumption]|]); split.
- rewrite <- D8; clear - W5 D7; revert D7; induction W5 as [|l w ls ws (W1 & W2 & W3) F IH]; intro D7; constructor; [|apply IH; intros l' I'; apply D7; right; exact I'].
  split; [exact W1|]; split; [|exact W3]; rewrite W2; unfold resistance_of; rewrite (D7 l (or_introl eq_refl)); reflexivity.
- intro Z; subst u_add; rewrite (scaled_sum _ _ _ W5) in W7; destruct I as (_ & P); unfold u_of in W7; rewrite Rplus_0_r in W7.
  assert (Y : 1 / (1 / (surface_in t + resistance p + surface_ex t)) = surface_in t + resistance p + surface_ex t) by (field; lra).
  rewrite Y in W7; apply (Rmult_eq_reg_r (resistance p)); lra.
Qed.

Lemma forall2_at A B (P : A -> B -> Prop) l r : Forall2 P l r -> forall i x y, nth_error l i = Some x -> nth_error r i = Some y -> P x y.
Proof. induction 1 as [|a b l r H F IH]; intros [|i] x y; simpl; try discriminate; [intros [= ->] [= ->]; exact H|apply IH]. Qed.

Lemma layers_rejected name area u_add t :
  (forall heavy, spec_init name area u_add (SpecOther t 0 (weight heavy)) = Err ZeroDivisionError) /\
  (forall u w, w <> weight true -> w <> weight false -> spec_init name area u_add (SpecOther t u w) = Err KeyError) /\
  spec_init name area u_add (SpecWood {| s_r_in := surface_in t; s_r_ex := surface_ex t; s_parts := [{| p_name := ""; p_ratio := 1; p_layers := [] |}] |}) = Err ZeroDivisionError.
Proof.
assert (Z : forall x, fdiv x 0 = Err ZeroDivisionError) by (intro x; unfold fdiv; destruct (Req_EM_T 0 0) as [|N]; [reflexivity|destruct N; reflexivity]).
split; [|split].
- intro heavy; simpl; unfold u_value_detail.
  destruct (u_value_layers t 1 heavy) as (d & p & e & D & _); [lra|]; unfold u_value_detail in D.
  apply bind_ok in D; destruct D as (ls & -> & D); apply bind_ok in D; destruct D as (o & E & D); cbn [bind]; rewrite E; cbn [bind]; rewrite Z; reflexivity.
- intros u w N1 N2; simpl; unfold u_value_detail, default_layers.
  destruct (String.eqb_spec w "light") as [->|_]; [destruct N2; reflexivity|]; destruct (String.eqb_spec w "heavy") as [->|_]; [destruct N1; reflexivity|]; reflexivity.
- destruct (surface_pos t) as (S1 & S2); unfold spec_init, detail_init; cbn [s_parts s_r_in s_r_ex mapM combine map].
  change (get_r_total {| p_name := ""; p_ratio := 1; p_layers := [] |}) with (Ok 0); cbn [bind]; rewrite (fdiv_ok 1) by lra; cbn [bind mapM map].
  destruct (fdiv 1 (1 / (surface_in t + 0 + surface_ex t) + u_add)) as [x|e] eqn:E; cbn [bind combine mapM].
  + change (get_r_total (fst ({| p_name := ""; p_ratio := 1; p_layers := [] |}, x - surface_in t - surface_ex t))) with (Ok 0); cbn [bind]; rewrite Z; reflexivity.
  + unfold fdiv in E; destruct (Req_EM_T _ 0); [injection E as <-; reflexivity|discriminate].
Qed.

Lemma negative_resistance : exists s d ps q w, spec_detail s = Some d /\ 0 < s_r_in d /\ 0 < s_r_ex d /\ 0 < steel_bridges s /\
  (forall p, In p (s_parts d) -> 0 < p_ratio p /\ forall l, In l (p_layers p) -> 0 < l_thickness l /\ 0 < l_conductivity l /\ 0 < l_specific_heat l) /\
  spec_init "wall" 10 0 s = Ok ps /\ In q ps /\ In w (ip_layers q) /\ il_r w < 0.
Proof.
set (p := {| p_name := "board"; p_ratio := 1; p_layers := [made_of "plywood" (16 / 100) 720 (16 / 100)] |}).
set (d := {| s_r_in := 11 / 100; s_r_ex := 4 / 100; s_parts := [p] |}).
set (s := SpecSteel 9 d).
destruct (detail_total "wall" 10 (0 + 9) d) as (ps & E); [simpl; lra|simpl; lra|lra| |].
{ intros p' [<- |[]]; split; [intros l [<- |[]] _; simpl; lra|unfold resistance, sum, resistance_of; simpl; lra]. }
assert (F := detail_written _ _ _ _ _ E); change (s_parts d) with [p] in F; inversion F as [|p' q l l' W F']; subst; inversion F'; subst.
assert (RP : resistance p = 1) by (unfold resistance, sum, resistance_of; simpl; field).
destruct W as (_ & _ & _ & _ & (k & K) & _ & W); rewrite (scaled_sum _ _ _ K), RP in W.
change (p_layers p) with [made_of "plywood" (16 / 100) 720 (16 / 100)] in K; inversion K as [|a w l l' (_ & K2 & _) K']; subst; inversion K'; subst.
exists s, d, [q], q, w; split; [reflexivity|]; split; [simpl; lra|]; split; [simpl; lra|]; split; [simpl; lra|]; split.
{ intros p' [<- |[]]; split; [simpl; lra|intros x [<- |[]]; simpl; lra]. }
split; [exact E|]; split; [left; reflexivity|]; split; [rewrite <- H1; left; reflexivity|].
rewrite K2; unfold u_of in W; simpl in W; unfold resistance_of; simpl; lra.
Qed.
