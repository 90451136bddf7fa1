From Coq Require Import Reals List ZArith Lra Lia.
From Verif Require Import Model.Py Model.FactorH Model.FactorNu Model.FactorF Model.EesHouse Model.CheckUa Model.Lv3 Spec.EnvelopeSpec Lemmas.PyL Lemmas.VentL.
Import ListNotations.
Local Open Scope R_scope.

Lemma py_sum_app a b : py_sum (a ++ b) = py_sum a + py_sum b.
Proof. induction a as [|x a IH]; simpl; [ring|]; change (x + py_sum (a ++ b) = x + py_sum a + py_sum b); rewrite IH; ring. Qed.

Lemma mapM_app A B (f : A -> res B) a b : mapM f (a ++ b) = bind (mapM f a) (fun x => bind (mapM f b) (fun y => Ok (x ++ y))).
Proof.
induction a as [|x a IH]; simpl; [destruct (mapM f b); reflexivity|].
destruct (f x); simpl; [|reflexivity]; rewrite IH; destruct (mapM f a); simpl; [|reflexivity]; destruct (mapM f b); reflexivity.
Qed.

Lemma sumM_app A (f : A -> res R) a b : sumM f (a ++ b) = bind (sumM f a) (fun x => bind (sumM f b) (fun y => Ok (x + y))).
Proof.
unfold sumM; rewrite mapM_app; destruct (mapM f a); simpl; [|reflexivity]; destruct (mapM f b); simpl; [|reflexivity].
rewrite py_sum_app; reflexivity.
Qed.

Lemma sumM_cons A (f : A -> res R) x l : sumM f (x :: l) = bind (f x) (fun a => bind (sumM f l) (fun b => Ok (a + b))).
Proof. unfold sumM; simpl; destruct (f x); simpl; [|reflexivity]; destruct (mapM f l); reflexivity. Qed.

Lemma fdiv_ok a b : b <> 0 -> fdiv a b = Ok (a / b).
Proof. intro H; unfold fdiv; destruct (Req_EM_T b 0); [contradiction|reflexivity]. Qed.

Section split.
Variables (a_mr a_or a_total : R) (Ht : a_total <> 0).
Variables (A : Type) (size : A -> R) (share : A -> space_type -> R -> A).
Hypothesis size_share : forall x s a, size (share x s a) = a.

Definition shares (x : A) : list A :=
  [share x MAIN (a_mr / a_total * size x); share x OTHER (a_or / a_total * size x); share x NON ((a_total - a_mr - a_or) / a_total * size x)].

Lemma split_ok l : split size share a_mr a_or a_total l = Ok (List.concat (map shares l)).
Proof.
unfold split, get_separated.
assert (E : mapM (fun x => bind (bind (fdiv a_mr a_total) (fun r_mr => bind (fdiv a_or a_total) (fun r_or =>
      bind (fdiv (a_total - a_mr - a_or) a_total) (fun r_nr => Ok (r_mr * size x, r_or * size x, r_nr * size x)))))
      (fun '(m, o, n) => Ok [share x MAIN m; share x OTHER o; share x NON n])) l = Ok (map shares l)).
{ induction l as [|x l IH]; simpl; [reflexivity|]; rewrite !fdiv_ok in * by assumption; simpl in *; rewrite IH; reflexivity. }
rewrite E; reflexivity.
Qed.

Lemma split_size l : sum (map size (List.concat (map shares l))) = sum (map size l).
Proof.
induction l as [|x l IH]; [reflexivity|]; simpl in IH |- *; rewrite IH, !size_share; field; assumption.
Qed.

Lemma split_nth (P : R -> space_type -> A -> A -> Prop) l :
  (forall x k s, P k s x (share x s (k * size x))) ->
  split_into P a_mr a_or a_total l (List.concat (map shares l)).
Proof.
intro HP; split.
- induction l as [|x l IH]; simpl; [reflexivity|]; simpl in IH; rewrite IH; lia.
- intros i x k s; revert i; induction l as [|y l IH]; intros [|i]; simpl; try discriminate.
  + intros [= ->] Hk; destruct k as [|[|[|k]]]; simpl in Hk.
    * injection Hk as <-; eexists; split; [reflexivity|apply (HP x)].
    * injection Hk as <-; eexists; split; [reflexivity|apply (HP x)].
    * injection Hk as <-; eexists; split; [reflexivity|apply (HP x)].
    * destruct k; discriminate.
  + intros Hi Hk; destruct (IH i Hi Hk) as (z & N & Z); exists z; split; [|exact Z].
    rewrite <- N; replace (i + S (i + S (i + 0)) + k)%nat with (S (S (3 * i + k))) by lia; reflexivity.
Qed.

(* a quantity proportional to the size of a part *)
Lemma split_linear (f : A -> res R) (c : A -> res R) l :
  (forall x, f x = bind (c x) (fun k => Ok (size x * k))) ->
  (forall x s a, c (share x s a) = c x) ->
  sumM f (List.concat (map shares l)) = sumM f l.
Proof.
intros F C; induction l as [|x l IH]; [reflexivity|].
simpl; change (share x MAIN (a_mr / a_total * size x) :: share x OTHER (a_or / a_total * size x)
  :: share x NON ((a_total - a_mr - a_or) / a_total * size x) :: List.concat (map shares l)) with (shares x ++ List.concat (map shares l)).
rewrite sumM_app, IH, sumM_cons; unfold shares; rewrite !sumM_cons, !F, !C, !size_share.
destruct (c x); simpl; [|reflexivity]; destruct (sumM f l); simpl; [|reflexivity]; f_equal; field; assumption.
Qed.

Lemma split_nonneg l : 0 <= a_mr -> 0 <= a_or -> a_mr + a_or <= a_total -> (forall x, In x l -> 0 <= size x) ->
  forall y, In y (List.concat (map shares l)) -> 0 <= size y.
Proof.
intros M O T H y I; apply in_concat in I; destruct I as (ys & I & Iy).
apply in_map_iff in I; destruct I as (x & <- & I); specialize (H x I).
assert (P : 0 < a_total) by lra.
assert (forall a, 0 <= a -> 0 <= a / a_total * size x).
{ intros a Ha; apply Rmult_le_pos; [|exact H]; apply Rmult_le_pos; [exact Ha|]; left; apply Rinv_0_lt_compat, P. }
destruct Iy as [<- |[<- |[<- |[]]]]; rewrite size_share; apply H0; lra.
Qed.
End split.

Lemma lv3_ok a_mr a_or a_total p : a_total <> 0 ->
  lv2_to_lv3 a_mr a_or a_total p =
  Ok {| ps_gps := List.concat (map (shares a_mr a_or a_total _ gp_area general_part_lv3) (ps_gps p));
        ps_ws := List.concat (map (shares a_mr a_or a_total _ w_area window_lv3) (ps_ws p));
        ps_ds := List.concat (map (shares a_mr a_or a_total _ d_area door_lv3) (ps_ds p));
        ps_hbs := List.concat (map (shares a_mr a_or a_total _ hb_length heatbridge_lv3) (ps_hbs p));
        ps_eps := perimeters_lv3 (ps_eps p); ps_ecs := centers_lv3 (ps_ecs p) |}.
Proof.
intro H; unfold lv2_to_lv3, general_parts_lv3, windows_lv3, doors_lv3, heatbridges_lv3.
rewrite !split_ok by assumption; reflexivity.
Qed.

Lemma ok_inj A (x y : A) : Ok x = Ok y -> x = y.
Proof. intro H; injection H; auto. Qed.

Lemma lv3_split a_mr a_or a_total p : a_total <> 0 ->
  exists p', lv2_to_lv3 a_mr a_or a_total p = Ok p' /\
  split_into gp_share a_mr a_or a_total (ps_gps p) (ps_gps p') /\
  split_into w_share a_mr a_or a_total (ps_ws p) (ps_ws p') /\
  split_into d_share a_mr a_or a_total (ps_ds p) (ps_ds p') /\
  split_into hb_share a_mr a_or a_total (ps_hbs p) (ps_hbs p') /\
  Forall2 underfloor_perimeter (ps_eps p) (ps_eps p') /\ Forall2 underfloor_center (ps_ecs p) (ps_ecs p').
Proof.
intro H; eexists; split; [apply lv3_ok, H|]; simpl.
split; [apply split_nth; intros; repeat split|]; split; [apply split_nth; intros; repeat split|].
split; [apply split_nth; intros; repeat split|]; split; [apply split_nth; intros; repeat split|].
split.
- unfold perimeters_lv3; induction (ps_eps p) as [|e l IH]; simpl; constructor; [repeat split|exact IH].
- unfold centers_lv3; induction (ps_ecs p) as [|e l IH]; simpl; constructor; [repeat split|exact IH].
Qed.

Lemma sum_app a b : sum (a ++ b) = sum a + sum b.
Proof. exact (py_sum_app a b). Qed.

Lemma lv3_sizes a_mr a_or a_total p p' : a_total <> 0 -> lv2_to_lv3 a_mr a_or a_total p = Ok p' ->
  sum (areas p') = sum (areas p) /\ sum (lengths p') = sum (lengths p).
Proof.
intro H; rewrite lv3_ok by exact H; intro E; apply ok_inj in E; rewrite <- E; clear E; unfold areas, lengths; simpl ps_gps; simpl ps_ws; simpl ps_ds;
  simpl ps_hbs; simpl ps_eps; simpl ps_ecs.
rewrite !sum_app, !split_size; try assumption; try reflexivity.
unfold centers_lv3, perimeters_lv3; rewrite !map_map; split; reflexivity.
Qed.

Lemma lv3_q a_mr a_or a_total p p' region : a_total <> 0 -> lv2_to_lv3 a_mr a_or a_total p = Ok p' ->
  sumM (gp_q region) (ps_gps p') = sumM (gp_q region) (ps_gps p) /\
  sumM (w_q region) (ps_ws p') = sumM (w_q region) (ps_ws p) /\
  sumM (d_q region) (ps_ds p') = sumM (d_q region) (ps_ds p) /\
  sumM (hb_q region) (ps_hbs p') = sumM (hb_q region) (ps_hbs p) /\
  sumM (ep_q region) (ps_eps p') = sumM (ep_q region) (ps_eps p).
Proof.
intro H; rewrite lv3_ok by exact H; intro E; apply ok_inj in E; rewrite <- E; clear E; simpl.
split; [|split; [|split; [|split]]].
- apply split_linear with (c := fun g => bind (spec_u (gp_spec_of g)) (fun u => bind (env_h (gp_env (gp_ns g)) region) (fun h => Ok (u * h))));
    [exact H|reflexivity| |reflexivity].
  intro x; unfold gp_q; destruct (spec_u _); simpl; [|reflexivity]; destruct (env_h _ _); simpl; [|reflexivity]; f_equal; ring.
- apply split_linear with (c := fun w => bind (env_h (w_env (w_ns w)) region) (fun h => Ok (ws_u (w_spec w) * h)));
    [exact H|reflexivity| |reflexivity].
  intro x; unfold w_q; destruct (env_h _ _); simpl; [|reflexivity]; f_equal; ring.
- apply split_linear with (c := fun w => bind (env_h (d_env (d_ns w)) region) (fun h => Ok (d_u w * h))); [exact H|reflexivity| |reflexivity].
  intro x; unfold d_q; destruct (env_h _ _); simpl; [|reflexivity]; f_equal; ring.
- apply split_linear with (c := fun b => bind (mapM (fun n => get_h n region) (hb_next_spaces b)) (fun hs => bind (mean hs) (fun h => Ok (hb_psi b * h))));
    [exact H|reflexivity| |reflexivity].
  intro x; unfold hb_q; destruct (mapM _ _) as [hs|]; simpl; [|reflexivity]; destruct (mean hs); simpl; [|reflexivity]; f_equal; ring.
- unfold perimeters_lv3; induction (ps_eps p) as [|e l IH]; [reflexivity|]; simpl map; rewrite !sumM_cons, IH; reflexivity.
Qed.

Lemma opaque_m_linear e shade eta region s :
  opaque_m e shade eta region s = bind (match e_next_space e with
    | OUTDOOR => bind eta (fun eta => bind (env_nu e region s) (fun nu => bind (get_f_sh shade) (fun f => Ok (eta * nu * f))))
    | _ => Ok 0 end) (fun k => Ok (e_area e * k)).
Proof.
unfold opaque_m; destruct (e_next_space e); simpl; try (f_equal; ring).
destruct eta; simpl; [|reflexivity]; destruct (env_nu _ _ _); simpl; [|reflexivity]; destruct (get_f_sh _); simpl; [|reflexivity]; f_equal; ring.
Qed.

Lemma lv3_m a_mr a_or a_total p p' region s : a_total <> 0 -> lv2_to_lv3 a_mr a_or a_total p = Ok p' ->
  sumM (gp_m region s) (ps_gps p') = sumM (gp_m region s) (ps_gps p) /\
  sumM (w_m region s) (ps_ws p') = sumM (w_m region s) (ps_ws p) /\
  sumM (d_m region s) (ps_ds p') = sumM (d_m region s) (ps_ds p) /\
  sumM (hb_m region s) (ps_hbs p') = sumM (hb_m region s) (ps_hbs p).
Proof.
intro H; rewrite lv3_ok by exact H; intro E; apply ok_inj in E; rewrite <- E; clear E; simpl.
split; [|split; [|split]].
- eapply split_linear; [exact H|reflexivity|intro x; apply opaque_m_linear|reflexivity].
- apply split_linear with (c := fun w => bind (w_f region s (w_ns w)) (fun f => bind (env_nu (w_env (w_ns w)) region s) (fun nu =>
     Ok (get_eta_d_of (w_spec w) s * f * nu)))); [exact H|reflexivity| |reflexivity].
  intro x; unfold w_m; destruct (w_f _ _ _); simpl; [|reflexivity]; destruct (env_nu _ _ _); simpl; [|reflexivity]; f_equal; ring.
- eapply split_linear; [exact H|reflexivity|intro x; apply opaque_m_linear|reflexivity].
- apply split_linear with (c := fun b => bind (mapM (hb_nu region s) (combine (hb_next_spaces b) (hb_directions b))) (fun nus =>
     bind (mean nus) (fun nu => Ok (34 / 1000 * hb_psi b * nu)))); [exact H|reflexivity| |reflexivity].
  intro x; unfold hb_m; destruct (mapM _ _) as [hs|]; simpl; [|reflexivity]; destruct (mean hs); simpl; [|reflexivity]; f_equal; ring.
Qed.

Lemma lv3_check a_mr a_or a_total p p' region : a_total <> 0 -> lv2_to_lv3 a_mr a_or a_total p = Ok p' ->
  check_u_a_and_eta_a region (ps_gps p') (ps_ws p') (ps_ds p') (ps_eps p') (ps_ecs p') =
  check_u_a_and_eta_a region (ps_gps p) (ps_ws p) (ps_ds p) (ps_eps p) (ps_ecs p).
Proof.
intros H E; destruct (lv3_q _ _ _ _ _ region H E) as (Q1 & Q2 & Q3 & _ & Q5), (lv3_sizes _ _ _ _ _ H E) as (S1 & _).
assert (M : forall s, total_m region s (ps_gps p') (ps_ws p') (ps_ds p') = total_m region s (ps_gps p) (ps_ws p) (ps_ds p)).
{ intro s; destruct (lv3_m _ _ _ _ _ region s H E) as (M1 & M2 & M3 & _); unfold total_m; rewrite M1, M2, M3; reflexivity. }
unfold check_u_a_and_eta_a, total_q; rewrite Q1, Q2, Q3, Q5, !M.
change (envelope_total_area (ps_gps p') (ps_ws p') (ps_ds p') (ps_ecs p')) with (sum (areas p')); rewrite S1; reflexivity.
Qed.

Lemma lv3_nonneg a_mr a_or a_total p p' : 0 < a_total -> 0 <= a_mr -> 0 <= a_or -> a_mr + a_or <= a_total ->
  (forall x, In x (areas p ++ lengths p) -> 0 <= x) -> lv2_to_lv3 a_mr a_or a_total p = Ok p' ->
  forall x, In x (areas p' ++ lengths p') -> 0 <= x.
Proof.
intros Ht M O T N; rewrite lv3_ok by lra; intro E; apply ok_inj in E; rewrite <- E; clear E; unfold areas, lengths.
simpl ps_gps; simpl ps_ws; simpl ps_ds; simpl ps_hbs; simpl ps_eps; simpl ps_ecs.
assert (N' : forall x, In x (map gp_area (ps_gps p)) \/ In x (map w_area (ps_ws p)) \/ In x (map d_area (ps_ds p)) \/
   In x (map (fun c => ec_area (ec_ns c)) (ps_ecs p)) \/ In x (map hb_length (ps_hbs p)) \/ In x (map (fun e => ep_length (ep_ns e)) (ps_eps p)) -> 0 <= x).
{ intros x I; apply N; unfold areas, lengths; rewrite !in_app_iff; tauto. }
intros x I; rewrite !in_app_iff in I.
destruct I as [[I|[I|[I|I]]]|[I|I]].
- apply in_map_iff in I; destruct I as (y & <- & I).
  apply (split_nonneg a_mr a_or a_total ltac:(lra) _ gp_area general_part_lv3) with (l := ps_gps p); trivial.
  intros g G; apply N'; left; apply in_map, G.
- apply in_map_iff in I; destruct I as (y & <- & I).
  apply (split_nonneg a_mr a_or a_total ltac:(lra) _ w_area window_lv3) with (l := ps_ws p); trivial.
  intros g G; apply N'; right; left; apply in_map, G.
- apply in_map_iff in I; destruct I as (y & <- & I).
  apply (split_nonneg a_mr a_or a_total ltac:(lra) _ d_area door_lv3) with (l := ps_ds p); trivial.
  intros g G; apply N'; do 2 right; left; apply in_map, G.
- apply N'; do 3 right; left; unfold centers_lv3 in I; rewrite map_map in I; exact I.
- apply in_map_iff in I; destruct I as (y & <- & I).
  apply (split_nonneg a_mr a_or a_total ltac:(lra) _ hb_length heatbridge_lv3) with (l := ps_hbs p); trivial.
  intros g G; apply N'; do 4 right; left; apply in_map, G.
- apply N'; do 5 right; unfold perimeters_lv3 in I; rewrite map_map in I; exact I.
Qed.

Lemma split_zero A size share a_mr a_or (x : A) l : split size share a_mr a_or 0 (x :: l) = Err ZeroDivisionError.
Proof. unfold split, get_separated; simpl; unfold fdiv; destruct (Req_EM_T 0 0) as [|N]; [reflexivity|destruct N; reflexivity]. Qed.

Lemma split_nil A size share a_mr a_or a_total : @split A size share a_mr a_or a_total [] = Ok [].
Proof. reflexivity. Qed.

Lemma lv3_zero a_mr a_or p : ps_gps p <> [] \/ ps_ws p <> [] \/ ps_ds p <> [] \/ ps_hbs p <> [] ->
  lv2_to_lv3 a_mr a_or 0 p = Err ZeroDivisionError.
Proof.
intro H; unfold lv2_to_lv3, general_parts_lv3, windows_lv3, doors_lv3, heatbridges_lv3.
destruct (ps_gps p); [|rewrite split_zero; reflexivity]; rewrite split_nil.
destruct (ps_ws p); [|simpl bind; rewrite split_zero; reflexivity]; rewrite split_nil.
destruct (ps_ds p); [|simpl bind; rewrite split_zero; reflexivity]; rewrite split_nil.
destruct (ps_hbs p); [|simpl bind; rewrite split_zero; reflexivity].
destruct H as [H|[H|[H|H]]]; destruct H; reflexivity.
Qed.

Lemma hb_q_loss region b q : hb_q region b = Ok q -> hb_loss region b q.
Proof.
unfold hb_q; intro H; apply bind_ok in H; destruct H as [hs [E H]]; apply bind_ok in H; destruct H as [h [M H]].
injection H as <-; exists hs; split; [exact (mapM_forall2 _ _ _ _ _ E)|].
unfold mean in M; destruct hs as [|x hs]; [discriminate|]; split; [discriminate|].
assert (M' : py_sum (x :: hs) / INR (List.length (x :: hs)) = h) by congruence; clear M; subst h.
assert (N : INR (List.length (x :: hs)) <> 0) by (apply not_0_INR; discriminate).
change (py_sum (x :: hs)) with (sum (x :: hs)); revert N; generalize (sum (x :: hs)) (INR (List.length (x :: hs))); intros t n N; field; exact N.
Qed.

Lemma hb_m_gain region s b m : hb_m region s b = Ok m -> hb_gain region s b m.
Proof.
unfold hb_m; intro H; apply bind_ok in H; destruct H as [nus [E H]]; apply bind_ok in H; destruct H as [nu [M H]].
injection H as <-; exists nus; split.
{ apply mapM_forall2 in E; revert E; generalize (combine (hb_next_spaces b) (hb_directions b)); intros l E; clear M; induction E as [|[n d] x l nus E1 E IH].
  - constructor.
  - constructor; [|exact IH]; apply bind_ok in E1; destruct E1 as [d' [D E1]]; exists d'; split; [exact D|]; simpl in *.
    destruct n; [left; split; [reflexivity|exact E1]|right; split; [discriminate|congruence]..]. }
unfold mean in M; destruct nus as [|x nus]; [discriminate|]; split; [discriminate|].
assert (M' : py_sum (x :: nus) / INR (List.length (x :: nus)) = nu) by congruence; clear M; subst nu.
assert (N : INR (List.length (x :: nus)) <> 0) by (apply not_0_INR; discriminate).
change (py_sum (x :: nus)) with (sum (x :: nus)); revert N; generalize (sum (x :: nus)) (INR (List.length (x :: nus))); intros t n N; field; exact N.
Qed.
