From Coq Require Import Reals List ZArith Lra Lia.
From Verif Require Import Model.Py Model.FactorH Model.FactorNu Model.FactorF Model.EesHouse Model.CheckUa Model.Lv3 Spec.EnvelopeSpec
  Lemmas.PyL Lemmas.Lv3L.
Import ListNotations.
Local Open Scope R_scope.

Lemma sumM_forall2 A (f : A -> res R) (P : A -> R -> Prop) l r : (forall x y, f x = Ok y -> P x y) -> sumM f l = Ok r ->
  exists ys, Forall2 P l ys /\ r = sum ys.
Proof.
intros H; revert r; induction l as [|x l IH]; intros r; [intro E; apply ok_inj in E; exists []; split; [constructor|symmetry; exact E]|].
rewrite sumM_cons; destruct (f x) as [y|] eqn:Fx; simpl; [|discriminate]; destruct (sumM f l) as [z|]; simpl; [|discriminate].
intro E; apply ok_inj in E; destruct (IH _ eq_refl) as (ys & F & ->); exists (y :: ys); split; [constructor; auto|symmetry; exact E].
Qed.

Lemma gp_loss_ok region g q : gp_q region g = Ok q -> gp_loss region g q.
Proof.
unfold gp_q, gp_loss, env_h; destruct (spec_u _) as [u|]; simpl; [|discriminate]; destruct (get_h _ _) as [h|]; simpl; [|discriminate].
intro E; apply ok_inj in E; exists u, h; repeat split; rewrite <- E; ring.
Qed.
Lemma w_loss_ok region g q : w_q region g = Ok q -> w_loss region g q.
Proof.
unfold w_q, w_loss, env_h; destruct (get_h _ _) as [h|]; simpl; [|discriminate].
intro E; apply ok_inj in E; exists h; repeat split; rewrite <- E; ring.
Qed.
Lemma d_loss_ok region g q : d_q region g = Ok q -> d_loss region g q.
Proof.
unfold d_q, d_loss, env_h; destruct (get_h _ _) as [h|]; simpl; [|discriminate].
intro E; apply ok_inj in E; exists h; repeat split; rewrite <- E; ring.
Qed.
Lemma ep_loss_ok region g q : ep_q region g = Ok q -> ep_loss region g q.
Proof.
unfold ep_q, ep_loss; destruct (get_h _ _) as [h|]; simpl; [|discriminate].
intro E; apply ok_inj in E; exists h; repeat split; rewrite <- E; ring.
Qed.

Lemma total_q_ok region p q : total_q region (ps_gps p) (ps_ws p) (ps_ds p) (ps_eps p) = Ok q -> house_loss region p q.
Proof.
unfold total_q; destruct (sumM (gp_q region) _) as [a|] eqn:A; simpl; [|discriminate].
destruct (sumM (w_q region) _) as [b|] eqn:B; simpl; [|discriminate].
destruct (sumM (d_q region) _) as [c|] eqn:C; simpl; [|discriminate].
destruct (sumM (ep_q region) _) as [d|] eqn:D; simpl; [|discriminate]; intro E; apply ok_inj in E.
apply (sumM_forall2 _ _ (gp_loss region)) in A; [|intros; apply gp_loss_ok; assumption]; destruct A as (g & G & ->).
apply (sumM_forall2 _ _ (w_loss region)) in B; [|intros; apply w_loss_ok; assumption]; destruct B as (w & W & ->).
apply (sumM_forall2 _ _ (d_loss region)) in C; [|intros; apply d_loss_ok; assumption]; destruct C as (d' & D' & ->).
apply (sumM_forall2 _ _ (ep_loss region)) in D; [|intros; apply ep_loss_ok; assumption]; destruct D as (e & E' & ->).
exists g, w, d', e; repeat split; trivial; symmetry; exact E.
Qed.

Lemma opaque_gain_ok e shade u region s m : opaque_m e shade (bind u (fun u => Ok (34 / 1000 * u))) region s = Ok m ->
  exists u', (e_next_space e = OUTDOOR -> u = Ok u') /\ opaque_gain region s e shade u' m.
Proof.
unfold opaque_m, opaque_gain, env_nu; destruct (e_next_space e) eqn:N;
  try (intro E; apply ok_inj in E; exists 0; split; [discriminate|left; split; [discriminate|symmetry; exact E]]).
destruct u as [u|]; simpl; [|discriminate]; destruct (get_nu _ _ _) as [nu|]; simpl; [|discriminate].
destruct (get_f_sh shade) as [f|]; simpl; [|discriminate]; intro E; apply ok_inj in E.
exists u; split; [reflexivity|right; split; [reflexivity|]]; exists nu, f; repeat split; symmetry; exact E.
Qed.
Lemma gp_gain_ok region s g m : gp_m region s g = Ok m -> gp_gain region s g m.
Proof. exact (opaque_gain_ok _ _ (spec_u (gp_spec_of g)) _ _ _). Qed.
Lemma d_gain_ok region s g m : d_m region s g = Ok m -> d_gain region s g m.
Proof.
intro H; destruct (opaque_gain_ok _ _ (Ok (d_u g)) _ _ _ H) as (u & E & G); unfold d_gain.
destruct G as [G|(O & G)]; [left; exact G|]; specialize (E O); apply ok_inj in E; subst u; right; split; assumption.
Qed.
Lemma w_gain_ok region s g m : w_m region s g = Ok m -> w_gain region s g m.
Proof.
unfold w_m, w_gain, w_f, env_nu; destruct (get_f _ _ _ _) as [f|]; simpl; [|discriminate].
destruct (e_next_space _) eqn:N;
  try (simpl; intro E; apply ok_inj in E; exists f; split; [reflexivity|left; split; [discriminate|rewrite <- E; ring]]).
destruct (get_nu _ _ _) as [nu|]; simpl; [|discriminate]; intro E; apply ok_inj in E; exists f; split; [reflexivity|].
right; split; [reflexivity|]; exists nu; split; [reflexivity|rewrite <- E; destruct s; simpl; ring].
Qed.

Lemma total_m_ok region s p m : total_m region s (ps_gps p) (ps_ws p) (ps_ds p) = Ok m -> house_gain region s p m.
Proof.
unfold total_m; destruct (sumM (gp_m region s) _) as [a|] eqn:A; simpl; [|discriminate].
destruct (sumM (w_m region s) _) as [b|] eqn:B; simpl; [|discriminate].
destruct (sumM (d_m region s) _) as [c|] eqn:C; simpl; [|discriminate]; intro E; apply ok_inj in E.
apply (sumM_forall2 _ _ (gp_gain region s)) in A; [|intros; apply gp_gain_ok; assumption]; destruct A as (g & G & ->).
apply (sumM_forall2 _ _ (w_gain region s)) in B; [|intros; apply w_gain_ok; assumption]; destruct B as (w & W & ->).
apply (sumM_forall2 _ _ (d_gain region s)) in C; [|intros; apply d_gain_ok; assumption]; destruct C as (d' & D' & ->).
exists g, w, d'; repeat split; trivial; symmetry; exact E.
Qed.

Definition check (region : Z) (p : parts) := check_u_a_and_eta_a region (ps_gps p) (ps_ws p) (ps_ds p) (ps_eps p) (ps_ecs p).

Lemma fdiv_inv a b c : fdiv a b = Ok c -> b <> 0 /\ c = a / b.
Proof. unfold fdiv; destruct (Req_EM_T b 0); [discriminate|]; intro E; apply ok_inj in E; split; [assumption|symmetry; exact E]. Qed.

Lemma check_means region p ua eh ec : check region p = Ok (ua, eh, ec) ->
  sum (areas p) <> 0 /\
  (exists q, house_loss region p q /\ ua = q / sum (areas p)) /\
  (region = 8%Z -> eh = None) /\
  (region <> 8%Z -> exists m, house_gain region Heating p m /\ eh = Some (100 * (m / sum (areas p)))) /\
  (exists m, house_gain region Cooling p m /\ ec = 100 * (m / sum (areas p))).
Proof.
unfold check, check_u_a_and_eta_a.
change (envelope_total_area (ps_gps p) (ps_ws p) (ps_ds p) (ps_ecs p)) with (sum (areas p)).
destruct (total_q _ _ _ _ _) as [q|] eqn:Q; cbn [bind]; [|discriminate].
destruct (fdiv q _) as [u|] eqn:U; cbn [bind]; [|discriminate]; apply fdiv_inv in U; destruct U as (NZ & ->).
destruct (if (region =? 8)%Z then _ else _) as [h|] eqn:HH; cbn [bind]; [|discriminate].
destruct (total_m region Cooling _ _ _) as [m|] eqn:M; cbn [bind]; [|discriminate].
rewrite fdiv_ok by exact NZ; cbn [bind]; intro E; apply ok_inj in E.
assert (E1 : ua = q / sum (areas p)) by congruence; assert (E2 : eh = h) by congruence; assert (E3 : ec = m / sum (areas p) * 100) by congruence.
clear E; split; [exact NZ|]; split; [exists q; split; [apply total_q_ok, Q|exact E1]|].
split; [intro R8; subst region; rewrite E2; simpl in HH; apply ok_inj in HH; symmetry; exact HH|].
split; [|exists m; split; [apply total_m_ok, M|rewrite E3; ring]].
intro R8; apply Z.eqb_neq in R8; rewrite R8 in HH.
destruct (total_m region Heating _ _ _) as [mh|] eqn:MH; cbn [bind] in HH; [|discriminate].
rewrite fdiv_ok in HH by exact NZ; cbn [bind] in HH; apply ok_inj in HH.
exists mh; split; [apply total_m_ok, MH|rewrite E2, <- HH; f_equal; ring].
Qed.

Lemma weighted A (size : A -> R) (P : A -> R -> Prop) lo hi l qs : Forall2 P l qs ->
  (forall x q, In x l -> P x q -> lo * size x <= q <= hi * size x) -> lo * sum (map size l) <= sum qs <= hi * sum (map size l).
Proof.
induction 1 as [|x q l qs Px F IH]; intro H; [simpl; lra|].
assert (Hx := H x q (or_introl eq_refl) Px); assert (Hl := IH (fun y r I => H y r (or_intror I))); 
change (sum (map size (x :: l))) with (size x + sum (map size l)); change (sum (q :: qs)) with (q + sum qs); rewrite !Rmult_plus_distr_l; lra.
Qed.

Lemma check_between region p lo hi ua eh ec : check region p = Ok (ua, eh, ec) ->
  ps_eps p = [] -> ps_ecs p = [] -> (forall a, In a (areas p) -> 0 <= a) -> u_between region lo hi p -> lo <= ua <= hi.
Proof.
intros C NE NC NN (BG & BW & BD); destruct (check_means _ _ _ _ _ C) as (NZ & (q & (g & w & d & e & G & W & D & E & Q) & ->) & _).
rewrite NE in E; inversion E; subst e; clear E.
assert (NG : forall x, In x (ps_gps p) -> 0 <= gp_area x) by (intros x I; apply NN; unfold areas; rewrite !in_app_iff; left; apply in_map, I).
assert (NW : forall x, In x (ps_ws p) -> 0 <= w_area x) by (intros x I; apply NN; unfold areas; rewrite !in_app_iff; right; left; apply in_map, I).
assert (ND : forall x, In x (ps_ds p) -> 0 <= d_area x) by (intros x I; apply NN; unfold areas; rewrite !in_app_iff; do 2 right; left; apply in_map, I).
apply (weighted _ gp_area _ lo hi) in G.
2:{ intros x r I (u & h & U & Hh & ->); specialize (BG x u h I U Hh); specialize (NG x I); nra. }
apply (weighted _ w_area _ lo hi) in W.
2:{ intros x r I (h & Hh & ->); specialize (BW x h I Hh); specialize (NW x I); nra. }
apply (weighted _ d_area _ lo hi) in D.
2:{ intros x r I (h & Hh & ->); specialize (BD x h I Hh); specialize (ND x I); nra. }
assert (SA : sum (areas p) = sum (map gp_area (ps_gps p)) + sum (map w_area (ps_ws p)) + sum (map d_area (ps_ds p))).
{ unfold areas; rewrite NC, !sum_app; simpl; ring. }
assert (NS : forall l, (forall a, In a l -> 0 <= a) -> 0 <= sum l).
{ clear; intro l; induction l as [|a l IH]; intro H; [simpl; lra|]; specialize (IH (fun b I => H b (or_intror I))); specialize (H a (or_introl eq_refl)).
  change (sum (a :: l)) with (a + sum l); lra. }
specialize (NS _ NN); assert (P : 0 < sum (areas p)) by lra.
split; [apply Rmult_le_reg_r with (sum (areas p))|apply Rmult_le_reg_r with (sum (areas p))]; trivial;
  replace (q / sum (areas p) * sum (areas p)) with q by (field; exact NZ); rewrite Q, SA; change (sum []) with 0; lra.
Qed.

(* an envelope without any area cannot be checked *)
Lemma check_no_area region p : sum (areas p) = 0 -> exists e, check region p = Err e.
Proof.
intro H; destruct (check region p) as [((ua & eh) & ec)|e] eqn:C; [|exists e; reflexivity].
destruct (check_means _ _ _ _ _ C) as (NZ & _); contradiction.
Qed.
