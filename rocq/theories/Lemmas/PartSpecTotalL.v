From Coq Require Import Reals ZArith List String Bool Lra Lia.
From Verif Require Import Model.Py Model.FactorH Model.FactorNu Model.FactorF Model.EesHouse Model.CheckUa Model.Lv3 Model.PartSpec Spec.EnvelopeSpec Spec.IndexSpec
  Lemmas.PyL Lemmas.Lv3L Lemmas.CheckUaL Lemmas.PartSpecL.
Import ListNotations.
Local Open Scope R_scope.

Lemma nu_ok d region s : (1 <= region <= 7)%Z -> tabled d -> exists nu, get_nu d region s = Ok nu /\ 0 <= nu /\ (d <> DBottom -> 0 < nu).
Proof.
intros R T; assert (C : (region = 1 \/ region = 2 \/ region = 3 \/ region = 4 \/ region = 5 \/ region = 6 \/ region = 7)%Z) by lia.
destruct d; try destruct T; repeat destruct C as [C|C]; subst region; destruct s; eexists; (split; [reflexivity|split; [lra|intro N; try lra; destruct N; reflexivity]]).
Qed.

Lemma env_nu_ok e region s : (1 <= region <= 7)%Z -> (e_next_space e = OUTDOOR -> tabled (e_direction e)) ->
  exists nu, env_nu e region s = Ok nu /\ 0 <= nu /\ (e_next_space e = OUTDOOR -> e_direction e <> DBottom -> 0 < nu).
Proof.
intros R T; unfold env_nu; destruct (e_next_space e); try (exists 0; repeat split; [lra|discriminate]).
destruct (nu_ok (e_direction e) region s R (T eq_refl)) as (nu & E & N & P); exists nu; repeat split; auto.
Qed.

Lemma std_total region : (1 <= region <= 8)%Z -> exists F, tabulate (get_u_psi_std region) = Ok F.
Proof.
intro R; assert (C : (region = 1 \/ region = 2 \/ region = 3 \/ region = 4 \/ region = 5 \/ region = 6 \/ region = 7 \/ region = 8)%Z) by lia.
repeat destruct C as [C|C]; subst region; eexists; reflexivity.
Qed.

Lemma tabulate_total f : (forall p, exists x, f p = Ok x) -> exists F, tabulate f = Ok F.
Proof.
intro H; unfold tabulate.
destruct (H PRoof) as (? & ->), (H PCeiling) as (? & ->), (H PWall) as (? & ->), (H PFloor) as (? & ->), (H PBoundaryCeiling) as (? & ->),
  (H PBoundaryWall) as (? & ->), (H PBoundaryFloor) as (? & ->), (H PWindow) as (? & ->), (H PDoor) as (? & ->), (H PPerimeter) as (? & ->).
eexists; reflexivity.
Qed.

Lemma sumM_total A (f : A -> res R) l : (forall x, In x l -> exists y, f x = Ok y) -> exists s, sumM f l = Ok s.
Proof.
induction l as [|x l IH]; intro H; [eexists; reflexivity|]; rewrite sumM_cons.
destruct (H x (or_introl eq_refl)) as (y & ->), IH as (s & ->); [intros; apply H; right; assumption|]; eexists; reflexivity.
Qed.

Lemma mapM_exists A B (f : A -> res B) l : (forall x, In x l -> exists y, f x = Ok y) -> exists r, mapM f l = Ok r.
Proof.
induction l as [|x l IH]; intro H; [eexists; reflexivity|]; simpl.
destruct (H x (or_introl eq_refl)) as (y & ->), IH as (s & ->); [intros; apply H; right; assumption|]; eexists; reflexivity.
Qed.

Lemma sum_pos_in A (f : A -> res R) l s : (forall x y, In x l -> f x = Ok y -> 0 <= y) -> sumM f l = Ok s -> 0 <= s /\ forall x y, In x l -> f x = Ok y -> y <= s.
Proof.
revert s; induction l as [|x l IH]; intros s H; [intro E; apply ok_inj in E; rewrite <- E; simpl; split; [unfold py_sum; simpl; lra|intros x y []]|].
rewrite sumM_cons; destruct (f x) as [a|] eqn:Fx; cbn [bind]; [|discriminate]; destruct (sumM f l) as [b|]; cbn [bind]; [|discriminate].
intro E; apply ok_inj in E; rewrite <- E; destruct (IH b (fun x y I => H x y (or_intror I)) eq_refl) as (B & Bx).
assert (A0 := H x a (or_introl eq_refl) Fx); split; [lra|].
intros z y [<- |I] Fz; [rewrite Fx in Fz; apply ok_inj in Fz; lra|]; specialize (Bx z y I Fz); lra.
Qed.

Lemma f_simple_pos a b c limit depth d_h d_e : 0 < a -> 0 <= b -> 0 <= c -> 0 < limit -> 0 < depth -> 0 <= d_h -> 0 <= d_e ->
  exists f, f_simple a b c limit depth d_h d_e = Ok f /\ 0 < f.
Proof.
intros A B C L D H E; unfold f_simple; destruct (Req_EM_T depth 0); [lra|]; eexists; split; [reflexivity|].
assert (0 <= b * (c * d_e + d_h) / depth).
{ apply Rmult_le_pos; [apply Rmult_le_pos; [exact B|]|left; apply Rinv_0_lt_compat, D]; assert (0 <= c * d_e) by (apply Rmult_le_pos; assumption); lra. }
apply Rmin_glb_lt; lra.
Qed.

Lemma shade_ok region s w : (1 <= region <= 7)%Z -> usable_shade w -> exists f, w_f region s w = Ok f /\ 0 <= f /\ (e_direction (w_env w) <> DBottom -> 0 < f).
Proof.
intro R; assert (N8 : (region =? 8)%Z = false) by (apply Z.eqb_neq; lia).
unfold usable_shade, w_f, get_f, get_f_simple; destruct (w_shade w); try contradiction.
- destruct s; [rewrite N8|]; eexists; (split; [reflexivity|split; intros; lra]).
- intros (D0 & H0 & E0 & T); rewrite N8.
  assert (K : forall a b c limit, 0 < a -> 0 <= b -> 0 <= c -> 0 < limit -> exists f, f_simple a b c limit depth d_h d_e = Ok f /\ 0 <= f /\ (e_direction (w_env w) <> DBottom -> 0 < f)).
  { intros a b c limit A B C L; destruct (f_simple_pos a b c limit depth d_h d_e A B C L D0 H0 E0) as (f & F & P); exists f; repeat split; [exact F|lra|intros _; exact P]. }
  destruct s, (e_direction (w_env w)); try destruct T; try (apply K; lra);
    eexists; (split; [reflexivity|split; [lra|intro N; try lra; destruct N; reflexivity]]).
Qed.

Lemma windows_ok region s h : (1 <= region <= 7)%Z -> nonneg_house h -> describable h -> exists sg, sum_a_f_nu region s (n_ws h) = Ok sg /\ 0 < sg.
Proof.
intros R (_ & NW & _) (_ & _ & _ & DW & (w & I & A & O & B)); unfold sum_a_f_nu.
assert (F : forall w, In w (n_ws h) -> exists f nu, w_f region s w = Ok f /\ 0 <= f /\ env_nu (w_env w) region s = Ok nu /\ 0 <= nu /\
   (e_next_space (w_env w) = OUTDOOR -> e_direction (w_env w) <> DBottom -> 0 < nu) /\ (e_direction (w_env w) <> DBottom -> 0 < f)).
{ intros x Ix; destruct (DW x Ix) as (S0 & T); destruct (env_nu_ok (w_env x) region s R T) as (nu & E & N & P).
  destruct (shade_ok region s x R S0) as (f & Ef & Nf & Pf); exists f, nu; repeat split; trivial. }
match goal with |- exists sg, sumM ?g _ = _ /\ _ => destruct (sumM_total _ g (n_ws h)) as (sg & SG) end.
{ intros x Ix; destruct (F x Ix) as (f & nu & -> & _ & -> & _); eexists; reflexivity. }
exists sg; split; [exact SG|].
match type of SG with sumM ?g _ = _ => destruct (sum_pos_in _ g (n_ws h) sg) as (_ & P); [|exact SG|] end.
{ intros x y Ix; destruct (F x Ix) as (f & nu & -> & Pf & -> & Nn & _); cbn [bind]; intro E; apply ok_inj in E; rewrite <- E.
  apply Rmult_le_pos; [|exact Nn]; apply Rmult_le_pos; [apply NW, Ix|lra]. }
destruct (F w I) as (f & nu & Ef & _ & En & Nn & Pn & Pf); specialize (Pn O B); specialize (Pf B).
eapply Rlt_le_trans; [|apply (P w (e_area (w_env w) * f * nu) I); rewrite Ef, En; reflexivity].
apply Rmult_lt_0_compat; [apply Rmult_lt_0_compat|]; assumption.
Qed.

Lemma opaque_ok region s e u : (1 <= region <= 7)%Z -> (e_next_space e = OUTDOOR -> tabled (e_direction e)) -> exists m, opaque_m_std region s e (Ok u) = Ok m.
Proof. intros R T; destruct (env_nu_ok e region s R T) as (nu & E & _); unfold opaque_m_std; cbn [bind]; rewrite E; eexists; reflexivity. Qed.

Lemma spec_total region u_a eta_h eta_c h : (1 <= region <= 7)%Z -> nonneg_house h -> describable h -> 0 <= house_area h * u_a ->
  exists r, spec_from_indices region u_a eta_h eta_c h = Ok r.
Proof.
intros R NN DE UA; assert (R8 : (1 <= region <= 8)%Z) by lia.
unfold spec_from_indices, calc_parts_spec; rewrite ns_area_eq.
destruct (std_total region R8) as (std & T); rewrite T; cbn [bind]; destruct (std_region _ _ T) as (_ & SP).
destruct (tabulate_total (get_q_std region std h)) as (q_std & TQ); [intro p; rewrite q_std_ok by exact R8; eexists; reflexivity|]; rewrite TQ; cbn [bind].
assert (Q : forall p, q_std p = amount region h p * std p).
{ intro p; assert (E := tabulate_ok _ _ TQ p); rewrite q_std_ok in E by exact R8; apply ok_inj in E; symmetry; exact E. }
destruct (get_f_ok q_std (get_f_max std) (house_area h * u_a)) as (d & v & E & V & EN & _ & _).
{ intro p; rewrite Q; apply Rmult_le_pos; [apply amount_nonneg, NN|left; apply SP]. }
{ intro p; left; apply Rdiv_lt_0_compat; [apply u_max_pos|apply SP]. }
{ exact UA. }
rewrite E; cbn [bind]; destruct (u_values std _ _ EN) as (u & U1 & U2); rewrite U1; cbn [bind].
assert (MO : forall s, exists m, m_opq region s u h = Ok m).
{ intro s; destruct DE as (K & TG & TD & _ & _); unfold m_opq, get_m_opq.
  match goal with |- context [sumM ?g (n_gps h)] => destruct (sumM_total _ g (n_gps h)) as (a & ->) end.
  { intros g I; destruct (K g I) as (K1 & K2).
    assert (PT : exists p, part_of_type (gp_kind g) = Ok p) by (destruct (gp_kind g); simpl; try (eexists; reflexivity); contradiction).
    destruct PT as (p & ->); cbn [bind]; rewrite U2; apply opaque_ok; [exact R|apply TG, I]. }
  match goal with |- context [sumM ?g (n_ds h)] => destruct (sumM_total _ g (n_ds h)) as (b & ->) end.
  { intros g I; rewrite U2; apply opaque_ok; [exact R|apply TD, I]. }
  eexists; reflexivity. }
destruct (MO Heating) as (mh & ->), (MO Cooling) as (mc & ->); cbn [bind].
destruct (windows_ok region Heating h R NN DE) as (sh & -> & PH), (windows_ok region Cooling h R NN DE) as (sc & -> & PC); cbn [bind].
unfold get_eta_d_each; rewrite !fdiv_ok by lra; cbn [bind].
match goal with |- context [mapM (add_spec_gp u) ?l] => destruct (mapM_exists _ _ (add_spec_gp u) l) as (g & ->) end.
{ intros x I; destruct DE as (K & _); destruct (K x I) as (K1 & K2); unfold add_spec_gp.
  assert (PT : exists p, part_of_type (gp_kind x) = Ok p) by (destruct (gp_kind x); simpl; try (eexists; reflexivity); contradiction).
  destruct PT as (p & ->); cbn [bind]; unfold get_u_psi; rewrite U2; eexists; reflexivity. }
cbn [bind].
match goal with |- context [mapM (add_spec_w u ?a ?b) ?l] => destruct (mapM_exists _ _ (add_spec_w u a b) l) as (w & ->) end.
{ intros x I; unfold add_spec_w, get_u_psi; rewrite U2; eexists; reflexivity. }
cbn [bind].
match goal with |- context [mapM (add_spec_d u) ?l] => destruct (mapM_exists _ _ (add_spec_d u) l) as (dd & ->) end.
{ intros x I; unfold add_spec_d, get_u_psi; rewrite U2; eexists; reflexivity. }
cbn [bind].
match goal with |- context [mapM (add_spec_ep u) ?l] => destruct (mapM_exists _ _ (add_spec_ep u) l) as (ee & ->) end.
{ intros x I; unfold add_spec_ep, get_u_psi; rewrite U2; eexists; reflexivity. }
cbn [bind]; eexists; reflexivity.
Qed.
