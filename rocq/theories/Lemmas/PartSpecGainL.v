From Coq Require Import Reals ZArith List String Bool Lra Lia.
From Verif Require Import Model.Py Model.FactorH Model.FactorNu Model.FactorF Model.EesHouse Model.CheckUa Model.Lv3 Model.PartSpec Spec.EnvelopeSpec Spec.IndexSpec
  Lemmas.PyL Lemmas.Lv3L Lemmas.CheckUaL Lemmas.PartSpecL.
Import ListNotations.
Local Open Scope R_scope.

Lemma sumM_transfer A B (P : A -> B -> Prop) (f : A -> res R) (g : B -> res R) k l r s : Forall2 P l r ->
  (forall x y m, In x l -> P x y -> f x = Ok m -> g y = Ok (k * m)) -> sumM f l = Ok s -> sumM g r = Ok (k * s).
Proof.
intro F; revert s; induction F as [|x y l r Pxy F IH]; intros s H; [intro E; apply ok_inj in E; rewrite <- E; unfold sumM; simpl; f_equal; ring|].
rewrite !sumM_cons; destruct (f x) as [m|] eqn:Fx; cbn [bind]; [|discriminate]; destruct (sumM f l) as [z|]; cbn [bind]; [|discriminate].
intro E; apply ok_inj in E; rewrite (H x y m (or_introl eq_refl) Pxy Fx), (IH z) by (trivial; intros; eapply H; try eassumption; right; assumption).
cbn [bind]; rewrite <- E; f_equal; ring.
Qed.

Lemma window_gain_ok region s h m : sum_a_f_nu region s (n_ws h) = Ok m -> window_gain region s h m.
Proof.
unfold sum_a_f_nu, window_gain; intro H.
apply (sumM_forall2 _ _ (fun w x => exists f nu, get_f (w_shade w) region s (e_direction (w_env w)) = Ok f /\
    env_nu (w_env w) region s = Ok nu /\ x = e_area (w_env w) * f * nu)) in H.
- destruct H as (ys & F & E); exists ys; split; assumption.
- intros w x; unfold w_f; destruct (get_f _ _ _ _) as [f|]; cbn [bind]; [|discriminate]; destruct (env_nu _ _ _) as [nu|]; cbn [bind]; [|discriminate].
  intro E; apply ok_inj in E; exists f, nu; repeat split; symmetry; exact E.
Qed.

Section gain.
Variables (region : Z) (u_a eta_h eta_c : R) (h : parts_ns) (gps : list general_part) (ws : list window) (ds : list door) (eps : list perimeter) (ecs : list center).
Hypothesis NN : nonneg_house h.
Hypothesis UA : 0 <= house_area h * u_a.
Hypothesis SH : no_opaque_shade h.
Hypothesis OK : spec_from_indices region u_a eta_h eta_c h = Ok (gps, ws, ds, eps, ecs).

Lemma opaque_transfer region' s e sh u m : (e_next_space e = OUTDOOR -> sh = OpNotInput) ->
  opaque_m_std region' s e (Ok u) = Ok m -> opaque_m e sh (Ok (34 / 1000 * u)) region' s = Ok (1 * m).
Proof.
intro S0; unfold opaque_m_std, opaque_m, env_nu; cbn [bind]; destruct (e_next_space e) eqn:N; cbn [bind];
  try (intro E; apply ok_inj in E; rewrite <- E; f_equal; ring).
rewrite (S0 eq_refl); destruct (get_nu _ _ _) as [nu|]; cbn [bind]; [|discriminate]; intro E; apply ok_inj in E; rewrite <- E; simpl; f_equal; ring.
Qed.

Definition target (s : season) : R := match s with Heating => eta_h | Cooling => eta_c end.

Lemma season_gain : exists mo sg eta_d : season -> R, forall s,
  total_m region s gps ws ds = Ok (mo s + eta_d s * sg s) /\ window_gain region s h (sg s) /\ sg s <> 0 /\
  (forall w, In w ws -> get_eta_d_of (w_spec w) s = eta_d s) /\
  eta_d s = clip ((target s / 100 * house_area h - mo s) / sg s) 0 (88 / 100).
Proof.
destruct (result_parts _ _ _ _ _ _ _ _ _ _ NN UA OK) as (u & e_h & e_c & SO & G & W & D & E & _).
destruct SO as [RG (std & v & ST & SP & V & EU & LA) (mo_h & mo_c & s_h & s_c & MH & MC & SGH & SGC & NH & NC & EH & EC)].
set (eta := fun s => match s with Heating => e_h | Cooling => e_c end).
set (mo := fun s => match s with Heating => mo_h | Cooling => mo_c end).
set (sg := fun s => match s with Heating => s_h | Cooling => s_c end).
exists mo, sg, eta; intro s.
assert (M : m_opq region s u h = Ok (mo s)) by (destruct s; assumption).
assert (SG : sum_a_f_nu region s (n_ws h) = Ok (sg s)) by (destruct s; assumption).
assert (IN : forall A B (P : A -> B -> Prop) l r y, Forall2 P l r -> In y r -> exists x, In x l /\ P x y).
{ clear; intros A B P l r y F; induction F as [|x z l r H F IH]; intros I; [destruct I|]; destruct I as [<- |I]; [exists x; split; [left; reflexivity|exact H]|].
  destruct (IH I) as (x' & I' & H'); exists x'; split; [right; exact I'|exact H']. }
assert (WI : forall x y, add_spec_w u e_h e_c x = Ok y -> get_eta_d_of (w_spec y) s = eta s /\ w_shade (w_ns y) = w_shade x /\
   e_area (w_env (w_ns y)) = e_area (w_env x) /\ e_next_space (w_env (w_ns y)) = e_next_space (w_env x) /\ e_direction (w_env (w_ns y)) = e_direction (w_env x)).
{ intros x y; unfold add_spec_w, get_u_psi; rewrite EU; cbn [bind]; intro X; apply ok_inj in X; subst y; simpl; destruct s; repeat split. }
split; [|split; [apply window_gain_ok, SG|split; [destruct s; assumption|split; [|destruct s; assumption]]]].
2:{ intros w I; destruct (IN _ _ _ _ _ _ W I) as (x & _ & H); apply WI in H; apply H. }
revert M; unfold m_opq, get_m_opq; destruct (sumM _ (n_gps h)) as [g|] eqn:SGp; cbn [bind]; [|discriminate].
destruct (sumM _ (n_ds h)) as [d|] eqn:SDo; cbn [bind]; [|discriminate]; intro M; apply ok_inj in M.
destruct SH as (S1 & S2).
unfold total_m.
rewrite (sumM_transfer _ _ _ _ (gp_m region s) 1 _ _ g G) with (2 := SGp).
2:{ intros x y m I H F; revert H; unfold add_spec_gp; destruct (part_of_type (gp_kind x)) as [p|] eqn:PT; cbn [bind]; [|discriminate].
  cbn [bind] in F; apply part_of_type_std in PT; destruct PT as (-> & PB); unfold get_u_psi; rewrite PB, EU; cbn [bind].
  intro X; apply ok_inj in X; subst y; unfold gp_m; cbn [gp_ns gp_spec_of spec_eta spec_u bind].
  rewrite EU in F; apply opaque_transfer; [intro O; apply S1; assumption|exact F]. }
cbn [bind].
rewrite (sumM_transfer _ _ _ _ (w_m region s) (eta s) _ _ (sg s) W) with (2 := SG).
2:{ intros x y m I H; apply WI in H; destruct H as (E1 & E2 & E3 & E4 & E5).
  unfold w_m, w_f, env_nu, w_area; rewrite E1, E2, E3, E4, E5; destruct (get_f _ _ _ _) as [f|]; cbn [bind]; [|discriminate].
  destruct (match e_next_space (w_env x) with OUTDOOR => _ | _ => _ end); cbn [bind]; [|discriminate].
  intro X; apply ok_inj in X; rewrite <- X; f_equal; ring. }
cbn [bind].
rewrite (sumM_transfer _ _ _ _ (d_m region s) 1 _ _ d D) with (2 := SDo).
2:{ intros x y m I H F; revert H; unfold add_spec_d, get_u_psi; rewrite EU; cbn [bind]; intro X; apply ok_inj in X; subst y.
  unfold d_m; cbn [d_ns d_u]; rewrite EU in F; apply opaque_transfer; [intro O; apply S2; assumption|exact F]. }
cbn [bind]; f_equal; rewrite <- M; ring.
Qed.

Lemma not_region_8 : region <> 8%Z.
Proof.
intro R8; destruct season_gain as (mo & sg & ed & H); destruct (H Heating) as (_ & (l & E & F) & NZ & _).
destruct F as [|w x l l' (f & nu & Hf & _)]; [apply NZ; rewrite E; reflexivity|].
subst region; unfold get_f, get_f_simple in Hf; simpl in Hf; destruct (w_shade w); discriminate.
Qed.

Definition met (sg eta_d actual wanted : R) : Prop :=
  0 <= eta_d <= 88 / 100 /\
  (0 < sg -> actual = wanted \/ (eta_d = 0 /\ wanted < actual) \/ (eta_d = 88 / 100 /\ actual < wanted)).

Lemma clip_met mo sg t a : 0 < a -> sg <> 0 ->
  met sg (clip ((t / 100 * a - mo) / sg) 0 (88 / 100)) ((mo + clip ((t / 100 * a - mo) / sg) 0 (88 / 100) * sg) / a * 100) t.
Proof.
intros A NZ; set (x := (t / 100 * a - mo) / sg).
assert (X : x * sg = t / 100 * a - mo) by (unfold x; field; exact NZ).
unfold met, clip, Rmin, Rmax.
assert (S0 : forall y, y / a * 100 < t <-> y < t / 100 * a).
{ intro y; split; intro H; [apply Rmult_lt_reg_r with (100 / a); [apply Rdiv_lt_0_compat; lra|]|apply Rmult_lt_reg_r with (a / 100); [lra|]].
  - replace (t / 100 * a * (100 / a)) with t by (field; lra); lra.
  - replace (y / a * 100 * (a / 100)) with y by (field; lra); lra. }
assert (S1 : forall y, t < y / a * 100 <-> t / 100 * a < y).
{ intro y; split; intro H; [apply Rmult_lt_reg_r with (100 / a); [apply Rdiv_lt_0_compat; lra|]|apply Rmult_lt_reg_r with (a / 100); [lra|]].
  - replace (t / 100 * a * (100 / a)) with t by (field; lra); lra.
  - replace (y / a * 100 * (a / 100)) with y by (field; lra); lra. }
destruct (Rle_dec x 0) as [H|H].
- destruct (Rle_dec 0 (88 / 100)); [|lra]; split; [lra|intro P].
  destruct (Rle_lt_or_eq_dec _ _ H) as [L|L]; [right; left; split; [reflexivity|]|left].
  + apply S1; nra.
  + rewrite L in X; replace (mo + 0 * sg) with (t / 100 * a) by lra; field; lra.
- destruct (Rle_dec x (88 / 100)) as [H0|H0].
  + split; [lra|intro P; left; rewrite X; replace (mo + (t / 100 * a - mo)) with (t / 100 * a) by ring; field; lra].
  + split; [lra|intro P; right; right; split; [reflexivity|]]; apply S0; nra.
Qed.

Lemma eta_met : 0 < house_area h ->
  exists ua (eta : season -> R) (sg eta_d : season -> R),
  check_u_a_and_eta_a region gps ws ds eps ecs = Ok (ua, Some (eta Heating), eta Cooling) /\
  forall s, window_gain region s h (sg s) /\ (forall w, In w ws -> get_eta_d_of (w_spec w) s = eta_d s) /\
    met (sg s) (eta_d s) (eta s) (target s).
Proof.
intro A; destruct season_gain as (mo & sg & ed & H).
destruct (result_loss _ _ _ _ _ _ _ _ _ _ NN UA OK) as (std & v & _ & _ & _ & _ & _ & _ & Q).
assert (N8 := not_region_8); apply Z.eqb_neq in N8.
destruct (H Heating) as (MH & _), (H Cooling) as (MC & _).
unfold check_u_a_and_eta_a; rewrite (result_area _ _ _ _ _ _ _ _ _ _ NN UA OK), Q, N8, MH, MC; cbn [bind].
rewrite !fdiv_ok by lra; cbn [bind].
eexists; exists (fun s => (mo s + ed s * sg s) / house_area h * 100), sg, ed; split; [reflexivity|].
intro s; destruct (H s) as (_ & WG & NZ & EW & EQ); split; [exact WG|]; split; [exact EW|].
rewrite EQ; apply clip_met; assumption.
Qed.
End gain.

(* what cannot be converted *)
Lemma attached_fails region u_a eta_h eta_c h g : In g (n_gps h) -> gp_kind g = UPWARD_BOUNDARY_FLOOR \/ gp_kind g = DOWNWARD_BOUNDARY_FLOOR ->
  exists e, spec_from_indices region u_a eta_h eta_c h = Err e.
Proof.
intros I K; destruct (spec_from_indices region u_a eta_h eta_c h) as [((((gps & ws) & ds) & eps) & ecs)|e] eqn:OK; [exfalso|exists e; reflexivity].
revert OK; unfold spec_from_indices; destruct (calc_parts_spec _ _ _ _ _) as [((u & e_h) & e_c)|]; cbn [bind]; [|discriminate].
destruct (mapM (add_spec_gp u) _) as [l|] eqn:G; cbn [bind]; [|discriminate]; intros _.
apply mapM_rel in G; induction G as [|x y l' r H G IH]; [destruct I|]; destruct I as [->|I]; [|auto].
unfold add_spec_gp in H; destruct K as [K|K]; rewrite K in H; discriminate.
Qed.

Lemma bind_err A B (x : res A) (f : A -> res B) : (exists e, x = Err e) -> exists e, bind x f = Err e.
Proof. intros (e & ->); exists e; reflexivity. Qed.
Lemma bind_err2 A B (x : res A) (f : A -> res B) : (forall a, x = Ok a -> exists e, f a = Err e) -> exists e, bind x f = Err e.
Proof. intro H; destruct x as [a|e]; [apply H; reflexivity|exists e; reflexivity]. Qed.

Lemma region_8_fails u_a eta_h eta_c h : exists e, spec_from_indices 8 u_a eta_h eta_c h = Err e.
Proof.
unfold spec_from_indices; apply bind_err; unfold calc_parts_spec; do 6 (apply bind_err2; intros ? _).
destruct (n_ws h) as [|w l].
- apply bind_err2; intros s_h S0; apply bind_err2; intros s_c _; apply bind_err; exists ZeroDivisionError.
  apply ok_inj in S0; rewrite <- S0; change (py_sum []) with 0; unfold get_eta_d_each, fdiv; destruct (Req_EM_T 0 0) as [|N]; [reflexivity|destruct N; reflexivity].
- apply bind_err; unfold sum_a_f_nu; rewrite sumM_cons; apply bind_err; apply bind_err.
  unfold w_f, get_f, get_f_simple; destruct (w_shade w); simpl; eexists; reflexivity.
Qed.

Lemma region_fails region u_a eta_h eta_c h : (region < 1 \/ 8 < region)%Z -> exists e, spec_from_indices region u_a eta_h eta_c h = Err e.
Proof.
intro H; unfold spec_from_indices; apply bind_err; unfold calc_parts_spec; apply bind_err.
destruct (tabulate (get_u_psi_std region)) as [F|e] eqn:T; [|exists e; reflexivity]; destruct (std_region _ _ T) as (R & _); lia.
Qed.

(* nothing loses heat, but a negative loss is asked for *)
Lemma nothing_to_distribute f_max q : (forall p, 0 <= f_max p) -> q < 0 -> get_f_u_psi (fun _ => 0) f_max q = Err ZeroDivisionError.
Proof.
intros F H; unfold get_f_u_psi.
assert (Z : forall l : list part_type, py_sum (map (fun _ => 0) l) = 0).
{ induction l as [|x l IH]; [reflexivity|]; change (0 + py_sum (map (fun _ => 0) l) = 0); rewrite IH; ring. }
change (List.length part_types) with (S 9).
assert (G : forall n p r, get_remaining_f (S n) (fun _ => 0) f_max q 0 (p :: r) = Err ZeroDivisionError); [|apply G].
intros n p r; cbn [get_remaining_f]; rewrite Z; destruct (Rlt_dec q _) as [L|L]; [|exfalso; apply L; lra].
unfold fdiv; destruct (Req_EM_T 0 0) as [|N]; [reflexivity|destruct N; reflexivity].
Qed.

(* larger demand, larger multipliers *)
Lemma fill_mono (q_std f_max : part_type -> R) q q' d d' p x x' : (forall p, 0 <= q_std p) -> (forall p, 0 <= f_max p) -> 0 <= q <= q' ->
  get_f_u_psi q_std f_max q = Ok d -> get_f_u_psi q_std f_max q' = Ok d' -> 0 < q_std p -> entry p d = Ok x -> entry p d' = Ok x' -> x <= x'.
Proof.
intros Q F (H & H') E E' P X X'.
destruct (get_f_ok q_std f_max q Q F H) as (e & v & D & V & EN & _ & S0); rewrite D in E; apply ok_inj in E; subst e.
destruct (get_f_ok q_std f_max q' Q F ltac:(lra)) as (e & v' & D' & V' & EN' & _ & S0'); rewrite D' in E'; apply ok_inj in E'; subst e.
rewrite EN in X; rewrite EN' in X'; apply ok_inj in X; apply ok_inj in X'; subst x x'.
destruct (Rle_lt_dec v v') as [L|L]; [unfold Rmin; destruct (Rle_dec v (f_max p)), (Rle_dec v' (f_max p)); lra|].
assert (MI : forall p, Rmin v' (f_max p) <= Rmin v (f_max p)) by (intro y; unfold Rmin; destruct (Rle_dec v (f_max y)), (Rle_dec v' (f_max y)); lra).
destruct (Rle_lt_dec (Rmin v (f_max p)) (Rmin v' (f_max p))) as [|G]; [assumption|exfalso].
assert (SL : sum (map (fun p => q_std p * Rmin v' (f_max p)) part_types) < sum (map (fun p => q_std p * Rmin v (f_max p)) part_types)).
{ assert (S1 : forall l, In p l -> sum (map (fun p => q_std p * Rmin v' (f_max p)) l) < sum (map (fun p => q_std p * Rmin v (f_max p)) l)).
  { intro l; induction l as [|y l IH]; intro I; [destruct I|].
    assert (LE : sum (map (fun p => q_std p * Rmin v' (f_max p)) l) <= sum (map (fun p => q_std p * Rmin v (f_max p)) l)).
    { apply sum_map_le; intros z _; apply Rmult_le_compat_l; [apply Q|apply MI]. }
    assert (LY : q_std y * Rmin v' (f_max y) <= q_std y * Rmin v (f_max y)) by (apply Rmult_le_compat_l; [apply Q|apply MI]).
    destruct I as [->|I].
    - assert (q_std p * Rmin v' (f_max p) < q_std p * Rmin v (f_max p)) by (apply Rmult_lt_compat_l; assumption); unfold sum in *; simpl; lra.
    - specialize (IH I); unfold sum in *; simpl; lra. }
  apply S1; destruct p; simpl; tauto. }
rewrite S0, S0' in SL; assert (Rmin q (sum (map (fun p => q_std p * f_max p) part_types)) <= Rmin q' (sum (map (fun p => q_std p * f_max p) part_types))); [|lra].
unfold Rmin; destruct (Rle_dec q _), (Rle_dec q' _); lra.
Qed.
