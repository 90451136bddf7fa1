From Coq Require Import Reals ZArith List Lra Lia.
From Verif Require Import Model.Py Model.FactorH Model.FactorNu Model.FactorF Model.EesHouse Model.CheckUa Spec.ShadeSpec
  Lemmas.PyL Lemmas.Lv3L.
Import ListNotations.
Local Open Scope R_scope.

Lemma ratio_mono a b c d : 0 <= c <= a -> 0 < b <= d -> c / d <= a / b.
Proof.
intros (C & CA) (B & BD); unfold Rdiv; apply Rmult_le_compat; [exact C|left; apply Rinv_0_lt_compat; lra|exact CA|].
apply Rinv_le_contravar; assumption.
Qed.

Lemma simple_range a b c limit depth d_h d_e : 0 <= a -> 0 <= b -> 0 <= c -> a / 100 <= limit -> 0 < depth -> 0 <= d_h -> 0 <= d_e ->
  exists f, f_simple a b c limit depth d_h d_e = Ok f /\ a / 100 <= f <= limit.
Proof.
intros A B C L D H E; unfold f_simple; destruct (Req_EM_T depth 0); [lra|]; eexists; split; [reflexivity|].
assert (0 <= b * (c * d_e + d_h) / depth).
{ apply Rmult_le_pos; [apply Rmult_le_pos; [exact B|]|left; apply Rinv_0_lt_compat, D]; assert (0 <= c * d_e) by (apply Rmult_le_pos; assumption); lra. }
split; [apply Rmin_glb; lra|apply Rmin_r].
Qed.

Lemma simple_mono a b c limit depth d_h d_e depth' d_h' d_e' f f' : 0 <= b -> 0 <= c -> 0 < depth <= depth' -> 0 <= d_h' <= d_h -> 0 <= d_e' <= d_e ->
  f_simple a b c limit depth d_h d_e = Ok f -> f_simple a b c limit depth' d_h' d_e' = Ok f' -> f' <= f.
Proof.
intros B C D H E; unfold f_simple; destruct (Req_EM_T depth 0); [lra|]; destruct (Req_EM_T depth' 0); [lra|].
intros F F'; apply ok_inj in F; apply ok_inj in F'; subst f f'.
assert (K : b * (c * d_e' + d_h') / depth' <= b * (c * d_e + d_h) / depth).
{ apply ratio_mono; [|exact D]; assert (0 <= c * d_e') by (apply Rmult_le_pos; lra).
  split; [apply Rmult_le_pos; lra|apply Rmult_le_compat_l; [exact B|]].
  assert (c * d_e' <= c * d_e) by (apply Rmult_le_compat_l; lra); lra. }
apply Rle_min_compat_r; lra.
Qed.

(* the factor of a face under a shade *)
Lemma face_range depth d_h d_e region s d : season_of region s -> compass d -> 0 < depth -> 0 <= d_h -> 0 <= d_e ->
  exists f, get_f (TrSimple depth d_h d_e) region s d = Ok f /\
    match s with Heating => 5 / 100 <= f <= 72 / 100 | Cooling => 16 / 100 <= f <= 93 / 100 end.
Proof.
intros S C D H E; unfold get_f, get_f_simple.
assert (K : forall a b c limit, 0 <= a -> 0 <= b -> 0 <= c -> a / 100 <= limit ->
  exists f, f_simple a b c limit depth d_h d_e = Ok f /\ a / 100 <= f <= limit) by (intros; apply simple_range; assumption).
destruct s.
- destruct S as [S|S]; [discriminate|]; apply Z.eqb_neq in S; rewrite S.
  destruct d; try destruct C;
  match goal with |- exists f, f_simple ?a ?b ?c ?l _ _ _ = _ /\ _ => destruct (K a b c l) as (f & F & B); [lra..|exists f; split; [exact F|lra]] end.
- destruct (region =? 8)%Z; destruct d; try destruct C;
  match goal with |- exists f, f_simple ?a ?b ?c ?l _ _ _ = _ /\ _ => destruct (K a b c l) as (f & F & B); [lra..|exists f; split; [exact F|lra]] end.
Qed.

Lemma shade_le region s w w' f f' : deeper w w' -> w_f region s (w_ns w) = Ok f -> w_f region s (w_ns w') = Ok f' -> f' <= f.
Proof.
intros (_ & Ev & [Sh|(depth & d_h & d_e & depth' & d_h' & d_e' & S & S' & D & H & E)]); unfold w_f; rewrite Ev.
- rewrite Sh; intros F F'; rewrite F in F'; apply ok_inj in F'; lra.
- rewrite S, S'; unfold get_f, get_f_simple.
  destruct s; [destruct (region =? 8)%Z; [discriminate|]|destruct (region =? 8)%Z]; destruct (e_direction (w_env (w_ns w))); try discriminate;
    try (apply simple_mono; try assumption; lra); intros F F'; apply ok_inj in F; apply ok_inj in F'; lra.
Qed.

Lemma shade_defined region s w w' f : deeper w w' -> w_f region s (w_ns w) = Ok f -> exists f', w_f region s (w_ns w') = Ok f'.
Proof.
intros (_ & Ev & [Sh|(depth & d_h & d_e & depth' & d_h' & d_e' & S & S' & D & H & E)]); unfold w_f; rewrite Ev.
- rewrite Sh; intro F; exists f; exact F.
- rewrite S, S'; unfold get_f, get_f_simple.
  destruct s; [destruct (region =? 8)%Z; [discriminate|]|destruct (region =? 8)%Z]; destruct (e_direction (w_env (w_ns w))); try discriminate;
    try (intros _; eexists; reflexivity);
    unfold f_simple; intros _; destruct (Req_EM_T depth' 0); [lra|eexists; reflexivity|lra|eexists; reflexivity|..]; try (lra || (eexists; reflexivity)).
Qed.

Lemma nu_nonneg d region s nu : get_nu d region s = Ok nu -> 0 <= nu.
Proof.
assert (K : forall row, Forall (fun z => (0 <= z)%Z) row -> of_region row region = Ok nu -> 0 <= nu).
{ intros row P; unfold of_region; destruct (region <=? 0)%Z; [discriminate|]; destruct (nth_error _ _) as [z|] eqn:N; [|discriminate].
  intro E; apply ok_inj in E; apply nth_error_In in N; rewrite Forall_forall in P; specialize (P _ N); apply IZR_le in P; lra. }
unfold get_nu; destruct s; [destruct (region =? 8)%Z; [discriminate|]|]; destruct d; simpl; try discriminate; apply K; repeat constructor; lia.
Qed.

Lemma gain_le region s w w' m m' : deeper w w' -> window_data w -> w_m region s w = Ok m -> w_m region s w' = Ok m' -> m' <= m.
Proof.
intros Dp (A & Et); unfold w_m; destruct Dp as (Sp & Ev & Sh) eqn:Q; clear Q; unfold w_area; rewrite Sp, Ev.
destruct (w_f region s (w_ns w)) as [f|] eqn:F; simpl; [|discriminate]; destruct (w_f region s (w_ns w')) as [f'|] eqn:F'; simpl; [|discriminate].
destruct (env_nu (w_env (w_ns w)) region s) as [nu|] eqn:N; simpl; [|discriminate].
intros E E'; apply ok_inj in E; apply ok_inj in E'; subst m m'.
assert (L : f' <= f) by (eapply shade_le; [split; [exact Sp|split; [exact Ev|exact Sh]]|exact F|exact F']).
assert (P : 0 <= nu) by (revert N; unfold env_nu; destruct (e_next_space _); intro N; try (apply ok_inj in N; lra); eapply nu_nonneg, N).
apply Rmult_le_compat_r; [exact P|]; apply Rmult_le_compat_l; [|exact L]; apply Rmult_le_pos; [destruct Et as [Eh Ec], s; assumption|exact A].
Qed.

Lemma gain_defined region s w w' m : deeper w w' -> w_m region s w = Ok m -> exists m', w_m region s w' = Ok m'.
Proof.
intros Dp; unfold w_m; destruct (w_f region s (w_ns w)) as [f|] eqn:F; simpl; [|discriminate].
destruct (shade_defined _ _ _ _ _ Dp F) as (f' & F'); rewrite F'; simpl; destruct Dp as (_ & -> & _).
destruct (env_nu _ _ _); simpl; [eexists; reflexivity|discriminate].
Qed.

Lemma gains_le region s ws ws' m : Forall2 deeper ws ws' -> Forall window_data ws -> sumM (w_m region s) ws = Ok m ->
  exists m', sumM (w_m region s) ws' = Ok m' /\ m' <= m.
Proof.
intros F; revert m; induction F as [|w w' ws ws' D F IH]; intros m W; [intro E; exists m; split; [exact E|lra]|].
inversion W; subst; rewrite !sumM_cons; destruct (w_m region s w) as [x|] eqn:X; simpl; [|discriminate].
destruct (sumM (w_m region s) ws) as [y|]; simpl; [|discriminate]; destruct (IH _ H2 eq_refl) as (y' & -> & Y).
destruct (gain_defined _ _ _ _ _ D X) as (x' & X'); rewrite X'; simpl; intro E; apply ok_inj in E; eexists; split; [reflexivity|].
pose proof (gain_le _ _ _ _ _ _ D H1 X X'); lra.
Qed.

Lemma losses_eq region ws ws' : Forall2 deeper ws ws' -> sumM (w_q region) ws' = sumM (w_q region) ws.
Proof.
intro F; induction F as [|w w' ws ws' D F IH]; [reflexivity|]; rewrite !sumM_cons, IH.
destruct D as (Sp & Ev & _); unfold w_q, w_area; rewrite Sp, Ev; reflexivity.
Qed.

Lemma areas_eq ws ws' : Forall2 deeper ws ws' -> map w_area ws' = map w_area ws.
Proof.
intro F; induction F as [|w w' ws ws' D F IH]; [reflexivity|]; simpl; rewrite IH; destruct D as (_ & Ev & _); unfold w_area; rewrite Ev; reflexivity.
Qed.

Lemma shaded_check region gps ws ws' ds eps ecs ua eta_h eta_c : Forall2 deeper ws ws' -> Forall window_data ws ->
  0 < envelope_total_area gps ws ds ecs ->
  check_u_a_and_eta_a region gps ws ds eps ecs = Ok (ua, eta_h, eta_c) ->
  exists eta_h' eta_c', check_u_a_and_eta_a region gps ws' ds eps ecs = Ok (ua, eta_h', eta_c') /\ eta_c' <= eta_c /\
    match eta_h, eta_h' with None, None => True | Some a, Some b => b <= a | _, _ => False end.
Proof.
intros Dp W A; unfold check_u_a_and_eta_a.
assert (Ea : envelope_total_area gps ws' ds ecs = envelope_total_area gps ws ds ecs) by (unfold envelope_total_area; rewrite (areas_eq _ _ Dp); reflexivity).
rewrite Ea; set (a := envelope_total_area gps ws ds ecs) in *; clearbody a.
assert (Eq : total_q region gps ws' ds eps = total_q region gps ws ds eps) by (unfold total_q; rewrite (losses_eq _ _ _ Dp); reflexivity).
rewrite Eq; destruct (total_q region gps ws ds eps) as [q|]; simpl; [|discriminate].
assert (Fd : forall x, fdiv x a = Ok (x / a)) by (intro x; unfold fdiv; destruct (Req_EM_T a 0); [lra|reflexivity]).
rewrite !Fd; simpl.
assert (K : forall s m, total_m region s gps ws ds = Ok m -> exists m', total_m region s gps ws' ds = Ok m' /\ m' / a * 100 <= m / a * 100).
{ intros s m; unfold total_m; destruct (sumM (gp_m region s) gps) as [g|]; simpl; [|discriminate].
  destruct (sumM (w_m region s) ws) as [w|] eqn:Ew; simpl; [|discriminate]; destruct (gains_le _ _ _ _ _ Dp W Ew) as (w' & Ew' & L).
  rewrite Ew'; simpl; destruct (sumM (d_m region s) ds) as [d|]; simpl; [|discriminate]; intro E; apply ok_inj in E; subst m.
  eexists; split; [reflexivity|]; apply Rmult_le_compat_r; [lra|]; unfold Rdiv; apply Rmult_le_compat_r; [left; apply Rinv_0_lt_compat, A|lra]. }
destruct (region =? 8)%Z; simpl.
- destruct (total_m region Cooling gps ws ds) as [m|] eqn:M; simpl; [|discriminate]; destruct (K _ _ M) as (m' & -> & L); simpl; rewrite !Fd; simpl.
  intro E; injection E as <- <- <-; do 2 eexists; split; [reflexivity|]; split; [exact L|exact I].
- destruct (total_m region Heating gps ws ds) as [mh|] eqn:MH; simpl; [|discriminate]; destruct (K _ _ MH) as (mh' & -> & LH); simpl; rewrite !Fd; simpl.
  destruct (total_m region Cooling gps ws ds) as [m|] eqn:M; simpl; [|discriminate]; destruct (K _ _ M) as (m' & -> & L); simpl; rewrite !Fd; simpl.
  intro E; injection E as <- <- <-; do 2 eexists; split; [reflexivity|]; split; [exact L|exact LH].
Qed.

Lemma nu_rows region x row : of_region row region = Ok x -> exists z, nth_error row (Z.to_nat (region - 1)) = Some z /\ x = IZR z / 1000.
Proof.
unfold of_region; destruct (region <=? 0)%Z; [discriminate|]; destruct (nth_error _ _) as [z|]; [|discriminate].
intro H; injection H as <-; exists z; auto.
Qed.

Lemma nu_faces region s d x : get_nu d region s = Ok x ->
  0 <= x <= 1023 / 1000 /\ (d = DTop -> x = 1) /\ (d = DBottom -> x = 0) /\
  (compass d -> (exists n, get_nu DN region s = Ok n /\ n <= x) /\
    (s = Heating -> exists m, get_nu DS region s = Ok m /\ x <= m)).
Proof.
assert (OK : forall row z, (0 < region)%Z -> nth_error row (Z.to_nat (region - 1)) = Some z -> of_region row region = Ok (IZR z / 1000)).
{ intros row z P E; unfold of_region; destruct (Z.leb_spec region 0); [lia|]; rewrite E; reflexivity. }
destruct s; unfold get_nu; [destruct (region =? 8)%Z; [discriminate|]|];
(destruct d; simpl; intro E; try discriminate E;
 assert (P : (0 < region)%Z) by (unfold of_region in E; destruct (Z.leb_spec region 0); [discriminate E|assumption]);
 destruct (nu_rows _ _ _ E) as (z & N & ->); clear E;
 remember (Z.to_nat (region - 1)) as k eqn:K; clear K;
 do 8 (destruct k as [|k]; [simpl in N; try discriminate N; injection N as <-;
   repeat split; try lra; try discriminate; try contradiction;
   try (intros; eexists; split; [eapply OK; [exact P|reflexivity]|lra])|]); destruct k; discriminate N).
Qed.
