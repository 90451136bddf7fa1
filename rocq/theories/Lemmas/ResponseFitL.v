From Coq Require Import Reals List String Bool Lra Lia Psatz.
From Verif Require Import Model.Py Model.BoundaryDict Model.ResponseFactor Spec.WallResponse Lemmas.PyL Lemmas.ResponseFactorL.
From Verif Require Lemmas.GaussL.
Import ListNotations.
Local Open Scope R_scope.

(* finite sums *)
Definition S {A} (f : A -> R) (l : list A) : R := add_up (map f l).

Lemma S_cons A (f : A -> R) a l : S f (a :: l) = f a + S f l.
Proof. reflexivity. Qed.

Lemma S_ext A (f g : A -> R) l : (forall a, In a l -> f a = g a) -> S f l = S g l.
Proof. induction l as [|a l IH]; intro H; [reflexivity|]; rewrite !S_cons, H, IH; auto; [intros; apply H; right; auto|left; auto]. Qed.

Lemma S_plus A (f g : A -> R) l : S (fun a => f a + g a) l = S f l + S g l.
Proof. induction l as [|a l IH]; [unfold S; simpl; ring|rewrite !S_cons, IH; ring]. Qed.

Lemma S_scal A (f : A -> R) c l : S (fun a => c * f a) l = c * S f l.
Proof. induction l as [|a l IH]; [unfold S; simpl; ring|rewrite !S_cons, IH; ring]. Qed.

Lemma S_minus A (f g : A -> R) l : S (fun a => f a - g a) l = S f l - S g l.
Proof. induction l as [|a l IH]; [unfold S; simpl; ring|rewrite !S_cons, IH; ring]. Qed.

Lemma S_zero A (l : list A) : S (fun _ => 0) l = 0.
Proof. induction l as [|a l IH]; [reflexivity|rewrite S_cons, IH; ring]. Qed.

Lemma S_swap A B (f : A -> B -> R) l m : S (fun a => S (f a) m) l = S (fun b => S (fun a => f a b) l) m.
Proof.
induction l as [|a l IH]; [symmetry; apply (S_zero _ m)|].
rewrite S_cons, IH, <- S_plus; apply S_ext; intros b _; reflexivity.
Qed.

Lemma S_map A B (g : A -> B) (f : B -> R) l : S f (map g l) = S (fun a => f (g a)) l.
Proof. unfold S; rewrite map_map; reflexivity. Qed.

Lemma S_sq_zero A (f : A -> R) l : S (fun a => f a ^ 2) l <= 0 -> forall a, In a l -> f a = 0.
Proof.
assert (P : forall l, 0 <= S (fun a => f a ^ 2) l).
{ induction l0 as [|a l0 IH]; [unfold S; simpl; lra|rewrite S_cons; pose proof (pow2_ge_0 (f a)); lra]. }
induction l as [|a l IH]; intros H b; [intros []|]; rewrite S_cons in H.
pose proof (pow2_ge_0 (f a)); specialize (P l).
intros [<-|I]; [|apply IH; [lra|exact I]].
assert (E : f a ^ 2 = 0) by lra; simpl in E; nra.
Qed.

Lemma S_nonneg A (f : A -> R) l : (forall a, In a l -> 0 <= f a) -> 0 <= S f l.
Proof. induction l as [|a l IH]; intro H; [unfold S; simpl; lra|rewrite S_cons]; assert (0 <= f a) by (apply H; left; auto); assert (0 <= S f l) by (apply IH; intros; apply H; right; auto); lra. Qed.

(* scalar products as sums over positions *)
Lemma scalar_S r v n : List.length r = n -> List.length v = n -> scalar r v = S (fun j => nth j r 0 * nth j v 0) (seq 0 n).
Proof.
revert v n; induction r as [|x r IH]; intros [|y v] [|n] Lr Lv; simpl in *; try discriminate; [reflexivity|].
unfold scalar; simpl; rewrite S_cons; f_equal; change (scalar r v = S (fun j => nth j (x :: r) 0 * nth j (y :: v) 0) (seq 1 n)).
rewrite (IH v n), <- seq_shift, S_map by lia; reflexivity.
Qed.

Lemma scalar_map A f (g : A -> R) l : scalar (map f l) (map g l) = S (fun a => f a * g a) l.
Proof. induction l as [|a l IH]; [reflexivity|]; unfold scalar in *; simpl; rewrite IH; reflexivity. Qed.

Lemma nth_seq_map (f : nat -> R) n i : (i < n)%nat -> nth i (map f (seq 0 n)) 0 = f i.
Proof.
intro H; rewrite nth_indep with (d' := f 0%nat) by (rewrite map_length, seq_length; exact H); rewrite map_nth, seq_nth; auto.
Qed.

Section Fit.
Variables (f : list (list R)) (n : nat).
Hypothesis rows : forall r, In r f -> List.length r = n.

Lemma column_inner i j : inner (column f i) (column f j) = S (fun r => nth i r 0 * nth j r 0) f.
Proof. rewrite inner_scalar; apply scalar_map. Qed.

Lemma u_apply c : List.length c = n -> apply (get_mat_u f n) c = map (fun i => S (fun r => nth i r 0 * scalar r c) f) (seq 0 n).
Proof.
intro L; unfold apply, get_mat_u; rewrite map_map; apply map_ext_in; intros i _.
rewrite (scalar_S _ _ n) by (rewrite ?map_length, ?seq_length; auto).
rewrite (S_ext _ _ (fun j => S (fun r => nth i r 0 * (nth j r 0 * nth j c 0)) f)).
- rewrite S_swap; apply S_ext; intros r I; rewrite S_scal, (scalar_S r c n) by auto; reflexivity.
- intros j J; apply in_seq in J; rewrite nth_seq_map, column_inner by lia.
  rewrite Rmult_comm, <- S_scal; apply S_ext; intros; ring.
Qed.

(* d . (F^T w) = sum over rows (r . d) w_r *)
Lemma transpose_form d (w : list R -> R) : List.length d = n ->
  S (fun i => nth i d 0 * S (fun r => nth i r 0 * w r) f) (seq 0 n) = S (fun r => scalar r d * w r) f.
Proof.
intro L; rewrite (S_ext _ _ (fun i => S (fun r => nth i d 0 * (nth i r 0 * w r)) f)) by (intros; symmetry; apply S_scal).
rewrite S_swap; apply S_ext; intros r I; rewrite (scalar_S r d n), Rmult_comm, <- S_scal by auto; apply S_ext; intros; ring.
Qed.

Lemma kernel c : List.length c = n -> apply (get_mat_u f n) c = repeat 0 n -> forall r, In r f -> scalar r c = 0.
Proof.
intros L E; rewrite u_apply in E by exact L; apply S_sq_zero.
rewrite (S_ext _ _ (fun r => scalar r c * scalar r c)) by (intros; ring).
rewrite <- (transpose_form c (fun r => scalar r c) L).
rewrite (S_ext _ _ (fun _ => 0)); [rewrite S_zero; lra|].
intros i I; apply in_seq in I.
assert (X : S (fun r => nth i r 0 * scalar r c) f = 0); [|rewrite X; ring].
rewrite <- (nth_seq_map (fun i => S (fun r => nth i r 0 * scalar r c) f) n i) by lia; rewrite E.
destruct (nth_in_or_default i (repeat 0 n) 0) as [J|J]; [apply repeat_spec in J; exact J|exact J].
Qed.
End Fit.

(* a Cauchy matrix has no kernel *)
Definition pole (s : R) (p : R * R) : R := fst p / (s + snd p).

Lemma cauchy (l : list (R * R)) : forall ss, List.length ss = List.length l -> NoDup ss -> NoDup (map snd l) ->
  (forall s, In s ss -> 0 < s) -> (forall p, In p l -> 0 < snd p) ->
  (forall s, In s ss -> S (pole s) l = 0) -> forall p, In p l -> fst p = 0.
Proof.
remember (List.length l) as k eqn:K; revert l K; induction k as [|k IH]; intros l K ss Ls Ds Dl Ps Pl H.
{ destruct l; [intros p []|discriminate]. }
destruct l as [|[cn an] l]; [discriminate|]; destruct ss as [|sn ss]; [discriminate|].
injection K as K; injection Ls as Ls; inversion Ds as [|? ? Ns Ds']; inversion Dl as [|? ? Na Dl']; subst.
assert (Psn : 0 < sn) by (apply Ps; left; auto); assert (Pan : 0 < an) by (apply (Pl (cn, an)); left; auto).
set (l' := map (fun p => (fst p * (snd p - an) / (sn + snd p), snd p)) l).
assert (Hn : S (pole sn) ((cn, an) :: l) = 0) by (apply H; left; auto).
assert (Z' : forall p, In p l' -> fst p = 0).
{ apply (IH l') with (ss := ss); auto.
  - unfold l'; rewrite map_length; auto.
  - unfold l'; rewrite map_map; simpl; exact Dl'.
  - intros s I; apply Ps; right; auto.
  - intros p I; unfold l' in I; apply in_map_iff in I; destruct I as [p' [<- I]]; simpl; apply Pl; right; auto.
  - intros s I; assert (Pos : 0 < s) by (apply Ps; right; auto).
    assert (Hs : S (pole s) ((cn, an) :: l) = 0) by (apply H; right; auto).
    rewrite S_cons in Hn, Hs; change (pole sn (cn, an)) with (cn / (sn + an)) in Hn; change (pole s (cn, an)) with (cn / (s + an)) in Hs.
    assert (N : s - sn <> 0) by (intro X; apply Ns; replace sn with s by lra; exact I).
    unfold l'; rewrite S_map.
    assert (E : S (fun p => pole s (fst p * (snd p - an) / (sn + snd p), snd p)) l = / (s - sn) * ((s + an) * S (pole s) l - (sn + an) * S (pole sn) l)).
    { rewrite <- !S_scal, <- S_minus, <- S_scal.
      apply S_ext; intros p I'; assert (0 < snd p) by (apply Pl; right; auto); unfold pole; simpl; field; lra. }
    rewrite E; apply Rmult_eq_0_compat_l.
    assert (E1 : (s + an) * S (pole s) l = - cn).
    { assert (X : (s + an) * (cn / (s + an) + S (pole s) l) = 0) by (rewrite Hs; ring).
      rewrite Rmult_plus_distr_l in X; replace ((s + an) * (cn / (s + an))) with cn in X by (field; lra); lra. }
    assert (E2 : (sn + an) * S (pole sn) l = - cn).
    { assert (X : (sn + an) * (cn / (sn + an) + S (pole sn) l) = 0) by (rewrite Hn; ring).
      rewrite Rmult_plus_distr_l in X; replace ((sn + an) * (cn / (sn + an))) with cn in X by (field; lra); lra. }
    lra. }
assert (Z : forall p, In p l -> fst p = 0).
{ intros p I; assert (Pp : 0 < snd p) by (apply Pl; right; auto).
  assert (X := Z' (fst p * (snd p - an) / (sn + snd p), snd p)); simpl in X.
  assert (Y : fst p * (snd p - an) / (sn + snd p) = 0) by (apply X; unfold l'; apply in_map_iff; exists p; auto).
  assert (N : snd p - an <> 0) by (intro Q; apply Na; replace an with (snd p) by lra; apply in_map; exact I).
  assert (W : fst p * (snd p - an) = 0).
  { replace (fst p * (snd p - an)) with (fst p * (snd p - an) / (sn + snd p) * (sn + snd p)) by (field; lra); rewrite Y; ring. }
  apply Rmult_integral in W; destruct W as [W|W]; [exact W|contradiction]. }
intros p [<-|I]; [|apply Z; exact I]; simpl.
rewrite S_cons in Hn; rewrite (S_ext _ _ (fun _ => 0) l), S_zero in Hn by (intros q I; unfold pole; rewrite (Z q I); unfold Rdiv; ring).
unfold pole in Hn; simpl in Hn.
replace cn with (cn / (sn + an) * (sn + an)) by (field; lra); replace (cn / (sn + an)) with 0 by lra; ring.
Qed.

(* the fixed roots themselves are among the Laplace variables *)
Lemma lap_root alp a : In a alp -> In a (get_laps alp).
Proof.
intro I; destruct (In_nth _ _ 0 I) as [i [Hi Ei]]; unfold get_laps; apply in_map_iff; exists (2 * i + 1)%nat; split.
- unfold get_lap; replace (Nat.odd (2 * i + 1)) with true by (rewrite Nat.add_comm, Nat.odd_add_mul_2; reflexivity).
  rewrite Nat.add_1_r, Nat.div2_succ_double; exact Ei.
- apply in_seq; lia.
Qed.

Lemma mat_f_rows laps alp r : In r (get_mat_f laps alp) -> List.length r = List.length alp.
Proof. unfold get_mat_f; intro I; apply in_map_iff in I; destruct I as [s [<- _]]; apply map_length. Qed.

Lemma scalar_poles s alp c : scalar (map (fun a => s / (s + a)) alp) c = s * S (pole s) (combine c alp).
Proof.
revert c; induction alp as [|a alp IH]; intros [|x c]; unfold scalar in *; simpl; try (unfold S; simpl; ring).
rewrite IH, S_cons; unfold pole at 2; simpl; unfold Rdiv; ring.
Qed.

Lemma fit_kernel g c : let alp := get_alpha_m g in let n := List.length alp in
  List.length c = n -> apply (get_mat_u (get_mat_f (get_laps alp) alp) n) c = repeat 0 n -> c = repeat 0 n.
Proof.
intros alp n L E.
assert (K := kernel _ n (fun r I => mat_f_rows _ _ r I) c L E).
assert (Z : forall p, In p (combine c alp) -> fst p = 0).
{ apply cauchy with (ss := alp).
  - rewrite combine_length; fold n; lia.
  - apply alpha_distinct.
  - replace (map snd (combine c alp)) with alp; [apply alpha_distinct|].
    clear -L; unfold n in L; clear n; revert c L; induction alp as [|a l IH]; intros [|x c] L; simpl in *; try discriminate; auto; f_equal; apply IH; lia.
  - apply alpha_pos.
  - intros [x a] I; simpl; apply in_combine_r in I; apply (alpha_pos g), I.
  - intros s I; assert (P := alpha_pos g s I).
    assert (X : scalar (map (fun a => s / (s + a)) alp) c = 0).
    { apply K; unfold get_mat_f; apply in_map_iff; exists s; split; [reflexivity|apply lap_root, I]. }
    rewrite scalar_poles in X; apply Rmult_integral in X; destruct X; [lra|assumption]. }
apply (nth_ext _ _ 0 0); [rewrite repeat_length; exact L|]; intros i Hi; rewrite nth_repeat.
assert (X := Z (nth i c 0, nth i alp 0)); simpl in X; apply X.
rewrite <- combine_nth by exact L; apply nth_In; rewrite combine_length; fold n; lia.
Qed.

(* transfer functions *)
Definition plus_quad (q : quad) : Prop := 0 < q00 q /\ 0 <= q01 q /\ 0 <= q10 q /\ 0 < q11 q.

Lemma cosh_pos t : 0 < cosh t.
Proof. unfold cosh; pose proof (exp_pos t); pose proof (exp_pos (- t)); lra. Qed.

Lemma sinh_nonneg t : 0 <= t -> 0 <= sinh t.
Proof.
intro H; unfold sinh; assert (exp (- t) <= exp t); [|lra].
destruct H as [H|<-]; [left; apply exp_increasing; lra|rewrite Ropp_0; lra].
Qed.

Lemma fi_plus s r c : 0 < s -> 0 <= r -> 0 <= c -> (0 < r \/ c = 0) -> exists q, get_fi s r c = Ok q /\ plus_quad q.
Proof.
intros Hs Hr Hc Hrc; unfold get_fi; destruct (Rlt_dec (Rabs c) (1 / 1000)) as [A|A].
{ eexists; split; [reflexivity|]; unfold plus_quad; simpl; lra. }
destruct Hrc as [Hr'| ->]; [|rewrite Rabs_R0 in A; lra].
assert (P : 0 <= r * c * s) by (apply Rmult_le_pos; [apply Rmult_le_pos; lra|lra]).
destruct (Rlt_dec (r * c * s) 0); [lra|]; eexists; split; [reflexivity|]; unfold plus_quad; simpl.
set (t := sqrt (r * c * s)); assert (T : 0 <= t) by apply sqrt_pos.
assert (Ht : 0 < t).
{ apply sqrt_lt_R0; apply Rmult_lt_0_compat; [apply Rmult_lt_0_compat|]; try lra.
  apply Rnot_lt_le in A; destruct (Rle_lt_or_eq_dec 0 c Hc) as [|<-]; [lra|rewrite Rabs_R0 in A; lra]. }
pose proof (cosh_pos t); pose proof (sinh_nonneg t T).
assert (0 < r / t) by (apply Rdiv_lt_0_compat; lra); assert (0 < t / r) by (apply Rdiv_lt_0_compat; lra).
repeat split; nra.
Qed.

Lemma qmul_plus a b : plus_quad a -> plus_quad b -> plus_quad (qmul a b).
Proof. intros [A1 [A2 [A3 A4]]] [B1 [B2 [B3 B4]]]; unfold plus_quad, qmul; simpl; repeat split; nra. Qed.

Lemma ft_plus s l : 0 < s -> sound_layers l -> forall acc, (match acc with None => l <> [] | Some q => plus_quad q end) ->
  exists q, get_ft s acc l = Ok q /\ plus_quad q.
Proof.
intros Hs; induction l as [|[r c] l IH]; intros Sl acc Ha; simpl.
- destruct acc as [q|]; [exists q; auto|congruence].
- destruct (fi_plus s r c Hs) as [fi [Ef Pf]]; try (apply (Sl r c); left; reflexivity).
  rewrite Ef; simpl; apply IH; [intros r' c' I; apply Sl; right; exact I|].
  destruct acc as [q|]; [apply qmul_plus; auto|exact Pf].
Qed.

Lemma g_ok rs cs s : 0 < s -> combine rs cs <> [] -> sound_layers (combine rs cs) -> exists g, get_g rs cs s = Ok g.
Proof.
intros Hs N Sl; unfold get_g; destruct (ft_plus s _ Hs Sl None N) as [q [-> [_ [_ [_ P]]]]]; simpl.
destruct (Req_EM_T (q11 q) 0); [lra|eauto].
Qed.

Lemma sqrt_div_pos a b : 0 < a -> 0 < b -> 0 < a / sqrt (a / b) /\ 0 < b / sqrt (a / b).
Proof.
intros A B; assert (0 < sqrt (a / b)) by (apply sqrt_lt_R0, Rdiv_lt_0_compat; auto).
split; apply Rdiv_lt_0_compat; auto.
Qed.

Lemma laps_pos g s : In s (get_laps (get_alpha_m g)) -> 0 < s.
Proof.
unfold get_laps; intro I; apply in_map_iff in I; destruct I as [k [<- I]]; apply in_seq in I.
assert (P : forall i, (i < List.length (get_alpha_m g))%nat -> 0 < nth i (get_alpha_m g) 0) by (intros i Hi; apply (alpha_pos g), nth_In, Hi).
pose proof (alpha_len g) as L.
assert (D : (Nat.div2 k < List.length (get_alpha_m g))%nat) by (rewrite Nat.div2_div; apply Nat.div_lt_upper_bound; lia).
unfold get_lap; destruct (Nat.odd k); [apply P, D|].
destruct k as [|k]; [apply sqrt_div_pos; apply P; lia|].
apply sqrt_div_pos; apply P; lia.
Qed.

Lemma calc_ok inv g cs rs : inverts inv -> combine rs cs <> [] -> sound_layers (combine rs cs) ->
  exists rf, calc_response_factor inv g cs rs = Ok rf.
Proof.
intros Iv N Sl; unfold calc_response_factor, get_step_reps_of_wall.
destruct (mapM_total _ _ (get_g rs cs) (get_laps (get_alpha_m g))) as [gs ->].
{ intros s I; apply g_ok; auto; apply (laps_pos g), I. }
simpl bind.
destruct (Iv _ _ (mat_u_square (get_mat_f (get_laps (get_alpha_m g)) (get_alpha_m g)) (List.length (get_alpha_m g)))) as [m' [-> _]]; [exact (fit_kernel g)|].
simpl bind; eexists; reflexivity.
Qed.

(* the fit is the best one *)
Lemma misfit_S f (gs x : list R) : List.length f = List.length gs ->
  misfit f gs x = S (fun p => (scalar (fst p) x - snd p) ^ 2) (combine f gs).
Proof.
unfold misfit; revert gs; induction f as [|r f IH]; intros [|y gs] L; simpl in *; try discriminate; [reflexivity|].
rewrite S_cons; simpl; f_equal; apply IH; lia.
Qed.

Lemma scalar_sub r x y n : List.length r = n -> List.length x = n -> List.length y = n ->
  scalar r y = scalar r x + scalar r (map (fun p => snd p - fst p) (combine x y)).
Proof.
revert x y n; induction r as [|a r IH]; intros [|b x] [|c y] [|n] Lr Lx Ly; simpl in *; try discriminate; unfold scalar in *; simpl; [ring|].
rewrite (IH x y n) by lia; ring.
Qed.

Lemma best_fit f n gs x y : (forall r, In r f -> List.length r = n) -> List.length f = List.length gs -> List.length x = n -> List.length y = n ->
  apply (get_mat_u f n) x = get_mat_c f n gs ->
  (forall c, List.length c = n -> apply (get_mat_u f n) c = repeat 0 n -> c = repeat 0 n) ->
  misfit f gs x <= misfit f gs y /\ (misfit f gs y <= misfit f gs x -> y = x).
Proof.
intros Rw Lg Lx Ly E K; rewrite !misfit_S by exact Lg.
set (d := map (fun p => snd p - fst p) (combine x y)).
assert (Ld : List.length d = n) by (unfold d; rewrite map_length, combine_length; lia).
assert (Rp : forall p, In p (combine f gs) -> List.length (fst p) = n) by (intros [r w] I; apply Rw; exact (in_combine_l _ _ _ _ I)).
assert (Fst : forall h : list R -> R, S h f = S (fun p => h (fst p)) (combine f gs)).
{ intro h; clear -Lg; revert gs Lg; induction f as [|r f IH]; intros [|w gs] L; simpl in *; try discriminate; [reflexivity|]; rewrite !S_cons; simpl; f_equal; apply IH; lia. }
assert (X : S (fun p => (scalar (fst p) y - snd p) ^ 2) (combine f gs) =
  S (fun p => (scalar (fst p) x - snd p) ^ 2) (combine f gs) + 2 * S (fun p => scalar (fst p) d * (scalar (fst p) x - snd p)) (combine f gs)
  + S (fun r => scalar r d ^ 2) f).
{ rewrite (Fst (fun r => scalar r d ^ 2)), <- S_scal, <- !S_plus; apply S_ext; intros p I.
  rewrite (scalar_sub (fst p) x y n) by auto; fold d; ring. }
assert (M : S (fun p => scalar (fst p) d * (scalar (fst p) x - snd p)) (combine f gs) = 0).
{ rewrite (S_ext _ _ (fun p => scalar (fst p) d * scalar (fst p) x + -1 * (scalar (fst p) d * snd p))) by (intros; ring).
  rewrite S_plus, S_scal, <- (Fst (fun r => scalar r d * scalar r x)), <- (transpose_form f n Rw d (fun r => scalar r x) Ld).
  assert (Q : S (fun p => scalar (fst p) d * snd p) (combine f gs) = S (fun i => nth i d 0 * inner (column f i) gs) (seq 0 n)).
  { assert (C : forall i, inner (column f i) gs = S (fun p => nth i (fst p) 0 * snd p) (combine f gs)).
    { intro i; rewrite inner_scalar; clear -Lg; revert gs Lg; induction f as [|r f IH]; intros [|w gs] L; unfold scalar in *; simpl in *; try discriminate; [reflexivity|]; rewrite S_cons; simpl; f_equal; apply IH; lia. }
    rewrite (S_ext _ _ (fun i => S (fun p => nth i d 0 * (nth i (fst p) 0 * snd p)) (combine f gs)) (seq 0 n)) by (intros; rewrite C, S_scal; reflexivity).
    rewrite S_swap; apply S_ext; intros p I; rewrite (scalar_S (fst p) d n), Rmult_comm, <- S_scal by auto; apply S_ext; intros; ring. }
  rewrite Q; assert (Y : S (fun i => nth i d 0 * S (fun r => nth i r 0 * scalar r x) f) (seq 0 n) = S (fun i => nth i d 0 * inner (column f i) gs) (seq 0 n)).
  { apply S_ext; intros i I; apply in_seq in I; f_equal.
    rewrite u_apply in E by auto; unfold get_mat_c in E.
    rewrite <- (nth_seq_map (fun i => S (fun r => nth i r 0 * scalar r x) f) n i), E, nth_seq_map by lia; reflexivity. }
  rewrite Y; ring. }
assert (D : 0 <= S (fun r => scalar r d ^ 2) f) by (apply S_nonneg; intros; apply pow2_ge_0).
split; [rewrite X, M; lra|]; intro H.
assert (Z : S (fun r => scalar r d ^ 2) f <= 0) by (rewrite X, M in H; lra).
assert (Zr := S_sq_zero _ (fun r => scalar r d) f Z).
assert (D0 : d = repeat 0 n).
{ apply K; [exact Ld|]; rewrite u_apply by auto.
  apply (nth_ext _ _ 0 0); [rewrite map_length, seq_length, repeat_length; reflexivity|].
  intros i Hi; rewrite map_length, seq_length in Hi; rewrite nth_seq_map, nth_repeat by exact Hi.
  rewrite (S_ext _ _ (fun _ => 0)), S_zero; [reflexivity|]; intros r I; rewrite (Zr r I); ring. }
clear -D0 Lx Ly; unfold d in D0; clear d; revert x y n Lx Ly D0; induction x as [|a x IH]; intros [|b y] [|n] Lx Ly D0; simpl in *; try discriminate; [reflexivity|].
injection D0 as D1 D2; f_equal; [lra|apply (IH y n); auto; lia].
Qed.

(* the recursion used by the calculation *)
Lemma scalar_next terms ratios theta x k : List.length terms = List.length ratios -> List.length x = List.length terms ->
  scalar (map (fun q => q ^ k) ratios) (next_terms terms ratios theta x) =
  theta * scalar terms (map (fun q => q ^ k) ratios) + scalar (map (fun q => q ^ Datatypes.S k) ratios) x.
Proof.
revert ratios x; induction terms as [|t terms IH]; intros [|q ratios] [|a x] L1 L2; simpl in *; try discriminate; unfold scalar, next_terms in *; simpl; [ring|].
rewrite IH by lia; ring.
Qed.

Lemma next_length terms ratios theta x : List.length terms = List.length ratios -> List.length x = List.length terms ->
  List.length (next_terms terms ratios theta x) = List.length terms.
Proof. intros L1 L2; unfold next_terms; rewrite map_length, !combine_length; lia. Qed.

Lemma iterate_closed first terms ratios theta k : List.length terms = List.length ratios -> forall x, List.length x = List.length terms ->
  first * theta + add_up (iterate terms ratios theta k x) =
  theta * sum_f_R0 (response_at first terms ratios) k + scalar (map (fun q => q ^ k) ratios) x.
Proof.
intro L; induction k as [|k IH]; intros x Lx.
- simpl; replace (map (fun _ => 1) ratios) with (repeat 1 (List.length ratios)).
  + rewrite L in Lx; clear L; revert x Lx; induction ratios as [|q ratios IHr]; intros [|a x] Lx; simpl in *; try discriminate; unfold scalar in *; simpl; [ring|].
    specialize (IHr x ltac:(lia)); lra.
  + clear; induction ratios as [|q r IHr]; simpl; [reflexivity|f_equal; exact IHr].
- simpl iterate; rewrite IH by (apply next_length; auto); rewrite scalar_next by auto.
  change (sum_f_R0 ?f (Datatypes.S k)) with (sum_f_R0 f k + f (Datatypes.S k)); simpl response_at; ring.
Qed.

Lemma scalar_pow_cv ratios x : (forall q, In q ratios -> 0 <= q < 1) -> Un_cv (fun k => scalar (map (fun q => q ^ k) ratios) x) 0.
Proof.
intro H; apply (cv_ext (fun k => add_up (map (fun p => fst p ^ k * snd p) (combine ratios x)))).
- intro k; unfold scalar; revert x; clear H; induction ratios as [|q r IH]; intros [|a x]; simpl; auto; rewrite IH; reflexivity.
- apply (cv_add_up (combine ratios x) (fun p k => fst p ^ k * snd p)); intros [q a] I; simpl; apply in_combine_l in I.
  assert (C := CV_mult (fun n => q ^ n) (fun _ => a) 0 a (cv_pow q (H q I)) (cv_const a)); rewrite Rmult_0_l in C; exact C.
Qed.

Lemma steady_state first terms ratios total theta x : List.length terms = List.length ratios -> List.length x = List.length terms ->
  (forall q, In q ratios -> 0 <= q < 1) -> infinite_sum (response_at first terms ratios) total ->
  Un_cv (fun k => first * theta + add_up (iterate terms ratios theta k x)) (total * theta).
Proof.
intros L Lx H Su; apply (cv_ext (fun k => theta * sum_f_R0 (response_at first terms ratios) k + scalar (map (fun q => q ^ k) ratios) x)).
- intro k; symmetry; apply iterate_closed; auto.
- replace (total * theta) with (theta * total + 0) by ring; apply CV_plus; [|apply scalar_pow_cv; exact H].
  apply (CV_mult (fun _ => theta)); [apply cv_const|exact Su].
Qed.

Lemma scalar_const_zero A (l : list A) v : scalar (map (fun _ => 0) l) v = 0.
Proof. revert v; induction l as [|a l IH]; intros [|x v]; unfold scalar in *; simpl; auto; rewrite IH; ring. Qed.

Lemma scalar_zero_r A r (l : list A) : scalar r (map (fun _ => 0) l) = 0.
Proof. revert r; induction l as [|a l IH]; intros [|x r]; unfold scalar in *; simpl; auto; rewrite IH; ring. Qed.

(* a wall without capacity *)
Lemma ft_massless s l : (forall r c, In (r, c) l -> c = 0) -> forall acc, get_ft s (Some acc) l =
  Ok {| q00 := q00 acc; q01 := q01 acc + q00 acc * add_up (map fst l); q10 := q10 acc; q11 := q11 acc + q10 acc * add_up (map fst l) |}.
Proof.
induction l as [|[r c] l IH]; intros H acc; simpl.
- destruct acc; simpl; f_equal; f_equal; ring.
- assert (c = 0) by (apply (H r c); left; auto); subst c; unfold get_fi; rewrite Rabs_R0; destruct (Rlt_dec 0 (1 / 1000)); [|lra]; simpl.
  rewrite IH by (intros r' c' I; apply (H r' c'); right; auto); unfold qmul; simpl; f_equal; f_equal; ring.
Qed.

Lemma g_massless rs cs s : List.length rs = List.length cs -> rs <> [] -> (forall c, In c cs -> c = 0) -> get_g rs cs s = Ok (0, 0).
Proof.
intros L N H; unfold get_g; destruct rs as [|r rs]; [congruence|]; destruct cs as [|c cs]; [discriminate|]; simpl.
assert (c = 0) by (apply H; left; auto); subst c; unfold get_fi; rewrite Rabs_R0; destruct (Rlt_dec 0 (1 / 1000)); [|lra]; simpl.
rewrite ft_massless by (intros r' c' I; apply H; right; exact (in_combine_r _ _ _ _ I)); simpl.
assert (E : map fst (combine rs cs) = rs).
{ injection L as L; clear -L; revert cs L; induction rs as [|a l IH]; intros [|x c] L; simpl in *; try discriminate; auto; f_equal; apply IH; lia. }
rewrite E; destruct (Req_EM_T _ 0); [lra|]; do 2 f_equal; [unfold total, add_up|]; field; lra.
Qed.

Lemma mapM_const A B (f : A -> res B) b l : (forall a, In a l -> f a = Ok b) -> mapM f l = Ok (map (fun _ => b) l).
Proof. induction l as [|a l IH]; simpl; intro H; [reflexivity|]; rewrite H by auto; simpl; rewrite IH by auto; reflexivity. Qed.

Lemma calc_massless inv g cs rs rf : right_size inv -> List.length rs = List.length cs -> rs <> [] -> (forall c, In c cs -> c = 0) ->
  calc_response_factor inv g cs rs = Ok rf ->
  rft0 rf = 1 /\ rfa0 rf = add_up rs /\ rft1 rf = repeat 0 12 /\ rfa1 rf = repeat 0 12.
Proof.
intros Rs L N H C; unfold calc_response_factor in C; apply bind_ok in C; destruct C as [[[[at0 aa0] at_] aa] [St C]].
unfold get_step_reps_of_wall in St; rewrite (mapM_const _ _ _ (0, 0)) in St by (intros; apply g_massless; auto).
simpl bind in St; apply bind_ok in St; destruct St as [u [U St]].
destruct (Rs _ _ _ (mat_u_square _ _) U) as [Lu _]; rewrite !map_map in St; simpl in St.
assert (Z : mulv u (get_mat_c (get_mat_f (get_laps (get_alpha_m g)) (get_alpha_m g)) (List.length (get_alpha_m g)) (map (fun _ => 0) (get_laps (get_alpha_m g)))) = repeat 0 (List.length (get_alpha_m g))).
{ unfold get_mat_c; rewrite (map_ext _ (fun _ => 0)) by (intro i; rewrite inner_scalar; apply scalar_zero_r).
  unfold mulv; rewrite (map_ext _ (fun _ => 0)) by (intro r; rewrite inner_scalar; apply scalar_zero_r).
  rewrite <- Lu; clear; induction u; simpl; [reflexivity|f_equal; auto]. }
rewrite Z in St; injection St as <- <- <- <-; injection C as <-; simpl.
assert (T : forall temp n, total (vmul temp (repeat 0 n)) = 0).
{ intro temp; induction temp as [|t temp IH]; intros [|n]; simpl; auto; unfold total, vmul in *; simpl; rewrite IH; ring. }
assert (P : forall n temp, pad12 (get_rf1 temp (repeat 0 n)) = repeat 0 (min n (List.length temp)) ++ repeat 0 (12 - min n (List.length temp))).
{ intros n temp; assert (E : get_rf1 temp (repeat 0 n) = repeat 0 (min n (List.length temp))).
  - revert temp; induction n as [|n IH]; intros [|t temp]; simpl; auto; unfold get_rf1, vmul in *; simpl; rewrite IH; f_equal; ring.
  - unfold pad12; rewrite E, repeat_length; reflexivity. }
rewrite !T, !P, map_length, Nat.min_id, <- repeat_app; pose proof (alpha_len g).
replace (List.length (get_alpha_m g) + (12 - List.length (get_alpha_m g)))%nat with 12%nat by lia.
repeat split; try reflexivity; unfold total, add_up; ring.
Qed.

(* coefficients of a completed fit *)
Lemma step_reps_best inv g cs rs a0 b0 at_ aa gs : inverts inv -> let alp := get_alpha_m g in let f := get_mat_f (get_laps alp) alp in
  get_step_reps_of_wall inv cs rs (get_laps alp) alp = Ok (a0, b0, at_, aa) -> mapM (get_g rs cs) (get_laps alp) = Ok gs ->
  forall y, List.length y = List.length alp ->
  (misfit f (map snd gs) at_ <= misfit f (map snd gs) y /\ (misfit f (map snd gs) y <= misfit f (map snd gs) at_ -> y = at_)) /\
  (misfit f (map fst gs) aa <= misfit f (map fst gs) y /\ (misfit f (map fst gs) y <= misfit f (map fst gs) aa -> y = aa)).
Proof.
intros Iv alp f H G y Ly; unfold get_step_reps_of_wall in H; rewrite G in H; simpl bind in H.
destruct (Iv _ _ (mat_u_square f (List.length alp)) (fit_kernel g)) as [m' [E [[Lm Sm] Sol]]]; fold f in H; rewrite E in H; simpl bind in H.
injection H as <- <- <- <-.
assert (Lg : List.length f = List.length gs) by (destruct (mapM_ok _ _ _ _ _ G) as [Lg _]; unfold f, get_mat_f; rewrite map_length; auto).
assert (Lc : forall v, List.length (get_mat_c f (List.length alp) v) = List.length alp) by (intro v; unfold get_mat_c; rewrite map_length, seq_length; reflexivity).
split; (apply (best_fit f (List.length alp)); [exact (mat_f_rows (get_laps alp) alp)|rewrite map_length; exact Lg|rewrite mulv_length; exact Lm|exact Ly|apply Sol, Lc|apply fit_kernel]).
Qed.

Lemma row_range rf : (forall k q, nth_error (row rf) k = Some q -> if (k <? n_root rf)%nat then 0 < q < 1 else q = 0) ->
  forall q, In q (row rf) -> 0 <= q < 1.
Proof.
intros H q I; apply In_nth_error in I; destruct I as [k K]; specialize (H k q K); destruct (k <? n_root rf)%nat; lra.
Qed.

Lemma combine_app_one A B (a : list A) (b : list B) x y : List.length a = List.length b -> combine (a ++ [x]) (b ++ [y]) = combine a b ++ [(x, y)].
Proof. revert b; induction a as [|u a IH]; intros [|w b] L; simpl in *; try discriminate; auto; f_equal; apply IH; lia. Qed.

Lemma sound_kilo rs cs : sound_layers (combine rs cs) -> sound_layers (combine rs (map (fun x => x * 1000) cs)).
Proof.
revert cs; induction rs as [|r rs IH]; intros [|c cs] H r' c' I; simpl in I; try contradiction; destruct I as [[= <- <-]|I].
- destruct (H r c (or_introl eq_refl)) as [A [B C]]; split; [exact A|split; [lra|destruct C; [auto|right; lra]]].
- apply (IH cs); auto; intros x y J; apply H; right; exact J.
Qed.

(* the factories *)
Lemma envelope_ok inv cs rs r_o : inverts inv -> List.length cs = List.length rs -> sound_layers (combine rs cs) -> 0 <= r_o ->
  exists rf, get_response_factors inv (Envelope cs rs r_o) = Ok (rf, Envelope (cs ++ [0]) (rs ++ [r_o]) r_o).
Proof.
intros Iv L Sl Ho; simpl.
assert (E : combine (rs ++ [r_o]) (map (fun x => x * 1000) (cs ++ [0])) = combine rs (map (fun x => x * 1000) cs) ++ [(r_o, 0 * 1000)]).
{ rewrite map_app; apply combine_app_one; rewrite map_length; auto. }
destruct (calc_ok inv false (map (fun x => x * 1000) (cs ++ [0])) (rs ++ [r_o]) Iv) as [rf ->].
- rewrite E; intro X; apply app_eq_nil in X; destruct X; discriminate.
- rewrite E; intros r c I; apply in_app_or in I; destruct I as [I|[[= <- <-]|[]]]; [exact (sound_kilo rs cs Sl r c I)|].
  split; [exact Ho|split; [lra|right; ring]].
- exists rf; reflexivity.
Qed.

Lemma ground_ok inv cs rs : inverts inv -> List.length cs = List.length rs -> sound_layers (combine rs cs) ->
  exists rf, get_response_factors inv (GroundF cs rs) = Ok (rf, GroundF (cs ++ [3300 * 3]) (rs ++ [3 / 1])).
Proof.
intros Iv L Sl; simpl.
assert (E : combine (rs ++ [3 / 1]) (map (fun x => x * 1000) (cs ++ [3300 * 3])) = combine rs (map (fun x => x * 1000) cs) ++ [(3 / 1, 3300 * 3 * 1000)]).
{ rewrite map_app; apply combine_app_one; rewrite map_length; auto. }
destruct (calc_ok inv true (map (fun x => x * 1000) (cs ++ [3300 * 3])) (rs ++ [3 / 1]) Iv) as [rf ->].
- rewrite E; intro X; apply app_eq_nil in X; destruct X; discriminate.
- rewrite E; intros r c I; apply in_app_or in I; destruct I as [I|[[= <- <-]|[]]]; [exact (sound_kilo rs cs Sl r c I)|].
  split; [lra|split; [lra|left; lra]].
- exists rf; reflexivity.
Qed.

Lemma factory_sums inv f rf f' : right_size inv -> get_response_factors inv f = Ok (rf, f') ->
  match f with
  | Envelope _ _ _ | GroundF _ _ =>
    infinite_sum (response_at (rft0 rf) (rft1 rf) (row rf)) 1 /\
    infinite_sum (response_at (rfa0 rf) (rfa1 rf) (row rf))
      (match f with Envelope _ rs r_o => add_up rs + r_o | GroundF _ rs => add_up rs + 3 | _ => 0 end) /\
    List.length (rft1 rf) = 12%nat /\ List.length (rfa1 rf) = 12%nat /\ List.length (row rf) = 12%nat /\
    (forall k q, nth_error (row rf) k = Some q -> if (k <? n_root rf)%nat then 0 < q < 1 else q = 0) /\
    (forall k x, (n_root rf <= k)%nat -> nth_error (rft1 rf) k = Some x \/ nth_error (rfa1 rf) k = Some x -> x = 0)
  | _ => True
  end.
Proof.
intros Rs H; destruct f as [rf0|cs rs r_o|cs rs|u r]; auto; simpl in H; apply bind_ok in H; destruct H as [rf' [C E]];
  assert (rf' = rf) by congruence; subst rf'; destruct (calc_sums _ _ _ _ _ Rs C) as [A [B D]]; split; [exact A| |exact A|]; split; try exact D;
  rewrite add_up_app in B; simpl in B.
- rewrite Rplus_0_r in B; exact B.
- replace (add_up rs + 3) with (add_up rs + (3 / 1 + 0)) by field; exact B.
Qed.

Lemma gauss_size : right_size GaussL.gauss.
Proof.
intros n m m' [Lm _] E; unfold GaussL.gauss in E; apply bind_ok in E; destruct E as [cols [M E]]; injection E as <-.
destruct (mapM_ok _ _ _ _ _ M) as [Lc _]; rewrite seq_length in Lc.
split; [rewrite map_length, seq_length; exact Lm|].
intros r I; apply in_map_iff in I; destruct I as [i [<- _]]; rewrite map_length; congruence.
Qed.

Lemma infinite_sum_unique s a b : infinite_sum s a -> infinite_sum s b -> a = b.
Proof. exact (uniqueness_sum s a b). Qed.

Lemma opening_ok inv u r_i rf f' : get_response_factors inv (Steady u r_i) = Ok (rf, f') ->
  rft0 rf = 1 /\ rfa0 rf = 1 / u - r_i /\ u <> 0 /\ 1 / u - r_i <> 0 /\ f' = Steady u r_i /\
  rft1 rf = repeat 0 12 /\ rfa1 rf = repeat 0 12 /\ row rf = repeat 0 12.
Proof.
unfold get_response_factors; destruct (Req_EM_T u 0); [discriminate|]; destruct (Req_EM_T (1 / u - r_i) 0); [discriminate|].
intro H; assert (E : rf = {| rft0 := 1; rfa0 := 1 / (1 / (1 / u - r_i)); rft1 := repeat 0 12; rfa1 := repeat 0 12; row := repeat 0 12; n_root := 0 |}) by congruence.
rewrite E; cbn [rft0 rfa0 rft1 rfa1 row]; split; [reflexivity|split; [|repeat split; auto; congruence]].
set (x := 1 / u - r_i) in *; field; exact n0.
Qed.

Lemma create_envelope s t m : s_method s = Some m -> m <> "response_factor"%string -> s_boundary_type s = Some t ->
  (t = "external_general_part" \/ t = "internal")%string ->
  forall l r_o, s_layers s = Some l -> s_outside_heat_transfer_resistance s = Some r_o ->
  create_factory s = Ok (Envelope (map thermal_capacity l) (map thermal_resistance l) r_o).
Proof.
intros M N T Tt l r_o L O; unfold create_factory, key; rewrite M; simpl.
destruct (String.eqb_spec m "response_factor"); [contradiction|]; rewrite T; simpl.
destruct Tt as [-> | ->]; simpl; rewrite L, O; reflexivity.
Qed.

Lemma repeat_steady inv f rf f' : (match f with Direct _ | Steady _ _ => True | _ => False end) ->
  get_response_factors inv f = Ok (rf, f') -> f' = f /\ get_response_factors inv f' = Ok (rf, f').
Proof.
destruct f; intros K H; try contradiction.
- injection H as <- <-; auto.
- assert (E := opening_ok _ _ _ _ _ H); destruct E as [_ [_ [_ [_ [-> _]]]]]; auto.
Qed.

Lemma repeat_wall inv cs rs r_o rf1 f1 rf2 f2 : right_size inv ->
  get_response_factors inv (Envelope cs rs r_o) = Ok (rf1, f1) -> get_response_factors inv f1 = Ok (rf2, f2) ->
  exists R1 R2, infinite_sum (response_at (rfa0 rf1) (rfa1 rf1) (row rf1)) R1 /\
    infinite_sum (response_at (rfa0 rf2) (rfa1 rf2) (row rf2)) R2 /\ R2 = R1 + r_o.
Proof.
intros Rs H1 H2; exists (add_up rs + r_o), (add_up (rs ++ [r_o]) + r_o).
destruct (factory_sums inv _ _ _ Rs H1) as [_ [B1 _]].
assert (E : f1 = Envelope (cs ++ [0]) (rs ++ [r_o]) r_o) by (simpl in H1; apply bind_ok in H1; destruct H1 as [? [_ X]]; congruence).
rewrite E in H2; destruct (factory_sums inv _ _ _ Rs H2) as [_ [B2 _]].
split; [exact B1|split; [exact B2|]]; rewrite add_up_app; simpl; ring.
Qed.

Lemma repeat_refuted inv : inverts inv -> right_size inv ->
  exists f rf1 f1 rf2 f2, get_response_factors inv f = Ok (rf1, f1) /\ get_response_factors inv f1 = Ok (rf2, f2) /\ rf1 <> rf2.
Proof.
intros Iv Rs.
assert (S1 : sound_layers (combine [75 / 1000] [240])) by (intros r c [[= <- <-]|[]]; split; [lra|split; [lra|left; lra]]).
assert (S2 : sound_layers (combine [75 / 1000; 4 / 100] [240; 0])).
{ intros r c [[= <- <-]|[[= <- <-]|[]]]; (split; [lra|split; [lra|left; lra]]). }
destruct (envelope_ok inv [240] [75 / 1000] (4 / 100) Iv eq_refl S1 ltac:(lra)) as [rf1 H1].
destruct (envelope_ok inv [240; 0] [75 / 1000; 4 / 100] (4 / 100) Iv eq_refl S2 ltac:(lra)) as [rf2 H2].
do 5 eexists; split; [exact H1|split; [exact H2|]]; intro E.
destruct (repeat_wall _ _ _ _ _ _ _ _ Rs H1 H2) as [R1 [R2 [A [B C]]]]; rewrite E in A.
assert (X := infinite_sum_unique _ _ _ A B); lra.
Qed.
