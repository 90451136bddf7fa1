From Coq Require Import Reals List Lra Lia Arith Sorting.Sorted.
From Coquelicot Require Import Rcomplements Hierarchy Continuity ElemFct.
From Verif Require Import Model.ShapeFactor Spec.ViewFactor.
Import ListNotations.
Local Open Scope R_scope.

(* signed root *)
Definition sroot (u : R) : R := ShapeFactor.sign u * sqrt (Rabs u).

Lemma sroot_pos u : 0 <= u -> sroot u = sqrt u.
Proof.
intro H; unfold sroot, ShapeFactor.sign; rewrite (Rabs_right u) by lra.
destruct (Rlt_dec 0 u); [ring|]; destruct (Rlt_dec u 0); [lra|].
replace u with 0 by lra; rewrite sqrt_0; ring.
Qed.

Lemma sroot_neg u : u <= 0 -> sroot u = - sqrt (- u).
Proof.
intro H; unfold sroot, ShapeFactor.sign; rewrite (Rabs_left1 u) by lra.
destruct (Rlt_dec 0 u); [lra|]; destruct (Rlt_dec u 0); [ring|].
replace u with 0 by lra; rewrite Ropp_0, sqrt_0; ring.
Qed.

Lemma sroot_lt u v : u < v -> sroot u < sroot v.
Proof.
intro H; destruct (Rle_lt_dec 0 u).
- rewrite !sroot_pos by lra; apply sqrt_lt_1; lra.
- destruct (Rle_lt_dec v 0).
  + rewrite !sroot_neg by lra; apply Ropp_lt_contravar, sqrt_lt_1; lra.
  + rewrite (sroot_neg u), (sroot_pos v) by lra.
    assert (0 < sqrt v) by (apply sqrt_lt_R0; lra).
    assert (0 <= sqrt (- u)) by apply sqrt_pos; lra.
Qed.

Lemma sroot_1 : sroot 1 = 1. Proof. rewrite sroot_pos by lra; apply sqrt_1. Qed.
Lemma sroot_m1 : sroot (-1) = -1. Proof. rewrite sroot_neg by lra; replace (- -1) with 1 by ring; rewrite sqrt_1; ring. Qed.
Lemma sroot_0 : sroot 0 = 0. Proof. rewrite sroot_pos by lra; apply sqrt_0. Qed.

Lemma sroot_sq s u : 0 <= s /\ s * s = u \/ s <= 0 /\ - (s * s) = u -> s = sroot u.
Proof.
intros [[H <-]|[H <-]].
- rewrite sroot_pos by nra; rewrite sqrt_square; auto.
- rewrite sroot_neg by nra; rewrite Ropp_involutive.
  replace (s * s) with (- s * - s) by ring; rewrite sqrt_square; lra.
Qed.

Lemma sroot_sq_inv u : 0 <= sroot u /\ sroot u * sroot u = u \/ sroot u <= 0 /\ - (sroot u * sroot u) = u.
Proof.
destruct (Rle_lt_dec 0 u).
- left; rewrite sroot_pos by lra; split; [apply sqrt_pos|apply sqrt_sqrt; lra].
- right; rewrite sroot_neg by lra; split; [assert (0 <= sqrt (- u)) by apply sqrt_pos; lra|].
  pose proof (sqrt_sqrt (- u)); nra.
Qed.

Lemma f_jE f r : f_j f r = / 2 * (1 - sroot (1 - 4 * r / f)).
Proof. reflexivity. Qed.

Lemma view_factorE fbar r f : 0 < fbar -> (view_factor fbar r f <-> f = f_j fbar r).
Proof.
intro H; rewrite f_jE; unfold view_factor; split.
- intro V; assert (E : 1 - 2 * f = sroot (1 - 4 * r / fbar)); [|lra].
  apply sroot_sq; destruct V as [[V <-]|[V <-]]; [left|right]; (split; [lra|field; lra]).
- pose proof (sroot_sq_inv (1 - 4 * r / fbar)) as S.
  set (s := sroot _) in *; intros ->.
  assert (E : r = fbar * (1 - (1 - 4 * r / fbar)) / 4) by (field; lra).
  destruct S as [[S1 S2]|[S1 S2]]; [left|right]; (split; [lra|]); rewrite E, <- S2; field.
Qed.

Lemma sroot_diff (v : R) : sqrt ((v + Rabs v) / 2) - sqrt ((Rabs v - v) / 2) = sroot v.
Proof.
destruct (Rle_lt_dec 0 v).
- rewrite sroot_pos, Rabs_right by lra.
  replace ((v + v) / 2) with v by field; replace ((v - v) / 2) with 0 by field; rewrite sqrt_0; ring.
- rewrite sroot_neg, Rabs_left by lra.
  replace ((v + - v) / 2) with 0 by field; replace ((- v - v) / 2) with (- v) by field; rewrite sqrt_0; ring.
Qed.

Lemma continuous_sroot u : continuous sroot u.
Proof.
apply (continuous_ext (fun u => sqrt ((u + Rabs u) / 2) - sqrt ((Rabs u - u) / 2))).
- intro v; apply sroot_diff.
- apply (continuous_minus (V := R_NormedModule)).
  + apply (continuous_comp (fun u => (u + Rabs u) / 2) sqrt); [|apply continuous_sqrt].
    apply (continuous_mult (fun u => u + Rabs u) (fun _ => / 2)); [|apply continuous_const].
    apply (continuous_plus (V := R_NormedModule)); [apply continuous_id|apply continuous_Rabs].
  + apply (continuous_comp (fun u => (Rabs u - u) / 2) sqrt); [|apply continuous_sqrt].
    apply (continuous_mult (fun u => Rabs u - u) (fun _ => / 2)); [|apply continuous_const].
    apply (continuous_minus (V := R_NormedModule)); [apply continuous_Rabs|apply continuous_id].
Qed.

(* the view factors as a function of t = 1 / f_ver *)
Definition g (t r : R) : R := / 2 * (1 - sroot (1 - 4 * r * t)).

Lemma f_jg f r : f_j f r = g (/ f) r. Proof. reflexivity. Qed.

Lemma g_t_lt t t' r : 0 < r -> t < t' -> g t r < g t' r.
Proof.
intros r0 H; unfold g.
assert (sroot (1 - 4 * r * t') < sroot (1 - 4 * r * t)) by (apply sroot_lt; nra); lra.
Qed.

Lemma g_0 r : g 0 r = 0.
Proof. unfold g; rewrite Rmult_0_r, Rminus_0_r, sroot_1; ring. Qed.

Lemma g_pos t r : 0 < r -> 0 < t -> 0 < g t r.
Proof. intros r0 t0; rewrite <- (g_0 r); apply g_t_lt; auto. Qed.

Lemma g_neg t r : 0 < r -> t < 0 -> g t r < 0.
Proof. intros r0 t0; rewrite <- (g_0 r); apply g_t_lt; auto. Qed.

Lemma g_r_lt t r r' : 0 < t -> r < r' -> g t r < g t r'.
Proof.
intros t0 H; unfold g.
assert (sroot (1 - 4 * r' * t) < sroot (1 - 4 * r * t)) by (apply sroot_lt; nra); lra.
Qed.

Lemma continuous_g r t : continuous (fun t => g t r) t.
Proof.
unfold g; apply (continuous_mult (fun _ => / 2)); [apply continuous_const|].
apply (continuous_minus (V := R_NormedModule)); [apply continuous_const|].
apply (continuous_comp (fun t => 1 - 4 * r * t) sroot); [|apply continuous_sroot].
apply (continuous_minus (V := R_NormedModule)); [apply continuous_const|].
apply (continuous_mult (fun _ => 4 * r)); [apply continuous_const|apply continuous_id].
Qed.

Definition total (rs : list R) (t : R) : R := sumR (map (g t) rs).

Lemma continuous_total rs t : continuous (total rs) t.
Proof.
unfold total; induction rs as [|r rs IH]; simpl; [apply continuous_const|].
apply (continuous_plus (V := R_NormedModule)); [apply continuous_g|exact IH].
Qed.

Lemma total_lt rs t t' : rs <> [] -> Forall (fun r => 0 < r) rs -> t < t' -> total rs t < total rs t'.
Proof.
intros ne H tt; unfold total.
assert (L : forall rs, Forall (fun r => 0 < r) rs -> sumR (map (g t) rs) <= sumR (map (g t') rs)).
{ induction 1; simpl; [lra|]; pose proof (g_t_lt t t' x H0 tt); lra. }
destruct H as [|r rs r0 H]; [congruence|]; simpl.
pose proof (g_t_lt t t' r r0 tt); pose proof (L rs H); lra.
Qed.

Lemma total_0 rs : total rs 0 = 0.
Proof. unfold total; induction rs as [|r rs IH]; simpl; [reflexivity|]; rewrite g_0, IH; ring. Qed.

Lemma total_ge0 rs t : Forall (fun r => 0 < r) rs -> 0 < t -> 0 <= total rs t.
Proof. intros H t0; unfold total; induction H; simpl; [lra|]; pose proof (g_pos t x H t0); lra. Qed.

Lemma total_root rs : rs <> [] -> Forall (fun r => 0 < r) rs -> exists t, 0 < t /\ total rs t = 1.
Proof.
intros ne H; destruct H as [|r rs r0 H]; [congruence|].
assert (t0 : 0 < / (2 * r)) by (apply Rinv_0_lt_compat; lra).
assert (G : g (/ (2 * r)) r = 1).
{ unfold g; replace (1 - 4 * r * / (2 * r)) with (-1) by (field; lra); rewrite sroot_m1; field. }
assert (hi : 1 <= total (r :: rs) (/ (2 * r))).
{ unfold total; simpl; rewrite G; pose proof (total_ge0 rs (/ (2 * r)) H t0); unfold total in *; lra. }
destruct (IVT_gen (total (r :: rs)) 0 (/ (2 * r)) 1) as [t [B E]].
- intro t; apply continuity_pt_filterlim, continuous_total.
- rewrite total_0; rewrite Rmin_left, Rmax_right by lra; lra.
- exists t; split; auto.
  rewrite Rmin_left in B by lra; destruct (Req_dec t 0) as [->|]; [rewrite total_0 in E; lra|lra].
Qed.

Lemma residualE rs f : residual rs f = total rs (/ f) - 1.
Proof. reflexivity. Qed.

Lemma residual_root rs : rs <> [] -> Forall (fun r => 0 < r) rs -> exists! f, 0 < f /\ residual rs f = 0.
Proof.
intros ne H; destruct (total_root rs ne H) as [t [t0 E]].
exists (/ t); split.
- split; [apply Rinv_0_lt_compat; auto|]; rewrite residualE, Rinv_inv; lra.
- intros f [f0 Ef]; rewrite residualE in Ef.
  assert (t = / f); [|subst t; apply Rinv_inv].
  destruct (Rtotal_order t (/ f)) as [L|[L|L]]; auto.
  + pose proof (total_lt rs t (/ f) ne H L); lra.
  + apply Rgt_lt in L; pose proof (total_lt rs (/ f) t ne H L); lra.
Qed.

Lemma residual_sign rs f : rs <> [] -> Forall (fun r => 0 < r) rs -> f <> 0 -> residual rs f = 0 -> 0 < f.
Proof.
intros ne H f0 E; destruct (Rtotal_order f 0) as [L|[L|L]]; [|congruence|lra].
rewrite residualE in E; pose proof (total_lt rs (/ f) 0 ne H (Rinv_lt_0_compat f L)).
rewrite total_0 in *; lra.
Qed.

Lemma sumR_pos l : l <> [] -> Forall (fun r => 0 < r) l -> 0 < sumR l.
Proof.
intros ne H; destruct H as [|x l x0 H]; [congruence|]; simpl.
assert (0 <= sumR l) by (clear ne; induction H; simpl; lra); lra.
Qed.

Lemma ratios_pos a : a <> [] -> Forall (fun x => 0 < x) a -> ratios a <> [] /\ Forall (fun r => 0 < r) (ratios a).
Proof.
intros ne H; split; [unfold ratios; destruct a; simpl; congruence|].
unfold ratios; apply Forall_map; eapply Forall_impl; [|exact H]; simpl; intros x x0.
apply Rdiv_lt_0_compat; [exact x0|apply sumR_pos; auto].
Qed.

(* in words of the specification *)
Lemma fits_residual a f : 0 < f -> fits a f <-> residual (ratios a) f = 0.
Proof.
intro f0; unfold fits, residual, ratios; change (fold_right Rplus 0) with sumR; split.
- intros [fs [V E]].
  assert (fs = map (f_j f) (map (fun x => x / sumR a) a)) as ->; [|lra].
  clear E; revert V; generalize (sumR a); intros s V; induction V; simpl; [reflexivity|].
  f_equal; auto; apply (view_factorE f (x / s)); auto.
- intro E; exists (map (f_j f) (map (fun x => x / sumR a) a)); split; [|lra].
  clear E; generalize (sumR a); intro s; induction a; simpl; constructor; auto.
  apply view_factorE; auto.
Qed.

Lemma fits_unique a : a <> [] -> Forall (fun x => 0 < x) a -> exists! f, 0 < f /\ fits a f.
Proof.
intros ne H; destruct (ratios_pos a ne H) as [ne' H'].
destruct (residual_root (ratios a) ne' H') as [f [[f0 E] U]].
exists f; split; [split; auto; apply fits_residual; auto|].
intros f' [f0' E']; apply U; split; auto; apply fits_residual; auto.
Qed.

Lemma sum_bound l x : Forall (fun y => 0 < y) l -> In x l -> x <= sumR l.
Proof.
induction 1 as [|y l y0 H IH]; simpl; [tauto|].
assert (0 <= sumR l) by (clear IH; induction H; simpl; lra).
intros [<-|I]; [lra|]; specialize (IH I); lra.
Qed.

Section Solver.
Variable f_ver : list R -> R.

Lemma f_i_js_ok a : a <> [] -> Forall (fun x => 0 < x) a ->
  f_ver (ratios a) <> 0 -> residual (ratios a) (f_ver (ratios a)) = 0 ->
  Forall (fun f => 0 < f <= 1) (f_i_js f_ver a) /\ sumR (f_i_js f_ver a) = 1 /\
  fits a (f_ver (ratios a)) /\ 0 < f_ver (ratios a) /\
  Forall2 (fun x f => view_factor (f_ver (ratios a)) (x / sumR a) f) a (f_i_js f_ver a).
Proof.
intros ne H nz E; destruct (ratios_pos a ne H) as [ne' H'].
pose proof (residual_sign _ _ ne' H' nz E) as f0.
assert (P : Forall (fun f => 0 < f) (f_i_js f_ver a)).
{ unfold f_i_js; apply Forall_map; eapply Forall_impl; [|exact H']; simpl; intros r r0.
  rewrite f_jg; apply g_pos; auto; apply Rinv_0_lt_compat; auto. }
assert (S : sumR (f_i_js f_ver a) = 1) by (unfold residual, f_i_js in *; lra).
split; [|split; [exact S|split; [apply fits_residual; auto|split; [exact f0|]]]].
- apply Forall_forall; intros x I; split; [apply (proj1 (Forall_forall _ _) P x I)|].
  rewrite <- S; apply sum_bound; auto.
- unfold f_i_js; generalize (f_ver (ratios a)) f0; intros f f0'; unfold ratios.
  generalize (sumR a); intro s; clear -f0'; induction a; simpl; constructor; auto; apply view_factorE; auto.
Qed.

Lemma h_r_bounds f : 0 < f <= 1 -> eps * (4 * sgm * t_mrt ^ 3) <= h_r f <= eps * (4 * sgm * t_mrt ^ 3) / (1 - eps).
Proof.
intros [f0 f1]; unfold h_r.
assert (K : 0 < 4 * sgm * t_mrt ^ 3) by (unfold sgm, t_mrt; lra).
replace (eps / (1 - eps * f) * 4 * sgm * t_mrt ^ 3) with (eps * (4 * sgm * t_mrt ^ 3) / (1 - eps * f)) by (unfold Rdiv; ring).
set (k := 4 * sgm * t_mrt ^ 3) in *; clearbody k; unfold eps.
assert (0 < 1 - 9 / 10 * f) by lra.
split.
- replace (9 / 10 * k) with (9 / 10 * k * / 1) at 1 by field.
  apply Rmult_le_compat_l; [lra|]; apply Rinv_le_contravar; lra.
- apply Rmult_le_compat_l; [lra|]; apply Rinv_le_contravar; lra.
Qed.

Lemma h_r_lt f f' : 0 < f -> f < f' -> f' <= 1 -> h_r f < h_r f'.
Proof.
intros f0 f1 f2; unfold h_r.
assert (K : 0 < 4 * sgm * t_mrt ^ 3) by (unfold sgm, t_mrt; lra).
replace (eps / (1 - eps * f) * 4 * sgm * t_mrt ^ 3) with (eps * (4 * sgm * t_mrt ^ 3) * / (1 - eps * f)) by (unfold Rdiv; ring).
replace (eps / (1 - eps * f') * 4 * sgm * t_mrt ^ 3) with (eps * (4 * sgm * t_mrt ^ 3) * / (1 - eps * f')) by (unfold Rdiv; ring).
set (k := 4 * sgm * t_mrt ^ 3) in *; clearbody k; unfold eps.
apply Rmult_lt_compat_l; [lra|]; apply Rinv_lt_contravar; [nra|lra].
Qed.

Lemma select_none i room a : Forall (fun k => i < k)%nat room -> select i room a = [].
Proof.
intro H; revert a; induction H as [|k room Hk H IH]; intros [|x a]; simpl; auto.
destruct (Nat.eqb_spec k i); [lia|apply IH].
Qed.

Lemma concat_cons (phi : nat -> R -> R) r room x a l :
  Forall (fun k => r <= k)%nat room -> StronglySorted lt l -> In r l ->
  concat (map (fun i => map (phi i) (select i (r :: room) (x :: a))) l)
  = phi r x :: concat (map (fun i => map (phi i) (select i room a)) l).
Proof.
intros Hr; induction l as [|k l IH]; intros S I; [destruct I|].
apply StronglySorted_inv in S; destruct S as [S L]; cbn [map concat].
destruct (Nat.eq_dec k r) as [->|N].
- assert (E : map (fun i => map (phi i) (select i (r :: room) (x :: a))) l
    = map (fun i => map (phi i) (select i room a)) l).
  { apply map_ext_in; intros i Ii; simpl; destruct (Nat.eqb_spec r i); [|reflexivity].
    pose proof (proj1 (Forall_forall _ _) L i Ii); lia. }
  rewrite E; simpl; rewrite Nat.eqb_refl; reflexivity.
- destruct I as [I|I]; [congruence|].
  pose proof (proj1 (Forall_forall _ _) L r I) as kr; simpl in kr.
  rewrite IH by auto; simpl; destruct (Nat.eqb_spec r k); [lia|].
  rewrite select_none; [reflexivity|]; eapply Forall_impl; [|exact Hr]; simpl; lia.
Qed.

Lemma seq_sorted s n : StronglySorted lt (seq s n).
Proof.
revert s; induction n as [|n IH]; intro s; simpl; constructor; auto.
apply Forall_forall; intros x I; apply in_seq in I; lia.
Qed.

Lemma concat_sorted (phi : nat -> R -> R) n room a : length room = length a ->
  StronglySorted le room -> Forall (fun k => k < n)%nat room ->
  concat (map (fun i => map (phi i) (select i room a)) (seq 0 n)) = map (fun p => phi (fst p) (snd p)) (combine room a).
Proof.
revert a; induction room as [|r room IH]; intros [|x a] L S B; try discriminate.
- simpl; generalize (seq 0 n); intro l; induction l; simpl; auto.
- apply StronglySorted_inv in S; destruct S as [S Sr].
  apply Forall_cons_iff in B; destruct B as [Br B].
  rewrite concat_cons; [|exact Sr|apply seq_sorted|apply in_seq; lia].
  rewrite IH; auto.
Qed.

(* the view factor computed from boundary j's own room and area *)
Definition own_factor (room : list nat) (a : list R) (i : nat) (x : R) : R :=
  f_j (f_ver (ratios (select i room a))) (x / sumR (select i room a)).

Lemma f_js_sorted n room a : length room = length a ->
  StronglySorted le room -> Forall (fun k => k < n)%nat room ->
  f_js f_ver n room a = map (fun p => own_factor room a (fst p) (snd p)) (combine room a).
Proof.
intros L S B; rewrite <- concat_sorted with (n := n); auto.
unfold f_js, f_i_js, own_factor, ratios; f_equal; apply map_ext; intro i; rewrite map_map; reflexivity.
Qed.

Lemma in_select i x room a j : nth_error room j = Some i -> nth_error a j = Some x -> In x (select i room a).
Proof.
revert room a; induction j as [|j IH]; intros [|r room] [|y a]; simpl; try discriminate.
- intros [= ->] [= ->]; rewrite Nat.eqb_refl; left; reflexivity.
- intros E1 E2; destruct (Nat.eqb r i); [right|]; apply IH; auto.
Qed.

Lemma select_pos i room a : Forall (fun x => 0 < x) a -> Forall (fun x => 0 < x) (select i room a).
Proof.
intro H; revert room; induction H as [|x a x0 H IH]; intros [|r room]; simpl; auto.
destruct (Nat.eqb r i); auto.
Qed.

Lemma h_r_js_sorted n room a : length room = length a ->
  StronglySorted le room -> Forall (fun k => k < n)%nat room ->
  forall j i x, nth_error room j = Some i -> nth_error a j = Some x ->
  nth_error (h_r_js f_ver n room a) j = Some (h_r (own_factor room a i x)).
Proof.
intros L S B j i x E1 E2; unfold h_r_js; rewrite f_js_sorted by auto; rewrite map_map.
rewrite (map_nth_error _ j (combine room a) (d := (i, x))); [reflexivity|].
revert room a L S B E1 E2; clear.
induction j as [|j IH]; intros [|r room] [|y a] L S B; simpl; try discriminate.
- intros [= ->] [= ->]; reflexivity.
- apply StronglySorted_inv in S; apply Forall_cons_iff in B; intros; apply IH; auto; tauto.
Qed.

(* all coefficients are in range whatever the order *)
Lemma h_r_js_bounds n room a : Forall (fun x => 0 < x) a ->
  (forall i, (i < n)%nat -> select i room a <> [] -> f_ver (ratios (select i room a)) <> 0 /\ residual (ratios (select i room a)) (f_ver (ratios (select i room a))) = 0) ->
  Forall (fun h => eps * (4 * sgm * t_mrt ^ 3) <= h <= eps * (4 * sgm * t_mrt ^ 3) / (1 - eps)) (h_r_js f_ver n room a).
Proof.
intros P H; unfold h_r_js; apply Forall_map, Forall_forall; intros f I; apply h_r_bounds.
unfold f_js in I; apply in_concat in I; destruct I as [l [I1 I2]].
apply in_map_iff in I1; destruct I1 as [i [<- Ii]]; apply in_seq in Ii.
assert (ne : select i room a <> []) by (intro E; rewrite E in I2; destruct I2).
destruct (H i) as [H1 H2]; [lia|exact ne|].
destruct (f_i_js_ok _ ne (select_pos i room a P) H1 H2) as [Q _].
apply (proj1 (Forall_forall _ _) Q f I2).
Qed.
End Solver.

(* Three surfaces of the same area, the first in room 1, the others in room 0: the constant parameter 2 solves
   both rooms, and the first surface gets the coefficient of a surface of room 0. *)
Lemma sroot_half : f_j 2 (/ 2) = / 2.
Proof. rewrite f_jE; replace (1 - 4 * / 2 / 2) with 0 by field; rewrite sroot_0; field. Qed.
Lemma sroot_whole : f_j 2 1 = 1.
Proof. rewrite f_jE; replace (1 - 4 * 1 / 2) with (-1) by field; rewrite sroot_m1; field. Qed.

Lemma f_2 : f_i_js (fun _ => 2) [1; 1] = [/ 2; / 2].
Proof.
unfold f_i_js, ratios; simpl; replace (1 / (1 + (1 + 0))) with (/ 2) by field; rewrite sroot_half; reflexivity.
Qed.
Lemma f_1 : f_i_js (fun _ => 2) [1] = [1].
Proof. unfold f_i_js, ratios; simpl; replace (1 / (1 + 0)) with 1 by field; rewrite sroot_whole; reflexivity. Qed.

Lemma order_refuted : let room := [1; 0; 0]%nat in let a := [1; 1; 1] in let f_ver := fun _ : list R => 2 in
  (forall i, (i < 2)%nat -> select i room a <> [] /\ 0 < f_ver (ratios (select i room a)) /\ fits (select i room a) (f_ver (ratios (select i room a)))) /\ nth_error (h_r_js f_ver 2 room a) 0 <> Some (h_r (own_factor f_ver room a 1 1)).
Proof.
cbn zeta; split.
- intros i B; assert (i = 0%nat \/ i = 1%nat) as [-> | ->] by lia; simpl; (split; [congruence|split; [lra|]]);
  apply fits_residual; try lra; unfold residual.
  + change (map (f_j 2) (ratios [1; 1])) with (f_i_js (fun _ => 2) [1; 1]); rewrite f_2; simpl; field.
  + change (map (f_j 2) (ratios [1])) with (f_i_js (fun _ => 2) [1]); rewrite f_1; simpl; field.
- unfold h_r_js, f_js; cbn -[f_i_js h_r own_factor]; rewrite f_2, f_1; cbn -[h_r own_factor].
  unfold own_factor; simpl; replace (1 / (1 + 0)) with 1 by field; rewrite sroot_whole.
  assert (h_r (/ 2) < h_r 1) by (apply h_r_lt; lra); intros [= E]; lra.
Qed.

(* Link to the specification *)
Lemma select_areas i room a : select i room a = room_areas i room a.
Proof.
unfold room_areas; revert a; induction room as [|r room IH]; intros [|x a]; simpl; auto.
destruct (Nat.eqb r i); simpl; rewrite IH; reflexivity.
Qed.

Lemma blackE : 4 * sgm * t_mrt ^ 3 = black.
Proof.
unfold sgm, t_mrt, black; replace (27315 / 100 + 20) with (29315 / 100) by lra.
replace (567 / 10000000000) with (567 / 10 ^ 10); [reflexivity|f_equal; f_equal; ring].
Qed.

Lemma h_rE f : h_r f = radiative f.
Proof. unfold h_r, radiative; rewrite <- blackE; unfold eps, Rdiv; ring. Qed.

Lemma bounds_spec f_ver n room a : Forall (fun x => 0 < x) a -> solved f_ver n room a ->
  Forall (fun h => 9 / 10 * black <= h <= 9 / 10 * black / (1 - 9 / 10)) (h_r_js f_ver n room a).
Proof.
intros P H; rewrite <- blackE; apply h_r_js_bounds; auto.
intros i B ne; rewrite select_areas in *; apply H; auto.
Qed.

Lemma own_spec f_ver n room a : length room = length a -> Forall (fun x => 0 < x) a -> solved f_ver n room a ->
  StronglySorted le room -> Forall (fun k => k < n)%nat room ->
  forall j i x, nth_error room j = Some i -> nth_error a j = Some x ->
  exists fbar f, 0 < fbar /\ fits (room_areas i room a) fbar /\
    view_factor fbar (x / fold_right Rplus 0 (room_areas i room a)) f /\
    nth_error (h_r_js f_ver n room a) j = Some (radiative f).
Proof.
intros L P H S B j i x E1 E2.
assert (I : In x (room_areas i room a)) by (rewrite <- select_areas; eapply in_select; eauto).
assert (ne : room_areas i room a <> []) by (intro E; rewrite E in I; destruct I).
assert (Bi : (i < n)%nat) by (apply (proj1 (Forall_forall _ _) B), (nth_error_In _ _ E1)).
assert (Pi : Forall (fun x => 0 < x) (room_areas i room a)) by (rewrite <- select_areas; apply select_pos; auto).
destruct (H i Bi ne) as [H1 H2]; destruct (f_i_js_ok _ _ ne Pi H1 H2) as [_ [_ [F [f0 _]]]].
exists (f_ver (ratios (room_areas i room a))).
exists (f_j (f_ver (ratios (room_areas i room a))) (x / sumR (room_areas i room a))).
split; [exact f0|split; [exact F|split; [apply view_factorE; [exact f0|reflexivity]|]]].
rewrite (h_r_js_sorted f_ver n room a L S B j i x E1 E2); unfold own_factor; rewrite select_areas, h_rE; reflexivity.
Qed.

Lemma order_spec : let room := [1; 0; 0]%nat in let a := [1; 1; 1] in let f_ver := fun _ : list R => 2 in
  solved f_ver 2 room a /\ nth_error room 0 = Some 1%nat /\ nth_error a 0 = Some 1 /\
  ~ exists fbar f, 0 < fbar /\ fits (room_areas 1 room a) fbar /\
    view_factor fbar (1 / fold_right Rplus 0 (room_areas 1 room a)) f /\
    nth_error (h_r_js f_ver 2 room a) 0 = Some (radiative f).
Proof.
cbn zeta; destruct order_refuted as [O1 O2]; split; [|split; [reflexivity|split; [reflexivity|]]].
- intros i B ne; destruct (O1 i B) as [_ [_ F]]; split; [lra|]; apply fits_residual in F; [|lra].
  rewrite select_areas in F; exact F.
- intros [fbar [f [f0 [F [V E]]]]]; apply O2; rewrite E, <- h_rE; f_equal; f_equal.
  apply view_factorE in V; [|exact f0]; rewrite V; unfold own_factor; rewrite select_areas.
  assert (fbar = 2) as ->.
  { assert (P : Forall (fun x => 0 < x) [1]) by (constructor; [lra|constructor]).
    assert (n1 : [1] <> []) by congruence.
    destruct (fits_unique [1] n1 P) as [u [_ U]].
    rewrite <- (U fbar); [apply U|split; auto].
    destruct (O1 1%nat ltac:(lia)) as [_ [_ F1]]; split; [lra|exact F1]. }
  reflexivity.
Qed.

Lemma solved_ex : solved (fun _ => 2) 2 [0; 0; 1]%nat [3; 3; 5].
Proof.
intros i B _; assert (i = 0%nat \/ i = 1%nat) as [-> | ->] by lia; simpl; (split; [lra|]); unfold residual, ratios; simpl.
- replace (3 / (3 + (3 + 0))) with (/ 2) by field; rewrite sroot_half; field.
- replace (5 / (5 + 0)) with 1 by field; rewrite sroot_whole; field.
Qed.
