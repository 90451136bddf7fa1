(* The stack of panes: the recursion of the program solves the light balance. *)
From Coq Require Import Reals ZArith List Bool Lia Lra.
From Verif Require Import Model.Py Model.EesHouse Model.Glazing Spec.GlassLight Lemmas.PyL Lemmas.CoreLoopL.
Import ListNotations.
Local Open Scope R_scope.

Lemma fdiv_ok a b : b <> 0 -> fdiv a b = Ok (a / b).
Proof. intro H; unfold fdiv; destruct (Req_EM_T b 0); [contradiction|reflexivity]. Qed.

Lemma py_get_nat A (l : list A) k x : nth_error l k = Some x -> py_get l (Z.of_nat k) = Ok x.
Proof.
intro H; assert (k < length l)%nat by (apply nth_error_Some; congruence).
unfold py_get, py_index.
replace ((0 <=? Z.of_nat k)%Z && (Z.of_nat k <? Z.of_nat (length l))%Z) with true.
2: symmetry; apply andb_true_intro; split; [apply Z.leb_le|apply Z.ltb_lt]; lia.
cbn [bind]; rewrite Nat2Z.id, H; reflexivity.
Qed.

(* the value of add_pane when it does not fail *)
Definition join (ml s : pane) : pane :=
  let d := 1 - rho_b ml * rho_f s in
  {| tau_f := tau_f ml * tau_f s / d; tau_b := tau_b s * tau_b ml / d;
     rho_f := rho_f ml + tau_f ml * rho_f s * tau_b ml / d;
     rho_b := rho_b s + tau_b s * rho_b ml * tau_f s / d |}.

Lemma real_den p q : real_pane p -> real_pane q -> 0 < 1 - rho_b p * rho_f q.
Proof. unfold real_pane; intros P Q; assert (rho_b p * rho_f q <= rho_b p * 1) by (apply Rmult_le_compat_l; lra); lra. Qed.

Lemma add_pane_ok p q : real_pane p -> real_pane q -> add_pane p q = Ok (join p q).
Proof.
intros P Q; assert (D := real_den _ _ P Q); unfold add_pane.
rewrite !fdiv_ok by lra; reflexivity.
Qed.

(* x / d <= y from x <= y * d *)
Lemma div_le x y d : 0 < d -> x <= y * d -> x / d <= y.
Proof. intros D H; apply (Rmult_le_reg_r d); [exact D|]; unfold Rdiv; rewrite Rmult_assoc, Rinv_l; lra. Qed.
Lemma div_lt x y d : 0 < d -> x < y * d -> x / d < y.
Proof. intros D H; apply (Rmult_lt_reg_r d); [exact D|]; unfold Rdiv; rewrite Rmult_assoc, Rinv_l; lra. Qed.
Lemma div_ge0 x d : 0 < d -> 0 <= x -> 0 <= x / d.
Proof. intros D H; apply Rmult_le_pos; [exact H|left; apply Rinv_0_lt_compat; exact D]. Qed.

(* one side of the next lemma: light of strength t enters a gap between mirrors r (behind it) and q = (u, v) *)
Lemma gap_share t r u v s w : 0 <= t -> 0 <= s -> t + s <= 1 -> s < 1 -> 0 <= r -> r < 1 -> 0 <= w -> w + r <= 1 ->
  0 <= u -> 0 <= v -> u + v <= 1 -> v < 1 ->
  t * u / (1 - r * v) + (s + t * v * w / (1 - r * v)) <= 1 /\ s + t * v * w / (1 - r * v) < 1.
Proof.
intros Ht Hs Hts Hs1 Hr Hr1 Hw Hwr Hu Hv Huv Hv1.
assert (D : 0 < 1 - r * v) by (assert (r * v <= r * 1) by (apply Rmult_le_compat_l; lra); lra).
assert (A : (u + v * w) / (1 - r * v) <= 1).
{ apply div_le; [exact D|]. assert (v * w <= v * (1 - r)) by (apply Rmult_le_compat_l; lra). lra. }
assert (B : v * w / (1 - r * v) < 1).
{ apply div_lt; [exact D|]. assert (v * w <= v * (1 - r)) by (apply Rmult_le_compat_l; lra). lra. }
assert (B0 : 0 <= v * w / (1 - r * v)) by (apply div_ge0; [exact D|apply Rmult_le_pos; lra]).
assert (A0 : 0 <= (u + v * w) / (1 - r * v)).
{ apply div_ge0; [exact D|]; assert (0 <= v * w) by (apply Rmult_le_pos; lra); lra. }
split.
- replace (t * u / (1 - r * v) + (s + t * v * w / (1 - r * v))) with (s + t * ((u + v * w) / (1 - r * v))) by (field; lra).
  assert (t * ((u + v * w) / (1 - r * v)) <= t * 1) by (apply Rmult_le_compat_l; lra); lra.
- replace (t * v * w / (1 - r * v)) with (t * (v * w / (1 - r * v))) by (field; lra).
  destruct (Req_dec t 0) as [->|T0]; [lra|].
  assert (t * (v * w / (1 - r * v)) < t * 1) by (apply Rmult_lt_compat_l; lra); lra.
Qed.

Lemma join_real p q : real_pane p -> real_pane q -> real_pane (join p q).
Proof.
intros P Q; assert (D := real_den _ _ P Q).
destruct P as [p1 [p2 [p3 [p4 [p5 [p6 [p7 p8]]]]]]], Q as [q1 [q2 [q3 [q4 [q5 [q6 [q7 q8]]]]]]].
destruct (gap_share (tau_f p) (rho_b p) (tau_f q) (rho_f q) (rho_f p) (tau_b p)) as [F1 F2]; try lra.
destruct (gap_share (tau_b q) (rho_f q) (tau_b p) (rho_b p) (rho_b q) (tau_f q)) as [B1 B2]; try lra.
rewrite (Rmult_comm (rho_f q) (rho_b p)) in B1, B2.
assert (0 <= tau_f p * rho_f q * tau_b p / (1 - rho_b p * rho_f q)).
{ apply div_ge0; [exact D|]; repeat apply Rmult_le_pos; assumption. }
assert (0 <= tau_b q * rho_b p * tau_f q / (1 - rho_b p * rho_f q)).
{ apply div_ge0; [exact D|]; repeat apply Rmult_le_pos; assumption. }
unfold real_pane, join; cbn [tau_f tau_b rho_f rho_b].
repeat split; try lra; apply div_ge0; try exact D; apply Rmult_le_pos; assumption.
Qed.

(* ---- panes i to i + k ---- *)
Definition all_real (ss : list pane) : Prop := forall p, In p ss -> real_pane p.
Definition clear : pane := {| tau_f := 1; tau_b := 1; rho_f := 0; rho_b := 0 |}.
Definition pn (ss : list pane) (j : nat) : pane := nth j ss clear.

Lemma clear_real : real_pane clear.
Proof. unfold real_pane, clear; simpl; lra. Qed.

Lemma pn_real ss j : all_real ss -> real_pane (pn ss j).
Proof.
intro H; unfold pn; destruct (Nat.lt_ge_cases j (length ss)) as [L|L].
- apply H, nth_In, L.
- rewrite nth_overflow by exact L; apply clear_real.
Qed.

Lemma pn_some ss j : (j < length ss)%nat -> nth_error ss j = Some (pn ss j).
Proof. intro L; unfold pn; apply nth_error_nth'; exact L. Qed.

Fixpoint ml (ss : list pane) (i k : nat) : pane :=
  match k with O => pn ss i | S k' => join (ml ss i k') (pn ss (i + k)) end.

Lemma ml_real ss i k : all_real ss -> real_pane (ml ss i k).
Proof. intro H; induction k as [|k IH]; simpl; [apply pn_real, H|apply join_real; [exact IH|apply pn_real, H]]. Qed.

Lemma multi_from_ok ss i k : all_real ss -> (i + k < length ss)%nat -> multi_from ss (Z.of_nat i) k = Ok (ml ss i k).
Proof.
intro H; induction k as [|k IH]; intro L.
- simpl; apply py_get_nat, pn_some; lia.
- change (multi_from ss (Z.of_nat i) (S k)) with
    (bind (multi_from ss (Z.of_nat i) k) (fun ml0 => bind (py_get ss (Z.of_nat i + Z.of_nat (S k))%Z) (fun s => add_pane ml0 s))).
  rewrite IH by lia; cbn [bind].
  rewrite <- Nat2Z.inj_add, (py_get_nat _ ss (i + S k) (pn ss (i + S k))) by (apply pn_some; lia); cbn [bind].
  rewrite add_pane_ok; [reflexivity|apply ml_real, H|apply pn_real, H].
Qed.

Lemma multi_ok ss i j : all_real ss -> (i <= j)%nat -> (j < length ss)%nat ->
  get_solar_spec_multi_layer ss (Z.of_nat i) (Z.of_nat j) = Ok (ml ss i (j - i)).
Proof.
intros H I L; unfold get_solar_spec_multi_layer.
replace (Z.of_nat i <? 0)%Z with false by (symmetry; apply Z.ltb_ge; lia).
replace (Z.of_nat j <? 0)%Z with false by (symmetry; apply Z.ltb_ge; lia).
replace (Z.of_nat j <? Z.of_nat i)%Z with false by (symmetry; apply Z.ltb_ge; lia).
replace (Z.of_nat (length ss) <=? Z.of_nat j)%Z with false by (symmetry; apply Z.leb_gt; lia).
replace (Z.to_nat (Z.of_nat j - Z.of_nat i)) with (j - i)%nat by lia.
apply multi_from_ok; [exact H|lia].
Qed.

(* the recursion as the program writes it *)
Lemma multi_rec ss i j : (0 <= i < j)%Z -> (j < Z.of_nat (length ss))%Z ->
  get_solar_spec_multi_layer ss i j =
  bind (get_solar_spec_multi_layer ss i (j - 1)) (fun p => bind (py_get ss j) (fun s => add_pane p s)).
Proof.
intros I L; unfold get_solar_spec_multi_layer.
replace (i <? 0)%Z with false by (symmetry; apply Z.ltb_ge; lia).
replace (j <? 0)%Z with false by (symmetry; apply Z.ltb_ge; lia).
replace (j - 1 <? 0)%Z with false by (symmetry; apply Z.ltb_ge; lia).
replace (j <? i)%Z with false by (symmetry; apply Z.ltb_ge; lia).
replace (j - 1 <? i)%Z with false by (symmetry; apply Z.ltb_ge; lia).
replace (Z.of_nat (length ss) <=? j)%Z with false by (symmetry; apply Z.leb_gt; lia).
replace (Z.of_nat (length ss) <=? j - 1)%Z with false by (symmetry; apply Z.leb_gt; lia).
replace (Z.to_nat (j - i)) with (S (Z.to_nat (j - 1 - i))) by lia.
cbn [multi_from]; replace (i + Z.of_nat (S (Z.to_nat (j - 1 - i))))%Z with j by lia; reflexivity.
Qed.

Lemma total_ok ss : all_real ss -> ss <> [] -> get_total_solar_spec ss = Ok (ml ss 0 (length ss - 1)).
Proof.
intros H N; assert (length ss <> 0)%nat by (destruct ss; [contradiction|discriminate]).
unfold get_total_solar_spec; replace (Z.of_nat (length ss) - 1)%Z with (Z.of_nat (length ss - 1)) by lia.
change 0%Z with (Z.of_nat 0); rewrite multi_ok; [|exact H|lia|lia].
rewrite Nat.sub_0_r; reflexivity.
Qed.

(* ---- lists made by comprehension ---- *)
Lemma mapM_range A (f : Z -> res A) (g : nat -> A) n : (forall j, (j < n)%nat -> f (Z.of_nat j) = Ok (g j)) ->
  mapM f (range 0 (Z.of_nat n)) = Ok (map g (seq 0 n)).
Proof.
intro H; unfold range; replace (Z.to_nat (Z.of_nat n - 0)) with n by lia.
assert (G : forall l, (forall j, In j l -> (j < n)%nat) ->
  mapM f (map (fun k => (0 + Z.of_nat k)%Z) l) = Ok (map g l)).
{ induction l as [|j l IH]; intro B; [reflexivity|].
  cbn [map mapM]; rewrite Z.add_0_l, H by (apply B; left; reflexivity); cbn [bind].
  rewrite IH by (intros k K; apply B; right; exact K); reflexivity. }
apply G; intros j I; apply in_seq in I; lia.
Qed.

Lemma get_comp A (g : nat -> A) n j : (j < n)%nat -> py_get (map g (seq 0 n)) (Z.of_nat j) = Ok (g j).
Proof.
intro L; apply py_get_nat; rewrite nth_error_map.
rewrite (nth_error_nth' _ 0%nat) by (rewrite seq_length; exact L).
rewrite seq_nth by exact L; reflexivity.
Qed.

(* the light in front of pane j and behind it, as the program finds it *)
Definition sol_f (ss : list pane) (j : nat) : R :=
  match j with
  | O => 1
  | S i => tau_f (ml ss 0 i) / (1 - rho_b (ml ss 0 i) * rho_f (ml ss j (length ss - 1 - j)))
  end.
Definition sol_b (ss : list pane) (j : nat) : R :=
  if (j =? length ss - 1)%nat then 0
  else tau_f (ml ss 0 j) * rho_f (ml ss (S j) (length ss - 1 - S j)) /
       (1 - rho_b (ml ss 0 j) * rho_f (ml ss (S j) (length ss - 1 - S j))).

Lemma abs_ok ss : all_real ss ->
  get_abs_multi_layer ss =
  Ok (map (fun j => sol_f ss j * a_f (pn ss j) + sol_b ss j * a_b (pn ss j)) (seq 0 (length ss))).
Proof.
intro H; unfold get_abs_multi_layer; set (n := length ss).
rewrite (mapM_range _ _ (fun j => ml ss 0 j) n).
2: { intros j L; change 0%Z with (Z.of_nat 0); rewrite multi_ok; [rewrite Nat.sub_0_r; reflexivity|exact H|lia|exact L]. }
cbn [bind].
rewrite (mapM_range _ _ (fun j => ml ss j (n - 1 - j)) n).
2: { intros j L; replace (Z.of_nat n - 1)%Z with (Z.of_nat (n - 1)) by lia; apply multi_ok; [exact H|lia|fold n; lia]. }
cbn [bind].
rewrite (mapM_range _ _ (sol_f ss) n).
2: { intros [|j] L; [reflexivity|].
  replace (Z.of_nat (S j) =? 0)%Z with false by (symmetry; apply Z.eqb_neq; lia).
  replace (Z.of_nat (S j) - 1)%Z with (Z.of_nat j) by lia.
  rewrite (get_comp _ (fun k => ml ss 0 k)) by lia; cbn [bind].
  rewrite (get_comp _ (fun k => ml ss k (n - 1 - k))) by lia; cbn [bind].
  apply fdiv_ok; assert (D := real_den _ _ (ml_real ss 0 j H) (ml_real ss (S j) (n - 1 - S j) H)); lra. }
cbn [bind].
rewrite (mapM_range _ _ (sol_b ss) n).
2: { intros j L; unfold sol_b; fold n.
  destruct (Nat.eqb_spec j (n - 1)) as [E|E].
  - replace (Z.of_nat j =? Z.of_nat n - 1)%Z with true by (symmetry; apply Z.eqb_eq; lia); reflexivity.
  - replace (Z.of_nat j =? Z.of_nat n - 1)%Z with false by (symmetry; apply Z.eqb_neq; lia).
    rewrite (get_comp _ (fun k => ml ss 0 k)) by lia; cbn [bind].
    replace (Z.of_nat j + 1)%Z with (Z.of_nat (S j)) by lia.
    rewrite (get_comp _ (fun k => ml ss k (n - 1 - k))) by lia; cbn [bind].
    apply fdiv_ok; assert (D := real_den _ _ (ml_real ss 0 j H) (ml_real ss (S j) (n - 1 - S j) H)); lra. }
cbn [bind].
apply mapM_range; intros j L.
rewrite get_comp by exact L; cbn [bind].
rewrite (py_get_nat _ ss j (pn ss j)) by (apply pn_some; exact L); cbn [bind].
rewrite get_comp by exact L; reflexivity.
Qed.

(* ---- the panes i to i + k as one pane ---- *)
Lemma light_multi ss f b i k : all_real ss -> light ss f b -> (i + k < length ss)%nat ->
  f (S (i + k)) = tau_f (ml ss i k) * f i + rho_b (ml ss i k) * b (S (i + k)) /\
  b i = rho_f (ml ss i k) * f i + tau_b (ml ss i k) * b (S (i + k)).
Proof.
intros H LI; induction k as [|k IH]; intro L.
- rewrite Nat.add_0_r in *; apply LI, pn_some; exact L.
- destruct IH as [F B]; [lia|].
  destruct (LI (i + S k)%nat (pn ss (i + S k))) as [F1 B1]; [apply pn_some; lia|].
  replace (S (i + k)) with (i + S k)%nat in F, B by lia.
  cbn [ml]; set (p := ml ss i k) in *; set (q := pn ss (i + S k)) in *.
  assert (D : 0 < 1 - rho_b p * rho_f q) by (apply real_den; [apply ml_real, H|apply pn_real, H]).
  unfold join; cbn [tau_f tau_b rho_f rho_b].
  set (x := f (i + S k)%nat) in *; set (y := b (i + S k)%nat) in *; set (z := b (S (i + S k))) in *.
  assert (X : x = (tau_f p * f i + rho_b p * tau_b q * z) / (1 - rho_b p * rho_f q)).
  { apply (Rmult_eq_reg_r (1 - rho_b p * rho_f q)); [|lra].
    unfold Rdiv; rewrite Rmult_assoc, Rinv_l, Rmult_1_r by lra.
    rewrite B1 in F; rewrite Rmult_minus_distr_l, Rmult_1_r; rewrite F at 1; ring. }
  split.
  + rewrite F1, X; field; lra.
  + rewrite B, B1, X; field; lra.
Qed.

Lemma light_exists ss : all_real ss -> forall F B, exists f b, light ss f b /\ f 0%nat = F /\ b (length ss) = B.
Proof.
intros H F; assert (G : forall k, (k <= length ss)%nat -> forall B, exists f b,
  (forall j p, (j < k)%nat -> nth_error ss j = Some p ->
     f (S j) = tau_f p * f j + rho_b p * b (S j) /\ b j = rho_f p * f j + tau_b p * b (S j)) /\
  f 0%nat = F /\ b k = B).
{ induction k as [|k IH]; intros L B.
  - exists (fun _ => F), (fun _ => B); split; [intros; lia|split; reflexivity].
  - destruct k as [|k].
    + set (q := pn ss 0).
      exists (fun j => match j with O => F | _ => tau_f q * F + rho_b q * B end),
             (fun j => match j with O => rho_f q * F + tau_b q * B | _ => B end).
      split; [|split; reflexivity]; intros j p J E.
      replace j with 0%nat in * by lia.
      rewrite pn_some in E by lia; injection E as <-; fold q; split; reflexivity.
    + set (p := ml ss 0 k); set (q := pn ss (S k)).
      assert (D : 0 < 1 - rho_b p * rho_f q) by (apply real_den; [apply ml_real, H|apply pn_real, H]).
      set (x := (tau_f p * F + rho_b p * tau_b q * B) / (1 - rho_b p * rho_f q)).
      set (y := rho_f q * x + tau_b q * B).
      destruct (IH ltac:(lia) y) as [f [b [E [F0 BK]]]].
      (* the light of the first panes leaves x in the gap *)
      assert (X : f (S k) = tau_f p * F + rho_b p * y).
      { set (ss' := firstn (S k) ss).
        assert (L' : length ss' = S k) by (unfold ss'; rewrite firstn_length; lia).
        assert (N : forall j, (j < S k)%nat -> nth_error ss' j = nth_error ss j).
        { intros j J; unfold ss'; rewrite <- (firstn_skipn (S k) ss) at 2.
          rewrite nth_error_app1; [reflexivity|fold ss'; lia]. }
        assert (H' : all_real ss').
        { intros r I; apply H; rewrite <- (firstn_skipn (S k) ss); apply in_or_app; left; exact I. }
        assert (LI : light ss' f b).
        { intros j r J; assert (j < length ss')%nat by (apply nth_error_Some; congruence).
          apply E; [lia|rewrite <- N by lia; exact J]. }
        assert (M : forall i, (i < S k)%nat -> ml ss' 0 i = ml ss 0 i).
        { assert (PN : forall j, (j < S k)%nat -> pn ss' j = pn ss j).
          { intros j J; assert (K := N j J); rewrite !pn_some in K by lia; injection K; auto. }
          induction i as [|i IHi]; intro I; cbn [ml]; [apply PN; lia|].
          rewrite IHi by lia; simpl (0 + S i)%nat; rewrite PN by lia; reflexivity. }
        destruct (light_multi ss' f b 0 k H' LI) as [X _]; [lia|].
        rewrite M in X by lia; simpl (S (0 + k)) in X; rewrite X, F0, BK; reflexivity. }
      assert (XX : f (S k) = x).
      { rewrite X; unfold y, x; field; lra. }
      exists (fun j => if (j =? S (S k))%nat then tau_f q * x + rho_b q * B else f j),
             (fun j => if (j =? S (S k))%nat then B else b j).
      split; [|split; [exact F0|rewrite Nat.eqb_refl; reflexivity]].
      intros j r J EJ; destruct (Nat.eq_dec j (S k)) as [->|NJ].
      * rewrite Nat.eqb_refl; replace (S k =? S (S k))%nat with false by (symmetry; apply Nat.eqb_neq; lia).
        rewrite pn_some in EJ by lia; injection EJ as <-; fold q; rewrite XX, BK; split; reflexivity.
      * replace (j =? S (S k))%nat with false by (symmetry; apply Nat.eqb_neq; lia).
        replace (S j =? S (S k))%nat with false by (symmetry; apply Nat.eqb_neq; lia).
        apply E; [lia|exact EJ]. }
intro B; destruct (G (length ss) (le_n _) B) as [f [b [E [F0 BK]]]].
exists f, b; split; [|split; assumption].
intros j p J; apply E; [apply nth_error_Some; congruence|exact J].
Qed.

(* ---- the results are the light balance ---- *)
Lemma sun_f ss f b j : all_real ss -> sunlight ss f b -> (j < length ss)%nat -> f j = sol_f ss j.
Proof.
intros H [LI [F0 BN]] L; destruct j as [|j]; [exact F0|]; cbn [sol_f].
destruct (light_multi ss f b 0 j H LI) as [F _]; [lia|].
destruct (light_multi ss f b (S j) (length ss - 1 - S j) H LI) as [_ B]; [lia|].
simpl (S (0 + j)) in F; replace (S (S j + (length ss - 1 - S j))) with (length ss) in B by lia.
rewrite BN, Rmult_0_r, Rplus_0_r in B; rewrite F0, B in F.
set (p := ml ss 0 j) in *; set (q := ml ss (S j) (length ss - 1 - S j)) in *.
assert (D : 0 < 1 - rho_b p * rho_f q) by (apply real_den; apply ml_real, H).
apply (Rmult_eq_reg_r (1 - rho_b p * rho_f q)); [|lra].
unfold Rdiv; rewrite Rmult_assoc, Rinv_l, Rmult_1_r by lra.
rewrite Rmult_minus_distr_l, Rmult_1_r; rewrite F at 1; ring.
Qed.

Lemma sun_b ss f b j : all_real ss -> sunlight ss f b -> (j < length ss)%nat -> b (S j) = sol_b ss j.
Proof.
intros H S L; unfold sol_b; destruct (Nat.eqb_spec j (length ss - 1)) as [E|E].
- destruct S as [_ [_ BN]]; rewrite <- BN; f_equal; lia.
- assert (F := sun_f ss f b (Datatypes.S j) H S ltac:(lia)); cbn [sol_f] in F.
  destruct S as [LI [_ BN]].
  destruct (light_multi ss f b (Datatypes.S j) (length ss - 1 - Datatypes.S j) H LI) as [_ B]; [lia|].
  replace (Datatypes.S (Datatypes.S j + (length ss - 1 - Datatypes.S j))) with (length ss) in B by lia.
  rewrite B, F, BN; unfold Rdiv; ring.
Qed.

Lemma glass_light ss : all_real ss -> ss <> [] ->
  exists t a, get_total_solar_spec ss = Ok t /\ get_abs_multi_layer ss = Ok a /\ length a = length ss /\
  exists f b, sunlight ss f b /\ tau_f t = f (length ss) /\ rho_f t = b 0%nat /\
  forall j p, nth_error ss j = Some p -> nth_error a j = Some (kept p f b j).
Proof.
intros H N; assert (L : length ss <> 0%nat) by (destruct ss; [contradiction|discriminate]).
rewrite total_ok, abs_ok by assumption.
eexists; eexists; split; [reflexivity|split; [reflexivity|split; [rewrite map_length, seq_length; reflexivity|]]].
destruct (light_exists ss H 1 0) as [f [b SU]]; exists f, b; split; [exact SU|].
assert (SU' := SU); destruct SU' as [LI [F0 BN]].
destruct (light_multi ss f b 0 (length ss - 1) H LI) as [F B]; [lia|].
replace (S (0 + (length ss - 1))) with (length ss) in F, B by lia.
rewrite F0, BN in F, B; split; [rewrite F; ring|split; [rewrite B; ring|]].
intros j p J; assert (J' : (j < length ss)%nat) by (apply nth_error_Some; congruence).
rewrite nth_error_map, (nth_error_nth' _ 0%nat) by (rewrite seq_length; exact J').
rewrite seq_nth by exact J'; simpl; f_equal.
rewrite pn_some in J by exact J'; injection J as <-.
rewrite <- (sun_f ss f b j H SU J'), <- (sun_b ss f b j H SU J').
unfold kept, a_f, a_b; ring.
Qed.

(* the light is determined by what enters *)
Lemma light_unique ss f b f' b' : all_real ss -> light ss f b -> light ss f' b' ->
  f 0%nat = f' 0%nat -> b (length ss) = b' (length ss) ->
  forall j, (j <= length ss)%nat -> f j = f' j /\ b j = b' j.
Proof.
intros H LI LI' F0 BN.
assert (G : forall k, (k <= length ss)%nat -> f (length ss - k)%nat = f' (length ss - k)%nat /\ b (length ss - k)%nat = b' (length ss - k)%nat).
{ induction k as [|k IH]; intro K.
  - rewrite Nat.sub_0_r; split; [|exact BN].
    destruct ss as [|p ss0] eqn:ES; [exact F0|rewrite <- ES in *].
    assert (length ss <> 0)%nat by (rewrite ES; discriminate).
    destruct (light_multi ss f b 0 (length ss - 1) H LI) as [A _]; [lia|].
    destruct (light_multi ss f' b' 0 (length ss - 1) H LI') as [A' _]; [lia|].
    replace (S (0 + (length ss - 1))) with (length ss) in A, A' by lia.
    rewrite A, A', F0, BN; reflexivity.
  - destruct (IH ltac:(lia)) as [_ BK]; set (m := (length ss - S k)%nat).
    replace (length ss - k)%nat with (S m) in BK by (unfold m; lia).
    assert (FM : f m = f' m).
    { destruct m as [|m'] eqn:EM; [exact F0|].
      (* f m from the panes before and behind the gap *)
      destruct (light_multi ss f b 0 m' H LI) as [A _]; [unfold m in EM; lia|].
      destruct (light_multi ss f' b' 0 m' H LI') as [A' _]; [unfold m in EM; lia|].
      destruct (LI (S m') (pn ss (S m'))) as [_ B]; [apply pn_some; unfold m in EM; lia|].
      destruct (LI' (S m') (pn ss (S m'))) as [_ B']; [apply pn_some; unfold m in EM; lia|].
      simpl (S (0 + m')) in A, A'.
      set (p := ml ss 0 m') in *; set (q := pn ss (S m')) in *.
      assert (D : 0 < 1 - rho_b p * rho_f q) by (apply real_den; [apply ml_real, H|apply pn_real, H]).
      apply (Rmult_eq_reg_r (1 - rho_b p * rho_f q)); [|lra].
      rewrite !Rmult_minus_distr_l, !Rmult_1_r, A at 1; rewrite A' at 1; rewrite B, B', F0, BK; ring. }
    split; [exact FM|].
    destruct (LI m (pn ss m)) as [_ B]; [apply pn_some; unfold m; lia|].
    destruct (LI' m (pn ss m)) as [_ B']; [apply pn_some; unfold m; lia|].
    rewrite B, B', FM, BK; reflexivity. }
intros j J; replace j with (length ss - (length ss - j))%nat by lia; apply G; lia.
Qed.

(* ---- nothing is lost ---- *)
Lemma light_sum ss f b : light ss f b ->
  f 0%nat + b (length ss) = f (length ss) + b 0%nat + py_sum (map (fun j => kept (pn ss j) f b j) (seq 0 (length ss))).
Proof.
intro LI; assert (G : forall k, (k <= length ss)%nat ->
  f 0%nat + b k = f k + b 0%nat + py_sum (map (fun j => kept (pn ss j) f b j) (seq 0 k))).
{ induction k as [|k IH]; intro K; [simpl; ring|].
  rewrite seq_S, map_app; simpl (map _ [_]).
  assert (PS : forall l x, py_sum (l ++ [x]) = py_sum l + x).
  { unfold py_sum; induction l as [|y l IHl]; intro x; simpl; [ring|rewrite IHl; ring]. }
  rewrite PS; assert (E := IH ltac:(lia)).
  destruct (LI k (pn ss k)) as [F B]; [apply pn_some; lia|].
  set (s := py_sum _) in *; unfold kept; rewrite F; rewrite B in E; lra. }
apply G; lia.
Qed.

Lemma map_seq_ext A (f g : nat -> A) n : (forall j, (j < n)%nat -> f j = g j) -> map f (seq 0 n) = map g (seq 0 n).
Proof. intro H; apply map_ext_in; intros j I; apply in_seq in I; apply H; lia. Qed.

Lemma glass_conserved ss t a : all_real ss -> get_total_solar_spec ss = Ok t -> get_abs_multi_layer ss = Ok a ->
  tau_f t + rho_f t + py_sum a = 1.
Proof.
intros H T A; assert (N : ss <> []) by (intros ->; discriminate).
rewrite total_ok in T by assumption; rewrite abs_ok in A by exact H.
injection T as <-; injection A as <-.
destruct (light_exists ss H 1 0) as [f [b SU]]; assert (SU' := SU); destruct SU' as [LI [F0 BN]].
assert (E := light_sum ss f b LI).
assert (L : length ss <> 0%nat) by (destruct ss; [contradiction|discriminate]).
destruct (light_multi ss f b 0 (length ss - 1) H LI) as [F B]; [lia|].
replace (S (0 + (length ss - 1))) with (length ss) in F, B by lia.
rewrite (map_seq_ext _ _ (fun j => kept (pn ss j) f b j)).
- rewrite F, B, F0, BN in E; lra.
- intros j J; rewrite <- (sun_f ss f b j H SU J), <- (sun_b ss f b j H SU J); unfold kept, a_f, a_b; ring.
Qed.

Lemma sol_f_ge0 ss j : all_real ss -> 0 <= sol_f ss j.
Proof.
intro H; destruct j as [|j]; cbn [sol_f]; [lra|].
apply div_ge0; [apply real_den; apply ml_real, H|].
destruct (ml_real ss 0 j H) as [A _]; exact A.
Qed.
Lemma sol_b_ge0 ss j : all_real ss -> 0 <= sol_b ss j.
Proof.
intro H; unfold sol_b; destruct (_ =? _)%nat; [lra|].
apply div_ge0; [apply real_den; apply ml_real, H|].
destruct (ml_real ss 0 j H) as [A _], (ml_real ss (S j) (length ss - 1 - S j) H) as [_ [B _]].
apply Rmult_le_pos; assumption.
Qed.

Lemma py_sum_ge l x : (forall y, In y l -> 0 <= y) -> In x l -> x <= py_sum l /\ 0 <= py_sum l.
Proof.
unfold py_sum; induction l as [|y l IH]; simpl; intros P I; [contradiction|].
assert (0 <= fold_right Rplus 0 l).
{ clear IH I; induction l as [|z l IH]; simpl; [lra|].
  assert (0 <= z) by (apply P; right; left; reflexivity).
  assert (0 <= fold_right Rplus 0 l) by (apply IH; intros w [<-|W]; apply P; [left|right; right]; auto); lra. }
assert (0 <= y) by (apply P; left; reflexivity).
destruct I as [->|I]; [lra|]; destruct (IH ltac:(intros z Z; apply P; right; exact Z) I); lra.
Qed.

Lemma glass_range ss t a : all_real ss -> get_total_solar_spec ss = Ok t -> get_abs_multi_layer ss = Ok a ->
  0 <= tau_f t <= 1 /\ 0 <= rho_f t < 1 /\ 0 <= tau_b t <= 1 /\ 0 <= rho_b t < 1 /\
  forall x, In x a -> 0 <= x <= 1.
Proof.
intros H T A; assert (C := glass_conserved ss t a H T A).
assert (N : ss <> []) by (intros ->; discriminate).
rewrite total_ok in T by assumption; rewrite abs_ok in A by exact H.
injection T as <-; injection A as <-.
destruct (ml_real ss 0 (length ss - 1) H) as [p1 [p2 [p3 [p4 [p5 [p6 [p7 p8]]]]]]].
repeat split; try lra;
assert (P : forall y, In y (map (fun j => sol_f ss j * a_f (pn ss j) + sol_b ss j * a_b (pn ss j)) (seq 0 (length ss))) -> 0 <= y).
1, 3: intros y Y; apply in_map_iff in Y; destruct Y as [j [<- _]];
  destruct (pn_real ss j H) as [q1 [q2 [q3 [q4 [q5 [q6 [q7 q8]]]]]]];
  assert (0 <= sol_f ss j * a_f (pn ss j)) by (apply Rmult_le_pos; [apply sol_f_ge0, H|unfold a_f; lra]);
  assert (0 <= sol_b ss j * a_b (pn ss j)) by (apply Rmult_le_pos; [apply sol_b_ge0, H|unfold a_b; lra]); lra.
- apply P; assumption.
- destruct (py_sum_ge _ x P) as [X _]; [assumption|]; lra.
Qed.

(* ---- more panes ---- *)
Lemma ml_app ss p i k : (i + k < length ss)%nat -> ml (ss ++ [p]) i k = ml ss i k.
Proof.
induction k as [|k IH]; intro L; cbn [ml].
- unfold pn; apply app_nth1; lia.
- rewrite IH by lia; f_equal; unfold pn; apply app_nth1; lia.
Qed.

Lemma glass_more ss p t t' : all_real ss -> real_pane p ->
  get_total_solar_spec ss = Ok t -> get_total_solar_spec (ss ++ [p]) = Ok t' ->
  tau_f t' <= tau_f t /\ rho_f t <= rho_f t'.
Proof.
intros H P T T'; assert (N : ss <> []) by (intros ->; discriminate).
assert (H' : all_real (ss ++ [p])).
{ intros q I; apply in_app_or in I; destruct I as [I|[<-|[]]]; [apply H; exact I|exact P]. }
rewrite total_ok in T, T' by (try assumption; destruct ss; discriminate).
injection T as <-; injection T' as <-.
assert (L : length ss <> 0%nat) by (destruct ss; [contradiction|discriminate]).
rewrite app_length; simpl (length [p]).
replace (length ss + 1 - 1)%nat with (S (length ss - 1)) by lia.
cbn [ml]; rewrite ml_app by lia.
replace (pn (ss ++ [p]) (0 + S (length ss - 1))) with p.
2: { unfold pn; rewrite app_nth2 by lia; replace (0 + S (length ss - 1) - length ss)%nat with 0%nat by lia; reflexivity. }
set (q := ml ss 0 (length ss - 1)); assert (Q : real_pane q) by apply ml_real, H.
assert (D := real_den _ _ Q P).
destruct Q as [q1 [q2 [q3 [q4 [q5 [q6 [q7 q8]]]]]]], P as [p1 [p2 [p3 [p4 [p5 [p6 [p7 p8]]]]]]].
unfold join; cbn [tau_f rho_f]; split.
- apply div_le; [exact D|]; apply Rmult_le_compat_l; [exact q1|].
  assert (rho_b q * rho_f p <= 1 * rho_f p) by (apply Rmult_le_compat_r; lra); lra.
- assert (0 <= tau_f q * rho_f p * tau_b q / (1 - rho_b q * rho_f p)); [|lra].
  apply div_ge0; [exact D|]; repeat apply Rmult_le_pos; assumption.
Qed.

(* ---- seen from the other side ---- *)
Lemma turn_real p : real_pane p -> real_pane (turn p).
Proof. unfold real_pane, turn; simpl; tauto. Qed.

Lemma nth_error_rev A (l : list A) j : (j < length l)%nat -> nth_error (rev l) j = nth_error l (length l - 1 - j).
Proof.
intro L; destruct l as [|d l0] eqn:E; [simpl in L; lia|rewrite <- E in *].
rewrite (nth_error_nth' _ d) by (rewrite rev_length; exact L).
rewrite rev_nth by exact L; symmetry; replace (length l - 1 - j)%nat with (length l - S j)%nat by lia.
apply nth_error_nth'; lia.
Qed.

Lemma light_turn ss f b : light ss f b ->
  light (rev (map turn ss)) (fun j => b (length ss - j)%nat) (fun j => f (length ss - j)%nat).
Proof.
intros LI j p J.
assert (L : (j < length ss)%nat).
{ assert (nth_error (rev (map turn ss)) j <> None) as X by congruence.
  apply nth_error_Some in X; rewrite rev_length, map_length in X; exact X. }
rewrite nth_error_rev in J by (rewrite map_length; exact L).
rewrite map_length, nth_error_map, pn_some in J by lia; injection J as <-.
destruct (LI (length ss - 1 - j)%nat (pn ss (length ss - 1 - j))) as [F B]; [apply pn_some; lia|].
replace (length ss - S j)%nat with (length ss - 1 - j)%nat by lia.
replace (S (length ss - 1 - j)) with (length ss - j)%nat in F, B by lia.
unfold turn; cbn [tau_f tau_b rho_f rho_b]; split; [rewrite B|rewrite F]; ring.
Qed.

Lemma total_light ss t f b : all_real ss -> get_total_solar_spec ss = Ok t -> light ss f b ->
  f (length ss) = tau_f t * f 0%nat + rho_b t * b (length ss) /\
  b 0%nat = rho_f t * f 0%nat + tau_b t * b (length ss).
Proof.
intros H T LI; assert (N : ss <> []) by (intros ->; discriminate).
rewrite total_ok in T by assumption; injection T as <-.
assert (L : length ss <> 0%nat) by (destruct ss; [contradiction|discriminate]).
destruct (light_multi ss f b 0 (length ss - 1) H LI) as [F B]; [lia|].
replace (S (0 + (length ss - 1))) with (length ss) in F, B by lia; split; assumption.
Qed.

Lemma glass_turn ss t : all_real ss -> get_total_solar_spec ss = Ok t ->
  get_total_solar_spec (rev (map turn ss)) = Ok (turn t).
Proof.
intros H T; assert (N : ss <> []) by (intros ->; discriminate).
assert (H' : all_real (rev (map turn ss))).
{ intros p I; apply in_rev, in_map_iff in I; destruct I as [q [<- Q]]; apply turn_real, H, Q. }
assert (N' : rev (map turn ss) <> []).
{ intro E; apply (f_equal (@length _)) in E; rewrite rev_length, map_length in E; destruct ss; [contradiction|discriminate]. }
destruct (get_total_solar_spec (rev (map turn ss))) as [u|] eqn:U; [|rewrite total_ok in U by assumption; discriminate].
f_equal; assert (X : forall F B, tau_b t * B + rho_f t * F = tau_f u * B + rho_b u * F /\
  rho_b t * B + tau_f t * F = rho_f u * B + tau_b u * F).
{ intros F B; destruct (light_exists ss H F B) as [f [b [LI [F0 BN]]]].
  destruct (total_light ss t f b H T LI) as [E1 E2].
  destruct (total_light _ u _ _ H' U (light_turn ss f b LI)) as [E3 E4].
  rewrite rev_length, map_length, Nat.sub_diag, Nat.sub_0_r in E3, E4.
  rewrite F0, BN in *; lra. }
destruct (X 1 0) as [X1 X2], (X 0 1) as [X3 X4].
destruct t as [t1 t2 t3 t4], u as [u1 u2 u3 u4]; unfold turn; cbn [tau_f tau_b rho_f rho_b] in *; f_equal; lra.
Qed.

Lemma glass_same ss t : all_real ss -> (forall p, In p ss -> tau_f p = tau_b p) -> get_total_solar_spec ss = Ok t ->
  tau_f t = tau_b t.
Proof.
intros H E T; assert (N : ss <> []) by (intros ->; discriminate).
rewrite total_ok in T by assumption; injection T as <-.
assert (P : forall j, tau_f (pn ss j) = tau_b (pn ss j)).
{ intro j; unfold pn; destruct (Nat.lt_ge_cases j (length ss)) as [L|L]; [apply E, nth_In, L|].
  rewrite nth_overflow by exact L; reflexivity. }
induction (length ss - 1)%nat as [|k IH]; cbn [ml]; [apply P|].
unfold join; cbn [tau_f tau_b]; rewrite IH, P; unfold Rdiv; ring.
Qed.

(* a pane in front *)
Lemma glass_front ss p t t' : all_real ss -> real_pane p -> (forall q, In q (p :: ss) -> tau_f q = tau_b q) ->
  get_total_solar_spec ss = Ok t -> get_total_solar_spec (p :: ss) = Ok t' -> tau_f t' <= tau_f t.
Proof.
intros H P E T T'.
assert (HP : all_real (p :: ss)) by (intros q [<-|I]; [exact P|apply H, I]).
assert (U := glass_turn _ _ H T); assert (U' := glass_turn _ _ HP T').
simpl (rev (map turn (p :: ss))) in U'.
assert (R : all_real (rev (map turn ss))).
{ intros q I; apply in_rev, in_map_iff in I; destruct I as [r [<- Q]]; apply turn_real, H, Q. }
destruct (glass_more _ _ _ _ R (turn_real _ P) U U') as [G _]; cbn [turn tau_f] in G.
rewrite (glass_same _ _ H (fun q I => E q (or_intror I)) T), (glass_same _ _ HP E T'); exact G.
Qed.
