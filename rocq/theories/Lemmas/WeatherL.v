From Coq Require Import Reals List String ZArith Lia Lra.
From Verif Require Import Model.Py Model.Weather Spec.WeatherSpec Lemmas.PyL Lemmas.ScheduleL.
Import ListNotations.
Local Open Scope R_scope.

Lemma n_hour_ok interval n : get_n_hour interval = Ok n ->
  (interval = "1h" /\ n = 1%nat \/ interval = "30m" /\ n = 2%nat \/ interval = "15m" /\ n = 4%nat)%string.
Proof.
unfold get_n_hour; destruct (String.eqb_spec interval "1h"); [intros [= <-]; auto|].
destruct (String.eqb_spec interval "30m"); [intros [= <-]; auto|].
destruct (String.eqb_spec interval "15m"); [intros [= <-]; auto|discriminate].
Qed.

Lemma roll1_length l : List.length (roll1 l) = List.length l.
Proof.
destruct l as [|x l]; [reflexivity|]; unfold roll1; cbn [List.length].
pose proof (app_removelast_last (l := x :: l) 0 ltac:(discriminate)) as E.
assert (L : List.length (removelast (x :: l) ++ [last (x :: l) 0]) = List.length (x :: l)) by (rewrite <- E; reflexivity).
rewrite app_length in L; cbn [List.length] in L; lia.
Qed.

Lemma nth_removelast (l : list R) k : (S k < List.length l)%nat -> nth k (removelast l) 0 = nth k l 0.
Proof.
revert k; induction l as [|x [|y l] IH]; intros k H; simpl in H; try lia.
destruct k as [|k]; [reflexivity|]; change (removelast (x :: y :: l)) with (x :: removelast (y :: l)).
cbn [nth]; apply IH; simpl; lia.
Qed.

Lemma last_nth (l : list R) : last l 0 = nth (pred (List.length l)) l 0.
Proof. induction l as [|x [|y l] IH]; try reflexivity; change (last (x :: y :: l) 0) with (last (y :: l) 0); rewrite IH; reflexivity. Qed.

Lemma roll1_nth l h : (h < List.length l)%nat -> nth h (roll1 l) 0 = hourly l (Z.of_nat h - 1).
Proof.
intro H; unfold hourly; destruct l as [|x l]; [simpl in H; lia|]; unfold roll1.
destruct h as [|h].
- cbn [nth]; rewrite last_nth; f_equal.
  replace (Z.of_nat 0 - 1)%Z with (Z.of_nat (pred (List.length (x :: l))) + (-1) * Z.of_nat (List.length (x :: l)))%Z by (cbn [List.length]; lia).
  rewrite Z_mod_plus_full, Z.mod_small by (cbn [List.length]; lia); rewrite Nat2Z.id; reflexivity.
- cbn [nth]; rewrite nth_removelast by exact H.
  rewrite Z.mod_small by lia; replace (Z.to_nat (Z.of_nat (S h) - 1)) with h by lia; reflexivity.
Qed.

Lemma interpolate_accepts data interval : (exists r, interpolate data interval = Ok r) <-> (exists n, get_n_hour interval = Ok n).
Proof.
unfold interpolate, get_n_hour; destruct (interval =? "1h")%string; [split; eauto|].
destruct (interval =? "30m")%string; [split; simpl; eauto|].
destruct (interval =? "15m")%string; [split; simpl; eauto|split; intros [? ?]; discriminate].
Qed.

Lemma interpolate_rejects data interval : interval <> "1h"%string -> interval <> "30m"%string -> interval <> "15m"%string ->
  interpolate data interval = Err KeyError /\ get_n_hour interval = Err KeyError.
Proof.
intros N1 N2 N3; unfold interpolate, get_n_hour.
destruct (String.eqb_spec interval "1h"); [congruence|]; destruct (String.eqb_spec interval "30m"); [congruence|].
destruct (String.eqb_spec interval "15m"); [congruence|]; split; reflexivity.
Qed.

Lemma nth_nth_error (l : list R) k : (k < List.length l)%nat -> nth_error l k = Some (nth k l 0).
Proof. intro H; apply nth_error_nth'; exact H. Qed.

Lemma hourly_nth l h : (h < List.length l)%nat -> nth h l 0 = hourly l (Z.of_nat h).
Proof. intro H; unfold hourly; rewrite Z.mod_small by lia; rewrite Nat2Z.id; reflexivity. Qed.

Lemma interpolate_value data interval n r : get_n_hour interval = Ok n -> interpolate data interval = Ok r ->
  List.length r = (List.length data * n)%nat /\
  forall h k, (h < List.length data)%nat -> (k < n)%nat ->
  nth_error r (h * n + k) = Some ((1 - INR k / INR n) * hourly data (Z.of_nat h - 1) + INR k / INR n * hourly data (Z.of_nat h)).
Proof.
intros N E; destruct (n_hour_ok _ _ N) as [[-> ->]|[[-> ->]|[-> ->]]].
- assert (r = roll1 data) as -> by (unfold interpolate in E; simpl in E; congruence); rewrite roll1_length; split; [lia|]; intros h k Hh Hk.
  assert (k = 0%nat) as -> by lia; replace (h * 1 + 0)%nat with h by lia.
  rewrite nth_nth_error by (rewrite roll1_length; exact Hh); rewrite roll1_nth by exact Hh; f_equal; simpl; field.
- assert (r = List.concat (map (fun p : R * R => map (fun a => a * fst p + (1 - a) * snd p) [1; 1 / 2]) (combine (roll1 data) data))) as ->
    by (assert (Q : Ok (List.concat (map (fun p : R * R => map (fun a => a * fst p + (1 - a) * snd p) [1; 1 / 2]) (combine (roll1 data) data))) = Ok r) by exact E; congruence); clear E.
  assert (W : Forall (fun q : list R => List.length q = 2%nat)
    (map (fun p : R * R => map (fun a => a * fst p + (1 - a) * snd p) [1; 1 / 2]) (combine (roll1 data) data))).
  { apply Forall_map, Forall_forall; intros x _; reflexivity. }
  destruct (concat_rows 2 _ W) as [L V]; rewrite map_length, combine_length, roll1_length, Nat.min_id in L.
  split; [exact L|]; intros h k Hh Hk.
  assert (A : nth_error (roll1 data) h = Some (hourly data (Z.of_nat h - 1))) by (rewrite nth_nth_error by (rewrite roll1_length; exact Hh); rewrite roll1_nth by exact Hh; reflexivity).
  assert (B : nth_error data h = Some (hourly data (Z.of_nat h))) by (rewrite nth_nth_error, hourly_nth by exact Hh; reflexivity).
  pose proof (nth_error_combine _ _ _ _ _ _ _ A B) as C.
  rewrite (V h _ k (map_nth_error _ _ _ C) Hk).
  assert (k = 0 \/ k = 1)%nat as [->| ->] by lia; cbn [map nth_error fst snd]; f_equal; simpl; field.
- assert (r = List.concat (map (fun p : R * R => map (fun a => a * fst p + (1 - a) * snd p) [1; 3 / 4; 1 / 2; 1 / 4]) (combine (roll1 data) data))) as ->
    by (assert (Q : Ok (List.concat (map (fun p : R * R => map (fun a => a * fst p + (1 - a) * snd p) [1; 3 / 4; 1 / 2; 1 / 4]) (combine (roll1 data) data))) = Ok r) by exact E; congruence); clear E.
  assert (W : Forall (fun q : list R => List.length q = 4%nat)
    (map (fun p : R * R => map (fun a => a * fst p + (1 - a) * snd p) [1; 3 / 4; 1 / 2; 1 / 4]) (combine (roll1 data) data))).
  { apply Forall_map, Forall_forall; intros x _; reflexivity. }
  destruct (concat_rows 4 _ W) as [L V]; rewrite map_length, combine_length, roll1_length, Nat.min_id in L.
  split; [exact L|]; intros h k Hh Hk.
  assert (A : nth_error (roll1 data) h = Some (hourly data (Z.of_nat h - 1))) by (rewrite nth_nth_error by (rewrite roll1_length; exact Hh); rewrite roll1_nth by exact Hh; reflexivity).
  assert (B : nth_error data h = Some (hourly data (Z.of_nat h))) by (rewrite nth_nth_error, hourly_nth by exact Hh; reflexivity).
  pose proof (nth_error_combine _ _ _ _ _ _ _ A B) as C.
  rewrite (V h _ k (map_nth_error _ _ _ C) Hk).
  assert (k = 0 \/ k = 1 \/ k = 2 \/ k = 3)%nat as [->|[->|[->| ->]]] by lia; cbn [map nth_error fst snd]; f_equal; simpl; field.
Qed.

Lemma interpolate_envelope data interval n r : get_n_hour interval = Ok n -> interpolate data interval = Ok r ->
  forall h k v, (h < List.length data)%nat -> (k < n)%nat -> nth_error r (h * n + k) = Some v ->
  Rmin (hourly data (Z.of_nat h - 1)) (hourly data (Z.of_nat h)) <= v <= Rmax (hourly data (Z.of_nat h - 1)) (hourly data (Z.of_nat h)).
Proof.
intros N E h k v Hh Hk V; destruct (interpolate_value _ _ _ _ N E) as [_ W]; rewrite (W h k Hh Hk) in V; injection V as <-.
set (a := hourly data (Z.of_nat h - 1)); set (b := hourly data (Z.of_nat h)).
assert (n0 : 0 < INR n) by (apply lt_0_INR; lia).
assert (K : 0 <= INR k / INR n <= 1).
{ split; [apply Rmult_le_pos; [apply pos_INR|left; apply Rinv_0_lt_compat; exact n0]|].
  apply (Rmult_le_reg_r (INR n)); [exact n0|]; unfold Rdiv; rewrite Rmult_assoc, Rinv_l, Rmult_1_r, Rmult_1_l by lra.
  apply le_INR; lia. }
set (x := INR k / INR n) in *; clearbody x a b; unfold Rmin, Rmax; destruct (Rle_dec a b); nra.
Qed.

Lemma n_hour_accepts interval : (exists n, get_n_hour interval = Ok n) <-> (interval = "1h" \/ interval = "30m" \/ interval = "15m")%string.
Proof.
split; [intros [n H]; destruct (n_hour_ok _ _ H) as [[-> _]|[[-> _]|[-> _]]]; auto|].
intros [->|[->| ->]]; eexists; reflexivity.
Qed.

Lemma interpolate_hour data interval n r : get_n_hour interval = Ok n -> interpolate data interval = Ok r ->
  forall h, (h < List.length data)%nat -> nth_error r (h * n) = Some (hourly data (Z.of_nat h - 1)).
Proof.
intros N E h Hh; destruct (interpolate_value _ _ _ _ N E) as [_ W].
assert (n0 : (0 < n)%nat) by (destruct (n_hour_ok _ _ N) as [[_ ->]|[[_ ->]|[_ ->]]]; lia).
replace (h * n)%nat with (h * n + 0)%nat by lia; rewrite (W h 0%nat Hh n0); f_equal.
change (INR 0) with 0; field; apply not_0_INR; lia.
Qed.
