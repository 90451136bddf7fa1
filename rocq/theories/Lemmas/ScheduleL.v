From Coq Require Import Reals List String ZArith Lia Lra.
From Verif Require Import Model.Py Model.Schedule Model.Residents Spec.HouseholdSpec Lemmas.PyL.
Import ListNotations.
Local Open Scope R_scope.

Lemma add_arrays_ok a b r : add_arrays a b = Ok r -> List.length a = List.length b /\ List.length r = List.length a /\
  forall t x y, nth_error a t = Some x -> nth_error b t = Some y -> nth_error r t = Some (x + y).
Proof.
unfold add_arrays; destruct (Nat.eqb_spec (List.length a) (List.length b)) as [E|]; [|discriminate].
intros [= <-]; split; [exact E|split].
- rewrite map_length, combine_length; lia.
- intros t x y Hx Hy; rewrite (map_nth_error _ _ _ (nth_error_combine _ _ a b t x y Hx Hy)); reflexivity.
Qed.

Lemma ceil_floor_ok n c f : get_ceil_floor_np n = Ok (c, f) -> (1 <= f <= 3)%nat /\ c = S f /\ INR f <= n <= INR f + 1.
Proof.
unfold get_ceil_floor_np; destruct (Rle_dec 1 n); [|discriminate].
destruct (Rlt_dec n 2); [intros [= <- <-]; simpl; repeat split; lia || lra|].
destruct (Rlt_dec n 3); [intros [= <- <-]; simpl; repeat split; lia || lra|].
destruct (Rle_dec n 4); [intros [= <- <-]; simpl; repeat split; lia || lra|discriminate].
Qed.

Lemma ceil_floor_accepts n : (exists cf, get_ceil_floor_np n = Ok cf) <-> 1 <= n <= 4.
Proof.
unfold get_ceil_floor_np; destruct (Rle_dec 1 n); [|split; [intros [? ?]; discriminate|lra]].
destruct (Rlt_dec n 2); [split; [lra|eexists; reflexivity]|].
destruct (Rlt_dec n 3); [split; [lra|eexists; reflexivity]|].
destruct (Rle_dec n 4); [split; [lra|eexists; reflexivity]|split; [intros [? ?]; discriminate|lra]].
Qed.

Lemma ceil_floor_rejects n : ~ (1 <= n <= 4) -> get_ceil_floor_np n = Err ValueError.
Proof.
unfold get_ceil_floor_np; intro H; destruct (Rle_dec 1 n); [|reflexivity].
destruct (Rlt_dec n 2); [lra|]; destruct (Rlt_dec n 3); [lra|]; destruct (Rle_dec n 4); [lra|reflexivity].
Qed.

Section Tables.
Variables (d : tables) (room type : string).

Lemma convert_ok day daily : convert_schedule d room type day = Ok daily ->
  forall m, (1 <= m <= 4)%nat -> exists l, d (size_key m) room day type = Ok l /\ daily (size_key m) = Ok l.
Proof.
unfold convert_schedule; intro H.
apply bind_ok in H; destruct H as [t1 [E1 H]]; apply bind_ok in H; destruct H as [t2 [E2 H]].
apply bind_ok in H; destruct H as [t3 [E3 H]]; apply bind_ok in H; destruct H as [t4 [E4 H]].
injection H as <-; intros m Hm.
assert (m = 1 \/ m = 2 \/ m = 3 \/ m = 4)%nat as [->|[->|[->| ->]]] by lia; simpl; eauto.
Qed.

(* one row *)
Lemma interpolated_ok day daily n r : convert_schedule d room type day = Ok daily ->
  get_interpolated_schedule n daily = Ok r ->
  exists m a b, (1 <= m <= 3)%nat /\ get_ceil_floor_np n = Ok (S m, m) /\ d (size_key m) room day type = Ok a /\
    d (size_key (S m)) room day type = Ok b /\
    List.length a = List.length r /\ List.length b = List.length r /\
    forall t x y, nth_error a t = Some x -> nth_error b t = Some y ->
      nth_error r t = Some (y * (n - INR m) + x * (INR (S m) - n)).
Proof.
intros C H; unfold get_interpolated_schedule in H.
apply bind_ok in H; destruct H as [[c f] [E H]].
destruct (ceil_floor_ok n c f E) as [Hf [-> Hn]].
destruct (convert_ok day daily C f) as [a [Ea Da]]; [lia|].
destruct (convert_ok day daily C (S f)) as [b [Eb Db]]; [lia|].
rewrite Db, Da in H; cbn [bind] in H.
apply add_arrays_ok in H; destruct H as [L1 [L2 N]]; rewrite !map_length in L1; rewrite !map_length in L2.
exists f, a, b; split; [exact Hf|split; [exact E|split; [exact Ea|split; [exact Eb|split; [lia|split; [lia|]]]]]].
intros t x y Hx Hy.
apply (N t (y * (n - INR f)) (x * (INR (S f) - n))).
- exact (map_nth_error (fun x => x * (n - INR f)) t b Hy).
- exact (map_nth_error (fun x => x * (INR (S f) - n)) t a Hx).
Qed.
End Tables.

Lemma fill_ok cal t row rows rows' : List.length cal = List.length rows -> fill cal t row rows = Ok rows' ->
  List.length row = 96%nat /\ List.length rows' = List.length rows /\
  forall k day r, nth_error cal k = Some day -> nth_error rows k = Some r ->
    nth_error rows' k = Some (if (day =? t)%string then row else r).
Proof.
unfold fill; intro L; destruct (Nat.eqb_spec (List.length row) 96) as [E|]; [|discriminate].
intros [= <-]; split; [exact E|split].
- rewrite map_length, combine_length; lia.
- intros k day r H1 H2; rewrite (map_nth_error _ _ _ (nth_error_combine _ _ cal rows k day r H1 H2)); reflexivity.
Qed.

Lemma fill_rows cal t row rows rows' : fill cal t row rows = Ok rows' -> Forall (fun r => List.length r = 96%nat) rows ->
  Forall (fun r => List.length r = 96%nat) rows'.
Proof.
unfold fill; destruct (Nat.eqb_spec (List.length row) 96) as [E|]; [|discriminate].
intros [= <-] F; apply Forall_map, Forall_forall; intros [day r] I; simpl; destruct (_ =? _)%string; [exact E|].
apply (proj1 (Forall_forall _ _) F r), (in_combine_r _ _ _ _ I).
Qed.

Lemma concat_rows (w : nat) (rows : list (list R)) : Forall (fun r => List.length r = w) rows ->
  List.length (List.concat rows) = (List.length rows * w)%nat /\
  forall k r t, nth_error rows k = Some r -> (t < w)%nat -> nth_error (List.concat rows) (k * w + t)%nat = nth_error r t.
Proof.
induction 1 as [|x rows Hx F [L N]]; simpl; [split; [reflexivity|intros [|k] r t; discriminate]|].
split; [rewrite app_length; lia|].
intros [|k] r t; simpl.
- intros [= ->] Ht; apply nth_error_app1; lia.
- intros E Ht; rewrite nth_error_app2 by lia; rewrite <- (N k r t E Ht); f_equal; lia.
Qed.

Lemma nth_error_repeat A (x : A) n k : (k < n)%nat -> nth_error (repeat x n) k = Some x.
Proof.
revert n; induction k as [|k IH]; intros [|n] H; simpl; try lia; [reflexivity|apply IH; lia].
Qed.

(* every step of the year *)
Lemma get_schedule_ok d room n cal type s : get_schedule d room n cal type = Ok s ->
  List.length cal = 365%nat /\ List.length s = (365 * 96)%nat /\
  exists m, (1 <= m <= 3)%nat /\ get_ceil_floor_np n = Ok (S m, m) /\
  forall k day t, nth_error cal k = Some day -> known_day day -> (t < 96)%nat ->
  exists a b x y, d (size_key m) room day type = Ok a /\ d (size_key (S m)) room day type = Ok b /\
    nth_error a t = Some x /\ nth_error b t = Some y /\
    nth_error s (k * 96 + t)%nat = Some (y * (n - INR m) + x * (INR (S m) - n)).
Proof.
unfold get_schedule; intro H.
apply bind_ok in H; destruct H as [dw [Cw H]]; apply bind_ok in H; destruct H as [dho [Co H]].
apply bind_ok in H; destruct H as [dhi [Ci H]].
apply bind_ok in H; destruct H as [r1 [I1 H]].
destruct (Nat.eqb_spec (List.length cal) 365) as [Lc|]; [|discriminate]; cbn [negb] in H.
apply bind_ok in H; destruct H as [rows1 [F1 H]]; apply bind_ok in H; destruct H as [r2 [I2 H]].
apply bind_ok in H; destruct H as [rows2 [F2 H]]; apply bind_ok in H; destruct H as [r3 [I3 H]].
apply bind_ok in H; destruct H as [rows3 [F3 H]]; injection H as <-.
pose (rows0 := repeat (repeat (-1) 96) 365); fold rows0 in F1.
assert (W0 : Forall (fun r => List.length r = 96%nat) rows0) by (apply Forall_forall; intros r I; apply repeat_spec in I; subst r; apply repeat_length).
assert (L0 : List.length rows0 = 365%nat) by apply repeat_length.
pose proof (fill_rows _ _ _ _ _ F1 W0) as W1; pose proof (fill_rows _ _ _ _ _ F2 W1) as W2.
pose proof (fill_rows _ _ _ _ _ F3 W2) as W3.
apply fill_ok in F1; [|congruence]; destruct F1 as [R1 [L1 N1]].
apply fill_ok in F2; [|congruence]; destruct F2 as [R2 [L2 N2]].
apply fill_ok in F3; [|congruence]; destruct F3 as [R3 [L3 N3]].
destruct (concat_rows 96 rows3 W3) as [Lx Nx].
split; [exact Lc|split; [rewrite Lx, L3, L2, L1, L0; reflexivity|]].
destruct (interpolated_ok _ _ _ _ _ _ _ Cw I1) as [m [a1 [b1 [Hm [E1 [A1 [B1 [La1 [Lb1 V1]]]]]]]]].
destruct (interpolated_ok _ _ _ _ _ _ _ Co I2) as [m2 [a2 [b2 [_ [E2 [A2 [B2 [La2 [Lb2 V2]]]]]]]]].
destruct (interpolated_ok _ _ _ _ _ _ _ Ci I3) as [m3 [a3 [b3 [_ [E3 [A3 [B3 [La3 [Lb3 V3]]]]]]]]].
rewrite E1 in E2, E3; injection E2 as <-; injection E3 as <-.
exists m; split; [exact Hm|split; [exact E1|]]; intros k day t Hk Kd Ht.
assert (K365 : (k < 365)%nat) by (rewrite <- Lc; apply nth_error_Some; congruence).
assert (HR0 : nth_error rows0 k = Some (repeat (-1) 96)) by (apply nth_error_repeat; lia).
pose proof (N3 _ _ _ Hk (N2 _ _ _ Hk (N1 _ _ _ Hk HR0))) as E.
assert (G : forall r (a b : list R), List.length r = 96%nat -> List.length a = List.length r -> List.length b = List.length r ->
  (forall t x y, nth_error a t = Some x -> nth_error b t = Some y ->
      nth_error r t = Some (y * (n - INR m) + x * (INR (S m) - n))) ->
  nth_error rows3 k = Some r ->
  exists x y, nth_error a t = Some x /\ nth_error b t = Some y /\
    nth_error (List.concat rows3) (k * 96 + t)%nat = Some (y * (n - INR m) + x * (INR (S m) - n))).
{ intros r a b Lr La Lb V Er.
  assert (Ha : nth_error a t <> None) by (apply nth_error_Some; lia).
  assert (Hb : nth_error b t <> None) by (apply nth_error_Some; lia).
  destruct (nth_error a t) as [x|] eqn:Ex; [|congruence]; destruct (nth_error b t) as [y|] eqn:Ey; [|congruence].
  exists x, y; split; [reflexivity|split; [reflexivity|]]; rewrite (Nx k r t Er Ht); apply V; auto. }
destruct Kd as [->|[->| ->]].
- destruct (G r1 a1 b1 R1 La1 Lb1 V1 E) as [x [y Q]]; exists a1, b1, x, y; tauto.
- destruct (G r2 a2 b2 R2 La2 Lb2 V2 E) as [x [y Q]]; exists a2, b2, x, y; tauto.
- destruct (G r3 a3 b3 R3 La3 Lb3 V3 E) as [x [y Q]]; exists a3, b3, x, y; tauto.
Qed.

Lemma convert_total d room type day : complete d room type -> known_day day ->
  exists daily, convert_schedule d room type day = Ok daily /\
  forall m, (1 <= m <= 4)%nat -> exists l, daily (size_key m) = Ok l /\ List.length l = 96%nat.
Proof.
intros C K; unfold convert_schedule.
destruct (C 1%nat day) as [l1 [E1 L1]]; [lia|exact K|]; destruct (C 2%nat day) as [l2 [E2 L2]]; [lia|exact K|].
destruct (C 3%nat day) as [l3 [E3 L3]]; [lia|exact K|]; destruct (C 4%nat day) as [l4 [E4 L4]]; [lia|exact K|].
simpl in E1, E2, E3, E4; rewrite E1, E2, E3, E4; simpl; eexists; split; [reflexivity|].
intros m Hm; assert (m = 1 \/ m = 2 \/ m = 3 \/ m = 4)%nat as [->|[->|[->| ->]]] by lia; simpl; eauto.
Qed.

Lemma interpolated_total n daily : 1 <= n <= 4 ->
  (forall m, (1 <= m <= 4)%nat -> exists l, daily (size_key m) = Ok l /\ List.length l = 96%nat) ->
  exists r, get_interpolated_schedule n daily = Ok r /\ List.length r = 96%nat.
Proof.
intros H D; unfold get_interpolated_schedule.
destruct (proj2 (ceil_floor_accepts n) H) as [[c f] E]; rewrite E; simpl.
destruct (ceil_floor_ok _ _ _ E) as [Hf [-> _]].
destruct (D (S f)) as [b [-> Lb]]; [lia|]; destruct (D f) as [a [-> La]]; [lia|]; simpl.
unfold add_arrays; rewrite !map_length, La, Lb; simpl; eexists; split; [reflexivity|].
rewrite map_length, combine_length, !map_length; lia.
Qed.

Lemma fill_total cal t row rows : List.length row = 96%nat -> exists rows', fill cal t row rows = Ok rows'.
Proof. intro L; unfold fill; rewrite L; simpl; eauto. Qed.

Lemma known_w : known_day weekday. Proof. left; reflexivity. Qed.
Lemma known_o : known_day holiday_out. Proof. right; left; reflexivity. Qed.
Lemma known_i : known_day holiday_in. Proof. right; right; reflexivity. Qed.

Lemma get_schedule_total d room n cal type : complete d room type -> List.length cal = 365%nat -> 1 <= n <= 4 ->
  exists s, get_schedule d room n cal type = Ok s.
Proof.
intros C L H; unfold get_schedule.
destruct (convert_total _ _ _ _ C known_w) as [dw [-> Dw]]; destruct (convert_total _ _ _ _ C known_o) as [dd [-> Dd]].
destruct (convert_total _ _ _ _ C known_i) as [di [-> Di]]; cbn [bind].
destruct (interpolated_total n dw H Dw) as [r1 [-> R1]]; destruct (interpolated_total n dd H Dd) as [r2 [-> R2]].
destruct (interpolated_total n di H Di) as [r3 [-> R3]]; cbn [bind].
rewrite L, Nat.eqb_refl; cbn [negb].
destruct (fill_total cal weekday r1 (repeat (repeat (-1) 96) 365) R1) as [w1 ->]; cbn [bind].
destruct (fill_total cal holiday_out r2 w1 R2) as [w2 ->]; cbn [bind].
destruct (fill_total cal holiday_in r3 w2 R3) as [w3 ->]; cbn [bind]; eauto.
Qed.

Lemma get_schedule_accepts d room n cal type : complete d room type -> List.length cal = 365%nat ->
  ((exists s, get_schedule d room n cal type = Ok s) <-> 1 <= n <= 4) /\
  (~ (1 <= n <= 4) -> get_schedule d room n cal type = Err ValueError).
Proof.
intros C L; split; [split|].
- intros [s H]; apply get_schedule_ok in H; destruct H as [_ [_ [m [_ [E _]]]]]; apply ceil_floor_accepts; eauto.
- apply get_schedule_total; auto.
- intro H; unfold get_schedule.
  destruct (convert_total _ _ _ _ C known_w) as [dw [-> Dw]]; destruct (convert_total _ _ _ _ C known_o) as [dd [-> Dd]].
  destruct (convert_total _ _ _ _ C known_i) as [di [-> Di]]; cbn [bind].
  unfold get_interpolated_schedule at 1; rewrite ceil_floor_rejects by exact H; reflexivity.
Qed.

(* Values *)
Lemma get_schedule_value d room n cal type s k day t : get_schedule d room n cal type = Ok s ->
  nth_error cal k = Some day -> known_day day -> (t < 96)%nat ->
  exists m a b x y v, (1 <= m <= 3)%nat /\ d (size_key m) room day type = Ok a /\ d (size_key (S m)) room day type = Ok b /\
    nth_error a t = Some x /\ nth_error b t = Some y /\ nth_error s (k * 96 + t)%nat = Some v /\ between n m x y v.
Proof.
intros H Hk Kd Ht; destruct (get_schedule_ok _ _ _ _ _ _ H) as [_ [_ [m [Hm [E V]]]]].
destruct (V k day t Hk Kd Ht) as [a [b [x [y [A [B [X [Y Z]]]]]]]].
exists m, a, b, x, y, (y * (n - INR m) + x * (INR (S m) - n)).
repeat (split; [assumption|]); unfold between; destruct (ceil_floor_ok _ _ _ E) as [_ [_ Q]].
split; [exact Q|rewrite S_INR; ring].
Qed.

Lemma entry_fun d room type day m t x y : entry d room type day m t x -> entry d room type day m t y -> x = y.
Proof. intros [l [E X]] [l' [E' Y]]; congruence. Qed.

Lemma get_schedule_entry d room n cal type s k day t : get_schedule d room n cal type = Ok s ->
  nth_error cal k = Some day -> known_day day -> (t < 96)%nat ->
  exists m x y v, (1 <= m <= 3)%nat /\ entry d room type day m t x /\ entry d room type day (S m) t y /\
   nth_error s (k * 96 + t)%nat = Some v /\ between n m x y v.
Proof.
intros H Hk Kd Ht; destruct (get_schedule_value _ _ _ _ _ _ _ _ _ H Hk Kd Ht) as [m [a [b [x [y [v Q]]]]]].
exists m, x, y, v; unfold entry; intuition eauto.
Qed.

Lemma schedule_integer d room cal type s k day t m x : get_schedule d room (INR m) cal type = Ok s ->
  nth_error cal k = Some day -> known_day day -> (t < 96)%nat -> entry d room type day m t x ->
  nth_error s (k * 96 + t)%nat = Some x.
Proof.
intros H Hk Kd Ht E; destruct (get_schedule_entry _ _ _ _ _ _ _ _ _ H Hk Kd Ht) as [p [a [b [v [Hp [Ea [Eb [Ev [B1 B2]]]]]]]]].
rewrite Ev; f_equal.
assert (p = m \/ S p = m) as [->|<-].
{ destruct B1 as [B1 B1']; apply INR_le in B1; rewrite <- S_INR in B1'; apply INR_le in B1'; lia. }
- rewrite (entry_fun _ _ _ _ _ _ _ _ E Ea), B2; ring.
- rewrite (entry_fun _ _ _ _ _ _ _ _ E Eb), B2, S_INR; ring.
Qed.

Lemma schedule_range d room n cal type s k day t lo hi v : get_schedule d room n cal type = Ok s ->
  nth_error cal k = Some day -> known_day day -> (t < 96)%nat ->
  (forall m x, (1 <= m <= 4)%nat -> entry d room type day m t x -> lo <= x <= hi) ->
  nth_error s (k * 96 + t)%nat = Some v -> lo <= v <= hi.
Proof.
intros H Hk Kd Ht B Ev; destruct (get_schedule_entry _ _ _ _ _ _ _ _ _ H Hk Kd Ht) as [p [a [b [v' [Hp [Ea [Eb [Ev' [B1 B2]]]]]]]]].
assert (v' = v) as -> by congruence.
pose proof (B p a ltac:(lia) Ea); pose proof (B (S p) b ltac:(lia) Eb); rewrite B2; nra.
Qed.

Lemma schedule_lipschitz d room n n' cal type s s' k day t L v v' : 0 <= L ->
  get_schedule d room n cal type = Ok s -> get_schedule d room n' cal type = Ok s' ->
  nth_error cal k = Some day -> known_day day -> (t < 96)%nat ->
  (forall m x y, (1 <= m <= 3)%nat -> entry d room type day m t x -> entry d room type day (S m) t y -> Rabs (y - x) <= L) ->
  nth_error s (k * 96 + t)%nat = Some v -> nth_error s' (k * 96 + t)%nat = Some v' ->
  Rabs (v' - v) <= L * Rabs (n' - n).
Proof.
intros L0 H H' Hk Kd Ht B.
assert (G : forall n n' s s' v v', n <= n' -> get_schedule d room n cal type = Ok s -> get_schedule d room n' cal type = Ok s' ->
  nth_error s (k * 96 + t)%nat = Some v -> nth_error s' (k * 96 + t)%nat = Some v' -> Rabs (v' - v) <= L * (n' - n)).
{ clear n n' s s' v v' H H'; intros n n' s s' v v' Hn H H' Ev Ev'.
  destruct (get_schedule_entry _ _ _ _ _ _ _ _ _ H Hk Kd Ht) as [p [a [b [w [Hp [Ea [Eb [Ew [P1 P2]]]]]]]]].
  destruct (get_schedule_entry _ _ _ _ _ _ _ _ _ H' Hk Kd Ht) as [q [a' [b' [w' [Hq [Ea' [Eb' [Ew' [Q1 Q2]]]]]]]]].
  assert (w = v) as -> by congruence; assert (w' = v') as -> by congruence; clear Ew Ew' Ev Ev' H H'.
  assert (M : forall x y c, 0 <= c -> Rabs (y - x) <= L -> - (L * c) <= (y - x) * c <= L * c).
  { intros x y c c0 R; assert (- L <= y - x <= L) by (split_Rabs; lra); nra. }
  assert (Z : forall x, - (L * (n' - n)) <= x <= L * (n' - n) -> Rabs x <= L * (n' - n)) by (intros x Hx; split_Rabs; lra).
  apply Z; clear Z; rewrite P2, Q2; clear P2 Q2 v v'.
  assert (Q : (q = p \/ q = S p \/ q = S (S p) \/ (S q = p /\ n = n' /\ n = INR p) \/ (S (S q) = p))%nat).
  { destruct (Nat.lt_ge_cases q p) as [J|J]; [|lia].
    assert (INR (S q) <= INR p) by (apply le_INR; lia); rewrite S_INR in *.
    assert (n = n') by lra; assert (n = INR p) by lra.
    assert (S q = p \/ S (S q) = p) as [|] by lia; [right; right; right; left; tauto|].
    right; right; right; right; assumption. }
  destruct Q as [->|[->|[->|[[<- [<- ->]]|<-]]]].
  - rewrite (entry_fun _ _ _ _ _ _ _ _ Ea' Ea), (entry_fun _ _ _ _ _ _ _ _ Eb' Eb).
    pose proof (M a b (n' - n) ltac:(lra) (B p a b Hp Ea Eb)); lra.
  - rewrite (entry_fun _ _ _ _ _ _ _ _ Ea' Eb); rewrite S_INR in *.
    pose proof (M a b (INR p + 1 - n) ltac:(lra) (B p a b Hp Ea Eb)).
    pose proof (M b b' (n' - (INR p + 1)) ltac:(lra) (B (S p) b b' Hq Eb Eb')); lra.
  - rewrite !S_INR in *; destruct (B p a b Hp Ea Eb) as [G1|G1].
    all: pose proof (M a b (INR p + 1 - n) ltac:(lra) (B p a b Hp Ea Eb)).
    all: pose proof (M a' b' (n' - (INR p + 1 + 1)) ltac:(lra) (B (S (S p)) a' b' Hq Ea' Eb')).
    all: pose proof (M b a' 1 ltac:(lra) (B (S p) b a' ltac:(lia) Eb Ea')); lra.
  - rewrite (entry_fun _ _ _ _ _ _ _ _ Eb' Ea); rewrite !S_INR in *; split; nra.
  - exfalso; rewrite !S_INR in *; lra. }
intros Ev Ev'; destruct (Rle_dec n n').
- rewrite (Rabs_right (n' - n)) by lra; eapply G; eauto.
- rewrite Rabs_minus_sym, (Rabs_minus_sym n'), (Rabs_right (n - n')) by lra; eapply (G n' n); eauto; lra.
Qed.

Lemma slot_fun d cal n_p room type n v w : slot d cal n_p room type n v -> slot d cal n_p room type n w -> v = w.
Proof. intros [s [E V]] [s' [E' W]]; congruence. Qed.

Lemma room_schedules_ok d n_p cal type rooms r i room n : room_schedules d n_p cal type rooms = Ok r ->
  nth_error rooms i = Some room -> (n < 365 * 96)%nat ->
  exists row v, nth_error r i = Some row /\ nth_error row n = Some v /\ slot d cal n_p room type n v.
Proof.
intros H Hi Hn; apply mapM_ok in H; destruct H as [_ H]; destruct (H i room Hi) as [row [E R]].
destruct (get_schedule_ok _ _ _ _ _ _ E) as [_ [L _]].
assert (V : nth_error row n <> None) by (apply nth_error_Some; rewrite L; exact Hn).
destruct (nth_error row n) as [v|] eqn:Ev; [|congruence].
exists row, v; unfold slot; eauto.
Qed.

Lemma at2_madd a b i n x y : at2 a i n x -> at2 b i n y -> at2 (madd a b) i n (x + y).
Proof.
intros [ra [Ha Xa]] [rb [Hb Xb]]; unfold madd.
pose proof (nth_error_combine _ _ _ _ _ _ _ Ha Hb) as H.
eexists; split; [exact (map_nth_error _ _ _ H)|]; cbn [fst snd].
pose proof (nth_error_combine _ _ _ _ _ _ _ Xa Xb) as H2; exact (map_nth_error (fun q => fst q + snd q) _ _ H2).
Qed.

Lemma at2_mscale k a i n x : at2 a i n x -> at2 (mscale k a) i n (x * k).
Proof.
intros [ra [Ha Xa]]; unfold mscale; eexists; split; [exact (map_nth_error _ _ _ Ha)|].
exact (map_nth_error (fun x => x * k) _ _ Xa).
Qed.

Lemma at2_mrows a ks i n x k : at2 a i n x -> nth_error ks i = Some k -> at2 (mrows a ks) i n (x * k).
Proof.
intros [ra [Ha Xa]] Hk; unfold mrows.
pose proof (nth_error_combine _ _ _ _ _ _ _ Ha Hk) as H.
eexists; split; [exact (map_nth_error _ _ _ H)|]; cbn [fst snd].
exact (map_nth_error (fun x => x * k) _ _ Xa).
Qed.

Lemma compiled_ok d cal n_p rooms a c i room area n : get_compiled_schedules d cal n_p rooms a = Ok c ->
  nth_error rooms i = Some room -> nth_error a i = Some area -> (n < 365 * 96)%nat ->
  exists app heat vapour light vent people ac,
    slot d cal n_p room "heat_generation_appliances" n app /\ slot d cal n_p room "heat_generation_cooking" n heat /\
    slot d cal n_p room "vapor_generation_cooking" n vapour /\ slot d cal n_p room "heat_generation_lighting" n light /\
    slot d cal n_p room "local_vent_amount" n vent /\ slot d cal n_p room "number_of_people" n people /\
    slot d cal n_p room "is_temp_limit_set" n ac /\
    at2 (q_gen c) i n (app + vapour + light * area) /\ at2 (x_gen c) i n (heat * (/ 1000 / 3600)) /\
    at2 (v_local c) i n (vent * / 3600) /\ at2 (n_people c) i n people /\ at2 (demand c) i n ac.
Proof.
intros H Hi Ha Hn; unfold get_compiled_schedules in H.
destruct (Nat.eqb (List.length rooms) 0); [discriminate|]; cbn zeta in H.
apply bind_ok in H; destruct H as [m1 [E1 H]]; apply bind_ok in H; destruct H as [m2 [E2 H]].
apply bind_ok in H; destruct H as [m3 [E3 H]]; apply bind_ok in H; destruct H as [m4 [E4 H]].
apply bind_ok in H; destruct H as [m5 [E5 H]]; apply bind_ok in H; destruct H as [m6 [E6 H]].
apply bind_ok in H; destruct H as [m7 [E7 H]].
destruct (negb _) in H; [discriminate|]; injection H as <-.
destruct (room_schedules_ok _ _ _ _ _ _ _ _ _ E1 Hi Hn) as [w1 [v1 [R1 [V1 S1]]]].
destruct (room_schedules_ok _ _ _ _ _ _ _ _ _ E2 Hi Hn) as [w2 [v2 [R2 [V2 S2]]]].
destruct (room_schedules_ok _ _ _ _ _ _ _ _ _ E3 Hi Hn) as [w3 [v3 [R3 [V3 S3]]]].
destruct (room_schedules_ok _ _ _ _ _ _ _ _ _ E4 Hi Hn) as [w4 [v4 [R4 [V4 S4]]]].
destruct (room_schedules_ok _ _ _ _ _ _ _ _ _ E5 Hi Hn) as [w5 [v5 [R5 [V5 S5]]]].
destruct (room_schedules_ok _ _ _ _ _ _ _ _ _ E6 Hi Hn) as [w6 [v6 [R6 [V6 S6]]]].
destruct (room_schedules_ok _ _ _ _ _ _ _ _ _ E7 Hi Hn) as [w7 [v7 [R7 [V7 S7]]]].
exists v2, v4, v3, v5, v1, v6, v7; repeat (split; [assumption|]); simpl.
split; [apply at2_madd; [apply at2_madd|apply at2_mrows; [|exact Ha]]; eexists; eauto|].
split; [apply at2_mscale; eexists; eauto|split; [apply at2_mscale; eexists; eauto|]].
split; eexists; eauto.
Qed.

Lemma at2_fun m i n v w : at2 m i n v -> at2 m i n w -> v = w.
Proof. intros [r [E V]] [r' [E' W]]; congruence. Qed.

(* A house for the counterexample: cooking gives 100 W and 10 g/h all day, everything else is nothing. *)
Definition cook_tables : tables := fun _ _ _ type =>
  Ok (repeat (if (type =? "heat_generation_cooking")%string then 100
              else if (type =? "vapor_generation_cooking")%string then 10 else 0) 96).
Definition cook_calendar : list string := repeat weekday 365.

Lemma cook_complete room type : complete cook_tables room type.
Proof. intros m day _ _; eexists; split; [reflexivity|apply repeat_length]. Qed.

Lemma cook_compiled : exists c, get_compiled_schedules cook_tables cook_calendar 1 ["main_occupant_room"%string] [20] = Ok c.
Proof.
assert (G : forall t, exists r, room_schedules cook_tables 1 cook_calendar t ["main_occupant_room"%string] = Ok r).
{ intro t; apply mapM_total; intros x _; apply get_schedule_total; [apply cook_complete|apply repeat_length|lra]. }
unfold get_compiled_schedules; cbn [List.length Nat.eqb negb].
destruct (G "local_vent_amount"%string) as [? ->]; destruct (G "heat_generation_appliances"%string) as [? ->].
destruct (G "vapor_generation_cooking"%string) as [? ->]; destruct (G "heat_generation_cooking"%string) as [? ->].
destruct (G "heat_generation_lighting"%string) as [? ->]; destruct (G "number_of_people"%string) as [? ->].
destruct (G "is_temp_limit_set"%string) as [? ->]; cbn [bind]; eauto.
Qed.

Lemma cook_slot room type n v : (n < 96)%nat -> slot cook_tables cook_calendar 1 room type n v ->
  v = (if (type =? "heat_generation_cooking")%string then 100
       else if (type =? "vapor_generation_cooking")%string then 10 else 0).
Proof.
set (w := if (type =? "heat_generation_cooking")%string then _ else _).
intros Hn [s [E V]].
assert (w <= v <= w); [|lra].
apply (schedule_range _ _ _ _ _ _ 0%nat weekday n w w v E); auto using known_w.
intros m x _ [l [El X]].
assert (W : l = repeat w 96) by (unfold cook_tables in El; fold w in El; congruence).
rewrite W, (nth_error_repeat R w 96 n Hn) in X; assert (x = w) by congruence; lra.
Qed.

Lemma cook_refuted : exists c, get_compiled_schedules cook_tables cook_calendar 1 ["main_occupant_room"%string] [20] = Ok c /\
  forall app heat light v,
  slot cook_tables cook_calendar 1 "main_occupant_room" "heat_generation_appliances" 0 app ->
  slot cook_tables cook_calendar 1 "main_occupant_room" "heat_generation_cooking" 0 heat ->
  slot cook_tables cook_calendar 1 "main_occupant_room" "heat_generation_lighting" 0 light ->
  at2 (q_gen c) 0 0 v -> v <> app + heat + light * 20.
Proof.
destruct cook_compiled as [c E]; exists c; split; [exact E|].
intros app heat light v S1 S2 S3 V.
assert (L : (0 < 365 * 96)%nat) by (apply Nat.mul_pos_pos; lia).
destruct (compiled_ok _ _ _ _ _ _ 0%nat "main_occupant_room" 20 0%nat E eq_refl eq_refl L)
  as [app' [heat' [vap' [light' [_ [_ [_ [T1 [T2 [T3 [T4 [_ [_ [_ [Q _]]]]]]]]]]]]]]].
pose proof (at2_fun _ _ _ _ _ V Q); subst v.
apply cook_slot in S1, S2, S3, T1, T2, T3, T4; try lia; simpl in *; subst; lra.
Qed.

(* Residents *)
Lemma residents_range a : 1 <= get_total_number_of_residents a <= 4.
Proof.
unfold get_total_number_of_residents; destruct (Rlt_dec a 30); [lra|]; destruct (Rlt_dec a 120); lra.
Qed.

Lemma residents_lipschitz a a' : a <= a' ->
  0 <= get_total_number_of_residents a' - get_total_number_of_residents a <= (a' - a) / 30.
Proof.
intro H; unfold get_total_number_of_residents.
destruct (Rlt_dec a 30), (Rlt_dec a 120), (Rlt_dec a' 30), (Rlt_dec a' 120); lra.
Qed.
