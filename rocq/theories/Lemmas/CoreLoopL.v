From Coq Require Import ZArith List Lia.
From Verif Require Import Model.Py Model.CoreLoop Spec.Run.
Import ListNotations.
Open Scope Z_scope.

Lemma range_nil a b : b <= a -> range a b = [].
Proof. intros H; unfold range; replace (Z.to_nat (b - a)) with O by lia; reflexivity. Qed.

Lemma range_cons a b : a < b -> range a b = a :: range (a + 1) b.
Proof.
intros H; unfold range; replace (Z.to_nat (b - a)) with (S (Z.to_nat (b - (a + 1)))) by lia.
cbn [seq map]; f_equal; [lia|].
rewrite <- seq_shift, map_map; apply map_ext; intros k; lia.
Qed.

Lemma length_range a b : length (range a b) = Z.to_nat (b - a).
Proof. unfold range; rewrite map_length, seq_length; reflexivity. Qed.

Lemma nth_range a b k : (k < Z.to_nat (b - a))%nat -> nth_error (range a b) k = Some (a + Z.of_nat k).
Proof.
intros H; unfold range; rewrite nth_error_map, nth_error_nth' with (d := O) by (rewrite seq_length; exact H).
rewrite seq_nth by exact H; reflexivity.
Qed.

Lemma in_range a b n : In n (range a b) <-> a <= n < b.
Proof.
unfold range; rewrite in_map_iff; split.
  intros [k [<- Hk]]; apply in_seq in Hk; lia.
intros H; exists (Z.to_nat (n - a)); split; [lia|]; apply in_seq; lia.
Qed.

(* iterating over a range = a function on Z *)
Lemma foldM_range {A} (f : A -> Z -> res A) a b x y :
  a <= b -> foldM f (range a b) x = Ok y ->
  exists s : Z -> A, s a = x /\ s b = y /\ forall n, a <= n < b -> f (s n) n = Ok (s (n + 1)).
Proof.
intros Hab; remember (Z.to_nat (b - a)) as k eqn:Ek; revert a x Hab Ek.
induction k as [|k IH]; intros a x Hab Ek.
  replace a with b by lia; rewrite range_nil by lia; cbn; intros H; injection H as <-.
  exists (fun _ => x); repeat split; intros; lia.
rewrite range_cons by lia; cbn.
destruct (f x a) as [x1|e] eqn:E; cbn; [|discriminate]; intros H.
destruct (IH (a + 1) x1 ltac:(lia) ltac:(lia) H) as [s [s1 [s2 s3]]].
exists (fun n => if n =? a then x else s n); repeat split.
- rewrite Z.eqb_refl; reflexivity.
- destruct (Z.eqb_spec b a); [lia|exact s2].
- intros n Hn; destruct (Z.eqb_spec (n + 1) a); [lia|]; destruct (Z.eqb_spec n a) as [->|ne].
    rewrite s1; exact E.
  apply s3; lia.
Qed.

Lemma foldM_range_intro {A} (f : A -> Z -> res A) (s : Z -> A) a b :
  a <= b -> (forall n, a <= n < b -> f (s n) n = Ok (s (n + 1))) -> foldM f (range a b) (s a) = Ok (s b).
Proof.
intros Hab; remember (Z.to_nat (b - a)) as k eqn:Ek; revert a Hab Ek.
induction k as [|k IH]; intros a Hab Ek H.
  replace a with b by lia; rewrite range_nil by lia; reflexivity.
rewrite range_cons by lia; cbn; rewrite H by lia; cbn; apply IH; try lia; intros; apply H; lia.
Qed.

Lemma length_set_nth {A} (l : list A) k a : length (set_nth l k a) = length l.
Proof. revert k; induction l as [|x l IH]; intros [|k]; cbn; auto. Qed.

Lemma nth_set_nth {A} (l : list A) k a j : (k < length l)%nat ->
  nth_error (set_nth l k a) j = if Nat.eqb j k then Some a else nth_error l j.
Proof.
revert k j; induction l as [|x l IH]; intros [|k] [|j] H; cbn in *; try lia; auto.
apply IH; lia.
Qed.

Lemma py_set_ok {A} (l : list A) n a : 0 <= n < Z.of_nat (length l) ->
  py_set l n a = Ok (set_nth l (Z.to_nat n) a).
Proof.
intros H; unfold py_set, py_index.
destruct (Z.leb_spec 0 n); [|lia]; destruct (Z.ltb_spec n (Z.of_nat (length l))); [|lia]; reflexivity.
Qed.

Lemma foldM_total {A B} (Inv : A -> Prop) (f : A -> B -> res A) xs a :
  Inv a -> (forall a x, In x xs -> Inv a -> exists a', f a x = Ok a' /\ Inv a') ->
  exists a', foldM f xs a = Ok a' /\ Inv a'.
Proof.
revert a; induction xs as [|x xs IH]; intros a Ia H; cbn; [exists a; auto|].
destruct (H a x (or_introl eq_refl) Ia) as [a' [-> Ia']]; cbn.
apply IH; [exact Ia'|]; intros b y Hy; apply H; right; exact Hy.
Qed.

Section Loop.
Variables PP G C O : Type.
Variable make : Z -> res PP.
Variable init_ground : PP -> G.
Variable ground_tick : PP -> Z -> G -> res G.
Variable init : PP -> C.
Variable hand_over : PP -> C -> G -> C.
Variable tick : PP -> Z -> C -> res (C * O).

Lemma log_loop_inv pp n_main k c0 log c' log' :
  0 <= k <= n_main -> length log = Z.to_nat n_main ->
  foldM (fun '(c, log) n => bind (tick pp n c) (fun '(c', o) =>
           bind (py_set log n (Some o)) (fun log' => Ok (c', log')))) (range k n_main) (c0, log)
    = Ok (c', log') ->
  exists c : Z -> C, c k = c0 /\ c n_main = c' /\ length log' = length log /\
    (forall j, (j < Z.to_nat k)%nat -> nth_error log' j = nth_error log j) /\
    forall n, k <= n < n_main -> exists x,
      tick pp n (c n) = Ok (c (n + 1), x) /\ nth_error log' (Z.to_nat n) = Some (Some x).
Proof.
intros Hk; remember (Z.to_nat (n_main - k)) as d eqn:Ed; revert k c0 log Hk Ed.
induction d as [|d IH]; intros k c0 log Hk Ed Hl.
  replace k with n_main by lia; rewrite range_nil by lia; cbn; intros H; injection H as <- <-.
  exists (fun _ => c0); repeat split; intros; lia.
rewrite range_cons by lia; cbn.
destruct (tick pp k c0) as [[c1 x]|] eqn:E; cbn; [|discriminate].
rewrite py_set_ok by lia; cbn; intros H.
destruct (IH (k + 1) c1 (set_nth log (Z.to_nat k) (Some x)) ltac:(lia) ltac:(lia)
            ltac:(rewrite length_set_nth; exact Hl) H) as [c [e1 [e2 [e3 [e4 e5]]]]].
exists (fun n => if n =? k then c0 else c n); repeat split.
- rewrite Z.eqb_refl; reflexivity.
- destruct (Z.eqb_spec n_main k); [lia|exact e2].
- rewrite e3; apply length_set_nth.
- intros j Hj; rewrite e4 by lia; rewrite nth_set_nth by lia.
  destruct (Nat.eqb_spec j (Z.to_nat k)); [lia|reflexivity].
- intros n Hn; destruct (Z.eqb_spec (n + 1) k); [lia|]; destruct (Z.eqb_spec n k) as [->|ne].
    exists x; rewrite e1; split; [exact E|].
    rewrite e4 by lia; rewrite nth_set_nth, Nat.eqb_refl by lia; reflexivity.
  apply e5; lia.
Qed.

Section Fixed.
Variables hourly d_main d_run_up d_build : Z.
Hypothesis h0 : 0 < hourly.
Hypothesis m0 : 0 <= d_main.
Hypothesis b0 : 0 <= d_build.
Hypothesis bu : d_build <= d_run_up.
Let n_main := d_main * hourly * 24.
Let n_run_up := d_run_up * hourly * 24.
Let n_build := d_build * hourly * 24.

Lemma n_main_ge0 : 0 <= n_main. Proof. unfold n_main; nia. Qed.
Lemma n_build_ge0 : 0 <= n_build. Proof. unfold n_build; nia. Qed.
Lemma n_build_le : n_build <= n_run_up. Proof. unfold n_build, n_run_up; nia. Qed.

Local Notation calc := (calc PP G C O make init_ground ground_tick init hand_over tick).

Lemma calc_run cf log : calc hourly d_main d_run_up d_build = Ok (cf, log) ->
  exists pp g c o, make hourly = Ok pp /\
    run (ground_tick pp) (tick pp) (init_ground pp) (hand_over pp (init pp)) n_main n_run_up n_build g c o
    /\ cf = c n_main /\ logged n_main o log.
Proof.
unfold CoreLoop.calc, get_n_step.
destruct (Z.ltb_spec d_run_up d_build); [lia|]; cbn [bind].
fold n_main n_run_up n_build.
destruct (Z.eqb_spec hourly 0); [lia|].
destruct (make hourly) as [pp|]; cbn [bind]; [|discriminate].
destruct (foldM _ (range (- n_run_up) (- n_build)) _) as [gf|] eqn:E1; cbn [bind]; [|discriminate].
pose proof n_main_ge0; pose proof n_build_ge0; pose proof n_build_le.
destruct (Z.ltb_spec n_main 0); [lia|].
destruct (foldM _ (range (- n_build) 0) _) as [c1|] eqn:E2; cbn [bind]; [|discriminate].
intros E3.
apply foldM_range in E1; [|lia]; destruct E1 as [g [g1 [g2 g3]]].
apply foldM_range in E2; [|lia]; destruct E2 as [c [c2 [c3 c4]]].
apply log_loop_inv in E3; [|lia|apply repeat_length].
destruct E3 as [cm [e1 [e2 [e3 [_ e5]]]]].
set (cc := fun n => if n <? 0 then c n else cm n).
set (ox := fun n => match tick pp n (cc n) with Ok (_, x) => Some x | Err _ => None end).
assert (Hcc : forall n, - n_build <= n < n_main -> exists x, tick pp n (cc n) = Ok (cc (n + 1), x)).
{ intros m Hm; unfold cc; destruct (Z.ltb_spec m 0).
  - specialize (c4 m ltac:(lia)); cbn in c4.
    destruct (tick pp m (c m)) as [[c' x]|]; cbn in c4; [|discriminate].
    injection c4 as ->; exists x; do 2 f_equal.
    destruct (Z.ltb_spec (m + 1) 0); [reflexivity|]; replace (m + 1) with 0 by lia.
    rewrite e1, c3; reflexivity.
  - destruct (Z.ltb_spec (m + 1) 0); [lia|].
    destruct (e5 m ltac:(lia)) as [x [Hx _]]; exists x; exact Hx. }
exists pp, g, cc, ox; split; [reflexivity|]; split; [|split; [|split]].
- constructor.
  + exact g1.
  + exact g3.
  + unfold cc; destruct (Z.ltb_spec (- n_build) 0).
      rewrite c2, g2; reflexivity.
    replace (- n_build) with 0 in * by lia; rewrite e1, <- c3, c2, g2; reflexivity.
  + intros m Hm; unfold ox; destruct (Hcc m Hm) as [x Hx]; exists x; rewrite Hx; split; reflexivity.
- unfold cc; destruct (Z.ltb_spec n_main 0); [lia|]; symmetry; exact e2.
- rewrite e3; apply repeat_length.
- intros m Hm; destruct (e5 m Hm) as [x [Hx Hl]]; rewrite Hl; unfold ox, cc.
  destruct (Z.ltb_spec m 0); [lia|]; rewrite Hx; reflexivity.
Qed.

(* conversely a run that never fails is what calc computes *)
Lemma run_calc pp g c o : make hourly = Ok pp ->
  run (ground_tick pp) (tick pp) (init_ground pp) (hand_over pp (init pp)) n_main n_run_up n_build g c o ->
  exists log, calc hourly d_main d_run_up d_build = Ok (c n_main, log) /\ logged n_main o log.
Proof.
intros Hm [r1 r2 r3 r4]; unfold CoreLoop.calc, get_n_step.
destruct (Z.ltb_spec d_run_up d_build); [lia|]; cbn [bind].
fold n_main n_run_up n_build.
destruct (Z.eqb_spec hourly 0); [lia|]; rewrite Hm; cbn [bind].
pose proof n_main_ge0; pose proof n_build_ge0; pose proof n_build_le.
rewrite <- r1, (foldM_range_intro (fun g m => ground_tick pp m g) g) by (auto; lia); cbn [bind].
destruct (Z.ltb_spec n_main 0); [lia|].
rewrite <- r3, (foldM_range_intro _ c); cbn [bind]; [|lia|].
2:{ intros m Hn; destruct (r4 m ltac:(lia)) as [x [-> _]]; reflexivity. }
assert (Hloop : forall d k l, 0 <= k <= n_main -> d = Z.to_nat (n_main - k) -> length l = Z.to_nat n_main ->
  (forall m, 0 <= m < k -> nth_error l (Z.to_nat m) = Some (o m)) ->
  exists log, foldM (fun '(c, log) m => bind (tick pp m c) (fun '(c', o) =>
           bind (py_set log m (Some o)) (fun log' => Ok (c', log')))) (range k n_main) (c k, l)
    = Ok (c n_main, log) /\ logged n_main o log).
{ induction d as [|d IH]; intros k l Hk Ed Hl Hn.
    replace k with n_main in * by lia; rewrite range_nil by lia; exists l; repeat split; assumption.
  rewrite range_cons by lia; cbn; destruct (r4 k ltac:(lia)) as [x [Hx Ho]]; rewrite Hx; cbn.
  rewrite py_set_ok by lia; cbn; apply IH; try lia; [rewrite length_set_nth; exact Hl|].
  intros m Hn'; rewrite nth_set_nth by lia; destruct (Nat.eqb_spec (Z.to_nat m) (Z.to_nat k)).
    replace m with k by lia; rewrite Ho; reflexivity.
  apply Hn; lia. }
apply (Hloop _ 0 _ ltac:(lia) eq_refl (repeat_length _ _)); intros; lia.
Qed.

(* a loop whose body keeps an invariant and never fails *)
Lemma calc_total pp (Inv : C -> Prop) : make hourly = Ok pp ->
  (forall n g, - n_run_up <= n < - n_build -> exists g', ground_tick pp n g = Ok g') ->
  (forall g, Inv (hand_over pp (init pp) g)) ->
  (forall n c, - n_build <= n < n_main -> Inv c -> exists c' o, tick pp n c = Ok (c', o) /\ Inv c') ->
  exists cf log, calc hourly d_main d_run_up d_build = Ok (cf, log) /\ Inv cf.
Proof.
intros Hm Hg Hi Ht; unfold CoreLoop.calc, get_n_step.
destruct (Z.ltb_spec d_run_up d_build); [lia|]; cbn [bind].
fold n_main n_run_up n_build.
destruct (Z.eqb_spec hourly 0); [lia|]; rewrite Hm; cbn [bind].
pose proof n_main_ge0; pose proof n_build_ge0; pose proof n_build_le.
destruct (foldM_total (fun _ => True) (fun g n => ground_tick pp n g) (range (- n_run_up) (- n_build)) (init_ground pp) I)
  as [g [-> _]].
  intros g m Hm' _; apply in_range in Hm'; destruct (Hg m g Hm') as [g' E]; exists g'; auto.
cbn [bind]; destruct (Z.ltb_spec n_main 0); [lia|].
destruct (foldM_total Inv (fun c n => bind (tick pp n c) (fun '(c', _) => Ok c')) (range (- n_build) 0)
  (hand_over pp (init pp) g) (Hi g)) as [c [-> Ic]].
  intros c m Hm' Ic; apply in_range in Hm'; destruct (Ht m c ltac:(lia) Ic) as [c' [o [-> Ic']]].
  exists c'; auto.
cbn [bind].
destruct (foldM_total (fun r => Inv (fst r) /\ length (snd r) = Z.to_nat n_main)
  (fun '(c, log) n => bind (tick pp n c) (fun '(c', o) =>
           bind (py_set log n (Some o)) (fun log' => Ok (c', log')))) (range 0 n_main)
  (c, repeat None (Z.to_nat n_main)) (conj Ic (repeat_length _ _))) as [[cf log] [-> [If _]]].
  intros [c1 l] m Hm' [I1 L1]; apply in_range in Hm'; cbn [fst snd] in *.
  destruct (Ht m c1 ltac:(lia) I1) as [c' [o [-> Ic']]]; cbn [bind].
  rewrite py_set_ok by lia; cbn [bind]; eexists; split; [reflexivity|]; cbn [fst snd]; split; [exact Ic'|].
  rewrite length_set_nth; exact L1.
exists cf, log; auto.
Qed.
End Fixed.
End Loop.

Lemma range_last a b : a <= b -> range a b ++ [b] = range a (b + 1).
Proof.
intros H; remember (Z.to_nat (b - a)) as k eqn:E; revert a H E; induction k as [|k IH]; intros a H E.
  replace b with a by lia; rewrite (range_cons a (a + 1)), !range_nil by lia; reflexivity.
rewrite (range_cons a b), (range_cons a (b + 1)) by lia; cbn; f_equal; apply IH; lia.
Qed.

Lemma range_app a b c : a <= b <= c -> range a b ++ range b c = range a c.
Proof.
intros H; remember (Z.to_nat (b - a)) as k eqn:E; revert a H E; induction k as [|k IH]; intros a H E.
  replace b with a by lia; rewrite (range_nil a a) by lia; reflexivity.
rewrite (range_cons a b), (range_cons a c) by lia; cbn; f_equal; apply IH; lia.
Qed.

Lemma nth_error_ext {A} (l l' : list A) :
  length l = length l' -> (forall k, (k < length l)%nat -> nth_error l k = nth_error l' k) -> l = l'.
Proof.
revert l'; induction l as [|x l IH]; intros [|y l'] Hl H; cbn in *; try lia; auto.
f_equal; [specialize (H O ltac:(lia)); cbn in H; congruence|].
apply IH; [lia|]; intros k Hk; exact (H (S k) ltac:(lia)).
Qed.

(* the order of the steps, seen by steps that only record their number *)
Lemma visits_order hourly d_main d_run_up d_build :
  0 < hourly -> 0 <= d_main -> 0 <= d_build -> d_build <= d_run_up ->
  visits hourly d_main d_run_up d_build
  = Ok (range (- (d_run_up * hourly * 24)) (- (d_build * hourly * 24)),
        range (- (d_build * hourly * 24)) (d_main * hourly * 24),
        map Some (range 0 (d_main * hourly * 24))).
Proof.
intros h0 m0 b0 bu; unfold visits.
pose (g := fun n => range (- (d_run_up * hourly * 24)) n).
pose (c := fun n => (g (- (d_build * hourly * 24)), range (- (d_build * hourly * 24)) n)).
destruct (run_calc unit (list Z) (list Z * list Z) Z (fun _ => Ok tt)
          (fun _ => []) (fun _ n g => Ok (g ++ [n]))
          (fun _ => ([], [])) (fun _ c g => (g, snd c))
          (fun _ n c => Ok ((fst c, snd c ++ [n]), n)) hourly d_main d_run_up d_build h0 m0 b0 bu
          tt g c (fun n => Some n) eq_refl) as [log [E [L1 L2]]].
{ constructor; unfold c, g; cbn.
  - apply range_nil; lia.
  - intros n Hn; rewrite range_last by lia; reflexivity.
  - rewrite (range_nil (- (d_build * hourly * 24))) by lia; reflexivity.
  - intros n Hn; exists n; rewrite range_last by lia; split; reflexivity. }
rewrite E; cbn; do 2 f_equal.
apply nth_error_ext; [rewrite map_length, length_range, L1, Z.sub_0_r; reflexivity|].
intros k Hk; rewrite L1 in Hk; rewrite nth_error_map, nth_range by lia; cbn.
rewrite <- (Nat2Z.id k) at 1; rewrite L2 by lia; reflexivity.
Qed.

(* inputs for which no step is run at all *)
Lemma visits_short hourly d_main d_run_up d_build : d_run_up < d_build ->
  visits hourly d_main d_run_up d_build = Err ValueError.
Proof.
intros H; unfold visits, CoreLoop.calc, get_n_step.
destruct (Z.ltb_spec d_run_up d_build); [reflexivity|lia].
Qed.

Lemma visits_zero d_main d_run_up d_build : d_build <= d_run_up ->
  visits 0 d_main d_run_up d_build = Err ZeroDivisionError.
Proof.
intros H; unfold visits, CoreLoop.calc, get_n_step.
destruct (Z.ltb_spec d_run_up d_build); [lia|reflexivity].
Qed.

Lemma foldM_record l acc : foldM (fun t n => Ok (t ++ [n])) l acc = Ok (acc ++ l : list Z).
Proof.
revert acc; induction l as [|x l IH]; intros acc; cbn; [rewrite app_nil_r; reflexivity|].
rewrite IH, <- app_assoc; reflexivity.
Qed.

Lemma visits_negative_main hourly d_main d_run_up d_build : 0 < hourly -> d_main < 0 -> d_build <= d_run_up ->
  visits hourly d_main d_run_up d_build = Err ValueError.
Proof.
intros h0 m0 H; unfold visits, CoreLoop.calc, get_n_step.
destruct (Z.ltb_spec d_run_up d_build); [lia|]; cbn [bind].
destruct (Z.eqb_spec hourly 0); [lia|]; cbn [bind].
rewrite foldM_record; cbn [bind].
destruct (Z.ltb_spec (d_main * hourly * 24) 0); [reflexivity|nia].
Qed.

(* a negative length of the building run-up is accepted and the ground steps run into the main period *)
Lemma visits_negative_build : exists g b log,
  visits 1 1 0 (-1) = Ok (g, b, log) /\ In 0 g /\ In 0 b.
Proof. vm_compute; do 3 eexists; split; [reflexivity|]; cbn; auto. Qed.

(* a negative number of steps per hour is accepted *)
Lemma visits_negative_hourly : exists g b log, visits (-1) (-1) 0 0 = Ok (g, b, log) /\ In 0 b.
Proof. vm_compute; do 3 eexists; split; [reflexivity|]; cbn; auto. Qed.
