(* Gaussian elimination: a function that meets the specification of np.linalg.inv. *)
From Coq Require Import Reals List Lra Lia.
From Verif Require Import Model.Py Spec.WallResponse Lemmas.PyL.
Import ListNotations.
Local Open Scope R_scope.

(* rows with their right-hand sides; the first row with a non-zero head is taken out *)
Fixpoint pivot (m : list (list R * R)) : option (R * list R * R * list (list R * R)) :=
  match m with
  | [] => None
  | ([], _) :: _ => None
  | (a :: r, b) :: rest =>
      if Req_EM_T a 0 then
        match pivot rest with
        | None => None
        | Some (p, rest') => Some (p, (a :: r, b) :: rest')
        end
      else Some (a, r, b, rest)
  end.

Definition eliminate (a : R) (r : list R) (b : R) (p : list R * R) : list R * R :=
  match p with
  | (h :: t, c) => (map (fun q => fst q - h / a * snd q) (combine t r), c - h / a * b)
  | ([], c) => ([], c)
  end.

Fixpoint solve (n : nat) (m : list (list R * R)) : option (list R) :=
  match n with
  | O => Some []
  | S n =>
      match pivot m with
      | None => None
      | Some (a, r, b, rest) =>
          match solve n (map (eliminate a r b) rest) with
          | None => None
          | Some y => Some ((b - scalar r y) / a :: y)
          end
      end
  end.

Definition unit_vector (n j : nat) : list R := map (fun i => if Nat.eq_dec i j then 1 else 0) (seq 0 n).

(* column by column *)
Definition gauss (m : list (list R)) : res (list (list R)) :=
  let n := length m in
  bind (mapM (fun j => of_option LinAlgError (solve n (combine m (unit_vector n j)))) (seq 0 n)) (fun cols =>
  Ok (map (fun i => map (fun c => nth i c 0) cols) (seq 0 n))).

Lemma pivot_some n m a r b rest : (forall p, In p m -> length (fst p) = S n) -> pivot m = Some (a, r, b, rest) ->
  a <> 0 /\ length m = S (length rest) /\ (forall p, In p m <-> p = (a :: r, b) \/ In p rest).
Proof.
revert rest; induction m as [|[row c] m IH]; intros rest L E; [discriminate|].
destruct row as [|h t]; [discriminate|]; simpl in E.
destruct (Req_EM_T h 0) as [Z|Z].
- destruct (pivot m) as [[p rest']|] eqn:P; [|discriminate]; injection E as -> <-.
  destruct (IH rest') as [A [B C]]; [intros q I; apply L; right; auto|reflexivity|].
  split; [exact A|split; [simpl; lia|]]; intro p; simpl; rewrite C; tauto.
- injection E as <- <- <- <-; split; [exact Z|split; [reflexivity|]]; intro p; simpl; split; intros [H|H]; auto.
Qed.

Lemma pivot_none n m : (forall p, In p m -> length (fst p) = S n) -> pivot m = None -> forall p, In p m -> exists t, fst p = 0 :: t.
Proof.
induction m as [|[row c] m IH]; intros L E p I; [destruct I|].
destruct row as [|h t]; [specialize (L ([], c) (or_introl eq_refl)); discriminate|]; simpl in E.
destruct (Req_EM_T h 0) as [Z|Z]; [|discriminate].
destruct (pivot m) as [[q rest']|]; [discriminate|].
destruct I as [<-|I]; [exists t; simpl; rewrite Z; reflexivity|].
apply IH; auto; intros q J; apply L; right; auto.
Qed.

Lemma scalar_cons x a y b : scalar (x :: a) (y :: b) = x * y + scalar a b.
Proof. reflexivity. Qed.

Lemma scalar_repeat_0 r n : scalar r (repeat 0 n) = 0.
Proof. revert n; induction r as [|x r IH]; intros [|n]; simpl; try reflexivity; rewrite scalar_cons, IH; ring. Qed.

Lemma scalar_elim n t r k y : length t = n -> length r = n -> length y = n ->
  scalar (map (fun q => fst q - k * snd q) (combine t r)) y = scalar t y - k * scalar r y.
Proof.
revert n r y; induction t as [|x t IH]; intros [|n] [|z r] [|w y] Lt Lr Ly; simpl in *; try discriminate; [unfold scalar; simpl; ring|].
rewrite !scalar_cons, (IH n) by lia; ring.
Qed.

Lemma solve_ok n : forall m, length m = n -> (forall p, In p m -> length (fst p) = n) ->
  (forall v, length v = n -> (forall p, In p m -> scalar (fst p) v = 0) -> v = repeat 0 n) ->
  exists x, solve n m = Some x /\ length x = n /\ forall p, In p m -> scalar (fst p) x = snd p.
Proof.
induction n as [|n IH]; intros m Lm Lr K.
{ exists []; split; [reflexivity|split; [reflexivity|]]; destruct m; [intros p []|discriminate]. }
simpl; destruct (pivot m) as [[[[a r] b] rest]|] eqn:P.
2:{ exfalso; assert (Z := pivot_none n m Lr P).
    assert (V : 1 :: repeat 0 n = repeat 0 (S n)).
    { apply K; [simpl; rewrite repeat_length; reflexivity|]; intros p I; destruct (Z p I) as [t ->]; rewrite scalar_cons, scalar_repeat_0; ring. }
    simpl in V; injection V; lra. }
destruct (pivot_some n m a r b rest Lr P) as [A [Lrest In_]].
assert (Lr0 : length r = n) by (assert (X := Lr (a :: r, b) (proj2 (In_ _) (or_introl eq_refl))); simpl in X; lia).
assert (Row : forall p, In p rest -> exists h t, fst p = h :: t /\ length t = n).
{ intros p I; assert (X := Lr p (proj2 (In_ p) (or_intror I))); destruct (fst p) as [|h t]; [discriminate|]; exists h, t; split; [reflexivity|simpl in X; lia]. }
assert (El : forall p h t, In p rest -> fst p = h :: t -> eliminate a r b p = (map (fun q => fst q - h / a * snd q) (combine t r), snd p - h / a * b)).
{ intros [row c] h t I E; simpl in E; rewrite E; reflexivity. }
destruct (IH (map (eliminate a r b) rest)) as [y [Sy [Ly Hy]]].
- rewrite map_length; lia.
- intros p I; apply in_map_iff in I; destruct I as [q [<- I]]; destruct (Row q I) as [h [t [E L]]].
  rewrite (El q h t I E); simpl; rewrite map_length, combine_length; lia.
- intros v Lv Hv; assert (X : - scalar r v / a :: v = repeat 0 (S n)).
  { apply K; [simpl; lia|]; intros p I; apply In_ in I; destruct I as [->|I].
    - simpl fst; rewrite scalar_cons; field; exact A.
    - destruct (Row p I) as [h [t [E L]]]; rewrite E, scalar_cons.
      assert (Y := Hv (eliminate a r b p) (in_map _ _ _ I)); rewrite (El p h t I E) in Y; simpl in Y.
      rewrite (scalar_elim n) in Y by auto; replace (scalar t v) with (h / a * scalar r v) by lra; field; exact A. }
  simpl in X; injection X; auto.
- rewrite Sy; eexists; split; [reflexivity|split; [simpl; lia|]].
  intros p I; apply In_ in I; destruct I as [->|I].
  + simpl fst; simpl snd; rewrite scalar_cons; field; exact A.
  + destruct (Row p I) as [h [t [E L]]]; rewrite E, scalar_cons.
    assert (Y := Hy (eliminate a r b p) (in_map _ _ _ I)); rewrite (El p h t I E) in Y; simpl in Y.
    rewrite (scalar_elim n) in Y by auto; replace (scalar t y) with (snd p - h / a * b + h / a * scalar r y) by lra; field; exact A.
Qed.

Lemma map_fst_combine A B (a : list A) (b : list B) : length a = length b -> map fst (combine a b) = a.
Proof. revert b; induction a as [|x a IH]; intros [|y b] L; simpl in *; try discriminate; auto; f_equal; apply IH; lia. Qed.

Lemma nth_unit n j i : (i < n)%nat -> nth i (unit_vector n j) 0 = if Nat.eq_dec i j then 1 else 0.
Proof.
intro H; unfold unit_vector; set (f := fun i => if Nat.eq_dec i j then 1 else 0).
rewrite nth_indep with (d' := f 0%nat) by (rewrite map_length, seq_length; exact H); rewrite map_nth, seq_nth by exact H; reflexivity.
Qed.

(* row . (sum of v_j col_j) *)
Lemma scalar_columns row n cols v : length row = n -> length v = length cols -> (forall c, In c cols -> length c = n) ->
  scalar row (map (fun i => scalar (map (fun c => nth i c 0) cols) v) (seq 0 n)) = scalar (map (scalar row) cols) v.
Proof.
intro Lr; revert v; induction cols as [|c cols IH]; intros [|x v] Lv Lc; simpl in *; try discriminate.
- replace (map (fun i => scalar [] []) (seq 0 n)) with (repeat 0 n); [rewrite scalar_repeat_0; reflexivity|].
  generalize 0%nat; clear; induction n; intro k; simpl; [reflexivity|f_equal; apply IHn].
- rewrite scalar_cons, <- IH by (auto; lia).
  assert (Lcn : length c = n) by (apply Lc; auto).
  assert (G : forall k row c' f, length row = length c' -> (forall i, (i < length c')%nat -> nth i c' 0 = nth (k + i) c 0) ->
     scalar row (map (fun i => nth i c 0 * x + f i) (seq k (length row))) = scalar row c' * x + scalar row (map f (seq k (length row)))).
  { clear; intros k row; revert k; induction row as [|a row IH]; intros k [|y c'] f L H; simpl in *; try discriminate; [unfold scalar; simpl; ring|].
    rewrite !scalar_cons, (IH (S k) c') by (try lia; intros i Hi; replace (S k + i)%nat with (k + S i)%nat by lia; apply (H (S i)); lia).
    assert (E := H 0%nat); simpl in E; rewrite Nat.add_0_r in E; rewrite <- E by lia; ring. }
  rewrite <- Lr; rewrite <- (G 0%nat row c (fun i => scalar (map (fun c0 => nth i c0 0) cols) v)) by (try lia; auto).
  reflexivity.
Qed.

Lemma apply_nth m v i : (i < length m)%nat -> nth i (apply m v) 0 = scalar (nth i m []) v.
Proof. intro H; unfold apply; rewrite nth_indep with (d' := scalar [] v) by (rewrite map_length; exact H); apply (map_nth (fun r => scalar r v)). Qed.

Lemma scalar_unit n i v : length v = n -> (i < n)%nat -> scalar (map (fun j => if Nat.eq_dec i j then 1 else 0) (seq 0 n)) v = nth i v 0.
Proof.
assert (G : forall n k i v, length v = n -> (i < n)%nat -> scalar (map (fun j => if Nat.eq_dec (k + i) j then 1 else 0) (seq k n)) v = nth i v 0).
{ clear; induction n as [|n IH]; intros k i [|x v] L H; simpl in *; try lia.
  rewrite scalar_cons; destruct i as [|i].
  - destruct (Nat.eq_dec (k + 0) k) as [_|]; [|lia].
    assert (Z : forall m k' w, (k + 0 < k')%nat -> scalar (map (fun j => if Nat.eq_dec (k + 0) j then 1 else 0) (seq k' m)) w = 0).
    { induction m as [|m IHm]; intros k' w Hk; [reflexivity|]; simpl; destruct w; [reflexivity|]; rewrite scalar_cons.
      destruct (Nat.eq_dec (k + 0) k'); [lia|rewrite IHm by lia; ring]. }
    rewrite Z by lia; ring.
  - destruct (Nat.eq_dec (k + S i) k); [lia|].
    assert (X := IH (S k) i v ltac:(lia) ltac:(lia)); replace (S k + i)%nat with (k + S i)%nat in X by lia; rewrite X; ring. }
intros L H; exact (G n 0%nat i v L H).
Qed.

Theorem gauss_inverts : inverts gauss.
Proof.
intros n m [Lm Lr] K; unfold gauss; rewrite Lm.
assert (Sol : forall j, exists x, solve n (combine m (unit_vector n j)) = Some x /\ length x = n /\ apply m x = unit_vector n j).
{ intro j; assert (Lu : length (unit_vector n j) = n) by (unfold unit_vector; rewrite map_length, seq_length; reflexivity).
  destruct (solve_ok n (combine m (unit_vector n j))) as [x [E [Lx H]]].
  - rewrite combine_length; lia.
  - intros [r b] I; apply Lr; exact (in_combine_l _ _ _ _ I).
  - intros v Lv H; apply K; [exact Lv|].
    apply (nth_ext _ _ 0 0); [unfold apply; rewrite map_length, repeat_length; exact Lm|].
    intros i Hi; unfold apply in Hi; rewrite map_length in Hi; rewrite apply_nth, nth_repeat by exact Hi.
    apply (H (nth i m [], nth i (unit_vector n j) 0)); rewrite <- combine_nth by lia; apply nth_In; rewrite combine_length; lia.
  - exists x; split; [exact E|split; [exact Lx|]].
    apply (nth_ext _ _ 0 0); [unfold apply; rewrite map_length; lia|].
    intros i Hi; unfold apply in Hi; rewrite map_length in Hi; rewrite apply_nth by exact Hi.
    apply (H (nth i m [], nth i (unit_vector n j) 0)); rewrite <- combine_nth by lia; apply nth_In; rewrite combine_length; lia. }
destruct (mapM_total _ _ (fun j => of_option LinAlgError (solve n (combine m (unit_vector n j)))) (seq 0 n)) as [cols E].
{ intros j _; destruct (Sol j) as [x [-> _]]; simpl; eauto. }
rewrite E; simpl bind; eexists; split; [reflexivity|].
destruct (mapM_ok _ _ _ _ _ E) as [Lc Hc]; rewrite seq_length in Lc.
assert (Col : forall j, (j < n)%nat -> length (nth j cols []) = n /\ apply m (nth j cols []) = unit_vector n j).
{ intros j Hj; destruct (Hc j j) as [y [Ey Ny]]; [rewrite (nth_error_nth' _ 0%nat) by (rewrite seq_length; exact Hj); rewrite seq_nth by exact Hj; reflexivity|].
  destruct (Sol j) as [x [Ex [Lx Ax]]]; rewrite Ex in Ey; simpl in Ey; injection Ey as <-.
  rewrite (nth_error_nth _ _ [] Ny); auto. }
assert (Lcol : forall c, In c cols -> length c = n).
{ intros c I; destruct (In_nth _ _ [] I) as [j [Hj <-]]; apply Col; lia. }
split.
- split; [rewrite map_length, seq_length; reflexivity|].
  intros r I; apply in_map_iff in I; destruct I as [i [<- _]]; rewrite map_length; exact Lc.
- intros v Lv; apply (nth_ext _ _ 0 0); [unfold apply; rewrite map_length; lia|].
  intros i Hi; unfold apply at 1 in Hi; rewrite map_length in Hi; rewrite apply_nth by exact Hi.
  unfold apply; rewrite map_map, scalar_columns by (try (apply Lr, nth_In; exact Hi); try lia; auto).
  rewrite <- (scalar_unit n i v) by lia; f_equal.
  apply (nth_ext _ _ 0 0); [rewrite !map_length, seq_length; exact Lc|].
  intros j Hj; rewrite map_length in Hj.
  rewrite nth_indep with (d' := scalar (nth i m []) []) by (rewrite map_length; exact Hj); rewrite map_nth, <- apply_nth by exact Hi.
  rewrite (proj2 (Col j ltac:(lia))), nth_unit by lia.
  set (f := fun j => if Nat.eq_dec i j then 1 else 0).
  rewrite nth_indep with (d' := f 0%nat) by (rewrite map_length, seq_length; lia); rewrite map_nth, seq_nth by lia; reflexivity.
Qed.
