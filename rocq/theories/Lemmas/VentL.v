(* Lemmas about the matrix of air paths (Model/Initializer.v). *)
From Coq Require Import Reals List String ZArith Lra Lia Bool.
From Verif Require Import Model.Py Model.HouseDict Model.Initializer Spec.HouseSpec Lemmas.PyL.
Import ListNotations.
Local Open Scope R_scope.

Lemma mapM_forall2 A B (f : A -> res B) l ys : mapM f l = Ok ys -> Forall2 (fun x y => f x = Ok y) l ys.
Proof.
revert ys; induction l as [|a l IH]; simpl; intros ys H; [injection H as <-; constructor|].
apply bind_ok in H; destruct H as [y [E H]]; apply bind_ok in H; destruct H as [zs [E2 H]]; injection H as <-; constructor; auto.
Qed.

Lemma py_index_nat len n k : py_index (Z.of_nat len) n = Ok k -> (k < len)%nat /\ (n = Z.of_nat k \/ n = Z.of_nat k - Z.of_nat len)%Z.
Proof.
unfold py_index; destruct (_ && _) eqn:A.
- apply andb_prop in A; destruct A as [A B]; apply Z.leb_le in A; apply Z.ltb_lt in B; intros [= <-]; split; [lia|left; lia].
- destruct ((- _ <=? _)%Z && _) eqn:C; [|discriminate].
  apply andb_prop in C; destruct C as [C D]; apply Z.leb_le in C; apply Z.ltb_lt in D; intros [= <-]; split; [lia|right; lia].
Qed.

Lemma py_index_in len n : (0 <= n < Z.of_nat len)%Z -> py_index (Z.of_nat len) n = Ok (Z.to_nat n).
Proof. intros [A B]; unfold py_index; apply Z.leb_le in A; apply Z.ltb_lt in B; rewrite A, B; reflexivity. Qed.

Lemma py_index_out len n : (n < - Z.of_nat len \/ Z.of_nat len <= n)%Z -> py_index (Z.of_nat len) n = Err IndexError.
Proof.
intro H; unfold py_index; destruct (_ && _) eqn:A.
- apply andb_prop in A; destruct A as [A B]; apply Z.leb_le in A; apply Z.ltb_lt in B; lia.
- destruct ((- _ <=? _)%Z && _) eqn:C; [|reflexivity].
  apply andb_prop in C; destruct C as [C D]; apply Z.leb_le in C; apply Z.ltb_lt in D; lia.
Qed.

Lemma set_nth_length A (l : list A) k a : List.length (set_nth l k a) = List.length l.
Proof. revert k; induction l as [|x l IH]; intros [|k]; simpl; auto. Qed.

Lemma nth_set_nth (l : list R) k a j d : (k < List.length l)%nat -> nth j (set_nth l k a) d = if Nat.eqb j k then a else nth j l d.
Proof.
revert k j; induction l as [|x l IH]; intros k j L; simpl in L; [lia|].
destruct k, j; simpl; auto; rewrite IH by lia; reflexivity.
Qed.

Lemma total_set_nth l k a : (k < List.length l)%nat -> total (set_nth l k a) = total l - nth k l 0 + a.
Proof.
revert k; induction l as [|x l IH]; intros [|k] L; simpl in *; try lia; [lra|].
unfold total in *; simpl; rewrite IH by lia; lra.
Qed.

Lemma add_path_ok row p row' : add_path row p = Ok row' ->
  exists k, py_index (Z.of_nat (List.length row)) (fst p) = Ok k /\ (k < List.length row)%nat /\ row' = set_nth row k (nth k row 0 + snd p / 3600).
Proof.
unfold add_path, py_get, py_set; intro H; apply bind_ok in H; destruct H as [x [G H]]; apply bind_ok in G; destruct G as [k [K G]].
rewrite K in H; simpl in H; injection H as <-; destruct (py_index_nat _ _ _ K) as [L _].
exists k; split; [exact K|split; [exact L|]]; rewrite (nth_error_nth' row 0 L) in G; injection G as <-; reflexivity.
Qed.

Lemma add_path_total row p : (0 <= fst p < Z.of_nat (List.length row))%Z -> exists row', add_path row p = Ok row'.
Proof.
intro H; unfold add_path, py_get, py_set; rewrite (py_index_in _ _ H); simpl.
rewrite (nth_error_nth' row 0) by lia; simpl; eauto.
Qed.

Lemma add_path_out row p : (fst p < - Z.of_nat (List.length row) \/ Z.of_nat (List.length row) <= fst p)%Z -> add_path row p = Err IndexError.
Proof. intro H; unfold add_path, py_get; rewrite (py_index_out _ _ H); reflexivity. Qed.

Lemma add_path_length row p row' : add_path row p = Ok row' -> List.length row' = List.length row.
Proof. intro H; destruct (add_path_ok _ _ _ H) as [k [_ [_ ->]]]; apply set_nth_length. Qed.

Lemma volume_from_cons k p l : volume_from k (p :: l) = (if (fst p =? k)%Z then snd p else 0) + volume_from k l.
Proof. unfold volume_from; simpl; destruct (fst p =? k)%Z; unfold total; simpl; lra. Qed.

Lemma paths_entries paths : forall row row', (forall p, In p paths -> (0 <= fst p)%Z) -> foldM add_path paths row = Ok row' ->
  List.length row' = List.length row /\
  forall k, (k < List.length row)%nat -> nth k row' 0 = nth k row 0 + volume_from (Z.of_nat k) paths / 3600.
Proof.
induction paths as [|p l IH]; intros row row' Pos H; simpl in H.
- injection H as <-; split; [reflexivity|intros; unfold volume_from; simpl; lra].
- apply bind_ok in H; destruct H as [r1 [A H]]; destruct (add_path_ok _ _ _ A) as [k [K [L ->]]].
  destruct (IH _ _ (fun q I => Pos q (or_intror I)) H) as [Le En]; rewrite set_nth_length in *; split; [exact Le|].
  intros j J; rewrite En by exact J; rewrite nth_set_nth by exact L; rewrite volume_from_cons.
  assert (P := Pos p (or_introl eq_refl)); destruct (py_index_nat _ _ _ K) as [_ [X|X]]; [|lia].
  rewrite X; destruct (Nat.eqb_spec j k) as [->|N].
  + rewrite Z.eqb_refl; lra.
  + destruct (Z.eqb_spec (Z.of_nat k) (Z.of_nat j)); [lia|]; lra.
Qed.

Lemma paths_total paths : forall row row', foldM add_path paths row = Ok row' -> total row' = total row + total (map snd paths) / 3600.
Proof.
induction paths as [|p l IH]; intros row row' H; simpl in H; [injection H as <-; unfold total; simpl; lra|].
apply bind_ok in H; destruct H as [r1 [A H]]; destruct (add_path_ok _ _ _ A) as [k [K [L ->]]].
rewrite (IH _ _ H), total_set_nth by exact L; unfold total; simpl; lra.
Qed.

Lemma paths_ok paths : forall row, (forall p, In p paths -> (0 <= fst p < Z.of_nat (List.length row))%Z) -> exists row', foldM add_path paths row = Ok row'.
Proof.
induction paths as [|p l IH]; intros row H; simpl; [eauto|].
destruct (add_path_total row p (H p (or_introl eq_refl))) as [r1 E]; rewrite E; simpl; apply IH.
intros q I; rewrite (add_path_length _ _ _ E); apply H; right; exact I.
Qed.

Lemma paths_err paths : forall row e, foldM add_path paths row = Err e -> e = IndexError.
Proof.
induction paths as [|p l IH]; intros row e H; simpl in H; [discriminate|].
destruct (add_path row p) as [r|e'] eqn:E; simpl in H; [exact (IH _ _ H)|].
injection H as <-; unfold add_path, py_get, py_set in E.
destruct (py_index _ _) as [k|e2] eqn:K; simpl in E.
- destruct (nth_error row k); simpl in E; congruence.
- unfold py_index in K; destruct (_ && _); [discriminate|]; destruct (_ && _); congruence.
Qed.

Lemma paths_out paths p : forall row, In p paths -> (fst p < - Z.of_nat (List.length row) \/ Z.of_nat (List.length row) <= fst p)%Z ->
  foldM add_path paths row = Err IndexError.
Proof.
induction paths as [|q l IH]; intros row I H; simpl in *; [contradiction|].
destruct I as [->|I]; [rewrite (add_path_out _ _ H); reflexivity|].
destruct (add_path row q) as [r|e] eqn:E; simpl.
- apply IH; auto; rewrite (add_path_length _ _ _ E); exact H.
- assert (X : foldM add_path [q] row = Err e) by (simpl; rewrite E; reflexivity); rewrite (paths_err _ _ _ X); reflexivity.
Qed.

Lemma total_zeros n : total (repeat 0 n) = 0.
Proof. induction n; unfold total in *; simpl; lra. Qed.

Lemma nth_zeros n k : nth k (repeat 0 n) 0 = 0.
Proof. revert k; induction n; intros [|k]; simpl; auto. Qed.

Lemma vent_entries nv n m : (forall paths p, In paths nv -> In p paths -> (0 <= fst p)%Z) -> get_v_int_vent_is nv n = Ok m ->
  List.length m = List.length nv /\
  forall i paths row, nth_error nv i = Some paths -> nth_error m i = Some row ->
  List.length row = n /\ forall k, (k < n)%nat -> nth k row 0 = volume_from (Z.of_nat k) paths / 3600.
Proof.
intros Pos H; destruct (mapM_ok _ _ _ _ _ H) as [L N]; split; [exact L|].
intros i paths row P Rw; destruct (N i paths P) as [row' [E Q]]; rewrite Rw in Q; injection Q as <-.
destruct (paths_entries paths _ _ (fun p I => Pos paths p (nth_error_In _ _ P) I) E) as [Le En]; rewrite repeat_length in *.
split; [exact Le|]; intros k K; rewrite En by exact K; rewrite nth_zeros; lra.
Qed.

Lemma vent_total nv n m : get_v_int_vent_is nv n = Ok m -> total (map total m) = total (map (fun paths => total (map snd paths)) nv) / 3600.
Proof.
intro H; apply mapM_forall2 in H; induction H as [|paths row nv m E F IH]; unfold total at 1 3; simpl; [lra|].
fold (total (map total m)); fold (total (map (fun paths => total (map snd paths)) nv)); rewrite IH, (paths_total _ _ _ E), total_zeros; lra.
Qed.

Lemma vent_completes nv n : (forall paths p, In paths nv -> In p paths -> (0 <= fst p < Z.of_nat n)%Z) -> exists m, get_v_int_vent_is nv n = Ok m.
Proof.
intro H; apply mapM_total; intros paths I; apply paths_ok; intros p J; rewrite repeat_length; exact (H paths p I J).
Qed.

Lemma vent_rejects nv n paths p : In paths nv -> In p paths -> (fst p < - Z.of_nat n \/ Z.of_nat n <= fst p)%Z ->
  get_v_int_vent_is nv n = Err IndexError.
Proof.
intros I J H; unfold get_v_int_vent_is.
destruct (mapM (fun ps => foldM add_path ps (repeat 0 n)) nv) as [m|e] eqn:E.
- apply In_nth_error in I; destruct I as [i I]; destruct (mapM_ok _ _ _ _ _ E) as [_ N]; destruct (N i paths I) as [row [X _]].
  rewrite (paths_out paths p) in X; [discriminate|exact J|rewrite repeat_length; exact H].
- destruct (mapM_err _ _ _ _ _ E) as [ps [_ X]]; rewrite (paths_err _ _ _ X); reflexivity.
Qed.

Lemma vent_negative : get_v_int_vent_is [[]; [((-2)%Z, 3600)]] 2 = Ok [[0; 0]; [1; 0]].
Proof.
unfold get_v_int_vent_is; cbn -[Rplus Rdiv]; unfold add_path, py_get, py_set; cbn -[Rplus Rdiv]; do 4 f_equal; lra.
Qed.
