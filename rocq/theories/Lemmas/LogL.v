(* The detailed frame and the digest *)
From Coq Require Import Reals ZArith List String Ascii Bool DecimalString DecimalNat Lia Lra.
From Verif Require Import Model.Py Model.OperationMode Model.RoundNum Model.Log Spec.LogSpec Lemmas.PyL Lemmas.RoundNumL Lemmas.EesInitL.
Import ListNotations.
Local Open Scope R_scope.

(* names *)
Definition digit (c : ascii) : Prop := c <> "_"%char.
Fixpoint digits (s : string) : Prop := match s with EmptyString => True | String c r => digit c /\ digits r end.

Lemma uint_digits d : digits (NilEmpty.string_of_uint d).
Proof. induction d; simpl; try exact I; (split; [intro H; discriminate H|assumption]). Qed.
Lemma str_digits i : digits (str i).
Proof. apply uint_digits. Qed.
Lemma str_inj i k : str i = str k -> i = k.
Proof.
intro H; apply (f_equal NilEmpty.uint_of_string) in H; unfold str in H; rewrite !NilEmpty.usu in H.
injection H as H; apply Unsigned.to_uint_inj, H.
Qed.

Lemma digits_split a b r s : digits a -> digits b -> (a ++ String "_" r = b ++ String "_" s)%string -> a = b /\ r = s.
Proof.
revert b; induction a as [|c a IH]; intros [|c' b] A B H; simpl in H.
- injection H as H; split; [reflexivity|exact H].
- injection H as H _; destruct B as [B _]; contradiction B; symmetry; exact H.
- injection H as H _; destruct A as [A _]; contradiction A.
- injection H as -> H; destruct (IH b (proj2 A) (proj2 B) H) as [-> ->]; split; reflexivity.
Qed.

Lemma room_name i k r s : ("rm" ++ str i ++ String "_" r = "rm" ++ str k ++ String "_" s)%string -> i = k /\ r = s.
Proof.
simpl; intro H; injection H as H; destruct (digits_split _ _ _ _ (str_digits i) (str_digits k) H) as [E ->]; split; [apply str_inj, E|reflexivity].
Qed.
Lemma bdry_name i k r s : ("b" ++ str i ++ String "_" r = "b" ++ str k ++ String "_" s)%string -> i = k /\ r = s.
Proof.
simpl; intro H; injection H as H; destruct (digits_split _ _ _ _ (str_digits i) (str_digits k) H) as [E ->]; split; [apply str_inj, E|reflexivity].
Qed.

Lemma append_assoc a b c : ((a ++ b) ++ c = a ++ b ++ c)%string.
Proof. induction a as [|x a IH]; simpl; [reflexivity|rewrite IH; reflexivity]. Qed.

Lemma nodup_concat_map A B (f : A -> list B) l : NoDup l -> (forall i, In i l -> NoDup (f i)) ->
  (forall i k x, In i l -> In k l -> In x (f i) -> In x (f k) -> i = k) -> NoDup (List.concat (map f l)).
Proof.
induction l as [|a l IH]; intros N F D; [constructor|]; apply NoDup_cons_iff in N; destruct N as [NA N]; simpl.
assert (K : forall (x y : list B), NoDup x -> NoDup y -> (forall z, In z x -> ~ In z y) -> NoDup (x ++ y)).
{ clear; intros x y X Y D; induction X as [|z x Z X IH]; [exact Y|]; simpl; constructor.
  - intro I; apply in_app_or in I; destruct I as [I|I]; [exact (Z I)|exact (D z (or_introl eq_refl) I)].
  - apply IH; intros w W; apply D; right; exact W. }
apply K.
- apply F; left; reflexivity.
- apply IH; [exact N|intros i I; apply F; right; exact I|intros i k x I J; apply D; right; assumption].
- intros z Z I; apply in_concat in I; destruct I as (y & Y & Z'); apply in_map_iff in Y; destruct Y as (k & <- & KI).
  assert (a = k) by (apply (D a k z); [left; reflexivity|right; exact KI|exact Z|exact Z']); subst; contradiction.
Qed.

Lemma nodup_app A (x y : list A) : NoDup x -> NoDup y -> (forall z, In z x -> ~ In z y) -> NoDup (x ++ y).
Proof.
intros X Y D; induction X as [|z x Z X IH]; [exact Y|]; simpl; constructor.
- intro I; apply in_app_or in I; destruct I as [I|I]; [exact (Z I)|exact (D z (or_introl eq_refl) I)].
- apply IH; intros w W; apply D; right; exact W.
Qed.

(* columns *)
Lemma cut_ok A n (l : list A) : (n <= List.length l)%nat -> cut n l = Ok (firstn n l).
Proof. intro L; unfold cut; rewrite firstn_length_le by exact L; rewrite Nat.eqb_refl; reflexivity. Qed.
Lemma cut_inv A n (l : list A) x : cut n l = Ok x -> x = firstn n l /\ (n <= List.length l)%nat.
Proof.
unfold cut; destruct (Nat.eqb_spec (List.length (firstn n l)) n) as [E|_]; [|discriminate]; intro H; injection H as <-.
split; [reflexivity|]; rewrite firstn_length in E; lia.
Qed.
Lemma num_ok n key l : (n <= List.length l)%nat -> num n key l = Ok (key, Num (firstn n l)).
Proof. intro L; unfold num; rewrite (cut_ok _ n l L); reflexivity. Qed.
Lemma num_inv n key l c : num n key l = Ok c -> c = (key, Num (firstn n l)) /\ (n <= List.length l)%nat.
Proof.
unfold num; intro H; apply bind_ok in H; destruct H as (x & E & H); apply cut_inv in E; destruct E as [-> L]; injection H as <-.
split; [reflexivity|exact L].
Qed.

Definition series (n : nat) (pre : string) (kv : string * list R) : string * column := ((pre ++ fst kv)%string, Num (firstn n (snd kv))).

Lemma nums_ok n pre tab : (forall k l, In (k, l) tab -> (n <= List.length l)%nat) ->
  mapM (fun kv => num n (pre ++ fst kv)%string (snd kv)) tab = Ok (map (series n pre) tab).
Proof.
induction tab as [|(k, l) tab IH]; intro H; [reflexivity|]; cbn [mapM map]; rewrite num_ok by (apply (H k); left; reflexivity); cbn [bind].
rewrite IH by (intros k' l' I; apply (H k'); right; exact I); reflexivity.
Qed.
Lemma nums_inv n pre tab cs : mapM (fun kv => num n (pre ++ fst kv)%string (snd kv)) tab = Ok cs ->
  cs = map (series n pre) tab /\ forall k l, In (k, l) tab -> (n <= List.length l)%nat.
Proof.
revert cs; induction tab as [|(k, l) tab IH]; intros cs H; cbn [mapM] in H.
- injection H as <-; split; [reflexivity|intros k l []].
- apply bind_ok in H; destruct H as (c & E & H); apply num_inv in E; destruct E as [-> L].
  apply bind_ok in H; destruct H as (cs' & E & H); injection H as <-; destruct (IH _ E) as [-> K].
  split; [reflexivity|intros k' l' [I|I]; [injection I as _ <-; exact L|exact (K k' l' I)]].
Qed.

Definition rm (i : nat) : string := ("rm" ++ str i)%string.
Definition room_cols (n i : nat) (r : room_log) : list (string * column) :=
  (rm i ++ "_ac_operate", Modes (firstn n (lg_operation_mode r)))%string ::
  map (series n (rm i)) (room_quantities r) ++ [(rm i ++ "_remarks", Text (firstn n (lg_space_remarks r)))%string].

Lemma room_columns_inv n i r cs : room_columns n i r = Ok cs -> cs = room_cols n i r /\
  (n <= List.length (lg_operation_mode r))%nat /\ (n <= List.length (lg_space_remarks r))%nat /\
  (forall k l, In (k, l) (room_quantities r) -> (n <= List.length l)%nat).
Proof.
unfold room_columns; intro H; apply bind_ok in H; destruct H as (c0 & E0 & H); apply bind_ok in H; destruct H as (cs' & E & H).
apply bind_ok in H; destruct H as (c1 & E1 & H).
apply bind_ok in E0; destruct E0 as (x & E0 & X); apply cut_inv in E0; destruct E0 as [-> L0].
apply bind_ok in E1; destruct E1 as (y & E1 & Y); apply cut_inv in E1; destruct E1 as [-> L1].
apply (nums_inv n ("rm" ++ str i) (room_quantities r)) in E; destruct E as [-> L].
injection X as <-; injection Y as <-; injection H as <-.
split; [reflexivity|exact (conj L0 (conj L1 L))].
Qed.
Lemma room_columns_ok n i r : (n <= List.length (lg_operation_mode r))%nat -> (n <= List.length (lg_space_remarks r))%nat ->
  (forall k l, In (k, l) (room_quantities r) -> (n <= List.length l)%nat) -> room_columns n i r = Ok (room_cols n i r).
Proof.
intros L0 L1 L; unfold room_columns; rewrite (cut_ok _ _ _ L0); cbn [bind].
match goal with |- bind ?m _ = _ => assert (E : m = Ok (map (series n (rm i)) (room_quantities r))) by exact (nums_ok n (rm i) (room_quantities r) L) end.
rewrite E; cbn [bind]; rewrite (cut_ok _ _ _ L1); reflexivity.
Qed.

(* boundaries *)
Definition bdry_tab : list (string * (bdry_log -> list R)) :=
  [("_t_s", bl_theta_s); ("_t_e", bl_theta_ei); ("_t_b", bl_theta_rear); ("_hir_s", bl_h_r_s); ("_qir_s", bl_qr);
   ("_hic_s", bl_h_c_s); ("_qic_s", bl_qc); ("_qisol_s", bl_qisol_s); ("_qiall_s", bl_qiall_s)]%string.

Definition bname (i j : nat) (suffix : string) : string := ("rm" ++ str i ++ "_" ++ "b" ++ str j ++ suffix)%string.
Definition loop_cols (n i : nat) (kv : string * (bdry_log -> list R)) (bs : list bdry_log) : list (string * column) :=
  map (fun jb => (bname i (fst jb) (fst kv), Num (firstn n (snd kv (snd jb))))) (enumerate bs).
Definition bdry_cols (n i : nat) (bs : list bdry_log) : list (string * column) := List.concat (map (fun kv => loop_cols n i kv bs) bdry_tab).

Lemma mapM_map_inv A B (f : A -> res B) (g : A -> B) (P : A -> Prop) l r : (forall x y, f x = Ok y -> y = g x /\ P x) ->
  mapM f l = Ok r -> r = map g l /\ forall x, In x l -> P x.
Proof.
intro H; revert r; induction l as [|x l IH]; intros r E; cbn [mapM] in E.
- injection E as <-; split; [reflexivity|intros x []].
- apply bind_ok in E; destruct E as (y & Y & E); apply bind_ok in E; destruct E as (ys & YS & E); injection E as <-.
  destruct (H _ _ Y) as [-> PX]; destruct (IH _ YS) as [-> K]; split; [reflexivity|intros z [<- |Z]; [exact PX|exact (K z Z)]].
Qed.
Lemma mapM_map_ok A B (f : A -> res B) (g : A -> B) l : (forall x, In x l -> f x = Ok (g x)) -> mapM f l = Ok (map g l).
Proof.
induction l as [|x l IH]; intro H; [reflexivity|]; cbn [mapM map]; rewrite (H x (or_introl eq_refl)); cbn [bind].
rewrite IH by (intros y Y; apply H; right; exact Y); reflexivity.
Qed.

Lemma bdry_columns_inv n i bs cs : bdry_columns n i bs = Ok cs -> cs = bdry_cols n i bs /\
  forall b kv, In b bs -> In kv bdry_tab -> (n <= List.length (snd kv b))%nat.
Proof.
unfold bdry_columns; intro H; apply bind_ok in H; destruct H as (xs & E & H); injection H as <-.
apply (mapM_map_inv _ _ _ (fun kv => loop_cols n i kv bs) (fun kv => forall jb, In jb (enumerate bs) -> (n <= List.length (snd kv (snd jb)))%nat)) in E.
- destruct E as [-> K]; split; [reflexivity|intros b kv B KV].
  apply In_nth_error in B; destruct B as (j & B); apply (K kv KV (j, b)); unfold enumerate.
  apply (nth_error_In _ j); apply nth_error_combine; [|exact B].
  assert (L : (j < List.length bs)%nat) by (apply nth_error_Some; rewrite B; discriminate).
  rewrite (nth_error_nth' _ 0%nat) by (rewrite seq_length; exact L); rewrite seq_nth by exact L; reflexivity.
- intros kv cs; unfold bdry_loop; intro E'.
  apply (mapM_map_inv _ _ _ (fun jb => (bname i (fst jb) (fst kv), Num (firstn n (snd kv (snd jb))))) (fun jb => (n <= List.length (snd kv (snd jb)))%nat)) in E'; [exact E'|].
  intros jb y Y; apply num_inv in Y; exact Y.
Qed.
Lemma enumerate_in A (l : list A) j b : In (j, b) (enumerate l) <-> nth_error l j = Some b.
Proof.
unfold enumerate; split.
- intro I; apply In_nth_error in I; destruct I as (k & K).
  assert (L : (k < List.length l)%nat).
  { assert (Q : (k < List.length (combine (seq 0 (List.length l)) l))%nat) by (apply nth_error_Some; rewrite K; discriminate).
    rewrite combine_length, seq_length in Q; lia. }
  assert (S : nth_error (seq 0 (List.length l)) k = Some k).
  { rewrite (nth_error_nth' _ 0%nat) by (rewrite seq_length; exact L); rewrite seq_nth by exact L; reflexivity. }
  destruct (nth_error l k) as [c|] eqn:E; [|apply nth_error_None in E; lia].
  rewrite (nth_error_combine _ _ _ _ _ _ _ S E) in K; injection K as <- <-; exact E.
- intro B; apply (nth_error_In _ j); apply nth_error_combine; [|exact B].
  assert (L : (j < List.length l)%nat) by (apply nth_error_Some; rewrite B; discriminate).
  rewrite (nth_error_nth' _ 0%nat) by (rewrite seq_length; exact L); rewrite seq_nth by exact L; reflexivity.
Qed.
Lemma bdry_columns_ok n i bs : (forall b kv, In b bs -> In kv bdry_tab -> (n <= List.length (snd kv b))%nat) ->
  bdry_columns n i bs = Ok (bdry_cols n i bs).
Proof.
intro H; unfold bdry_columns.
match goal with |- bind ?m _ = _ => assert (E : m = Ok (map (fun kv => loop_cols n i kv bs) bdry_tab)) end.
{ apply mapM_map_ok; intros kv KV; unfold bdry_loop; apply mapM_map_ok; intros (j, b) I; apply num_ok, H; [|exact KV].
  apply enumerate_in in I; apply nth_error_In in I; exact I. }
rewrite E; reflexivity.
Qed.

(* the boundaries of a room *)
Definition bounds (i : nat) (b : bdry_log) : bool := match nth_error (bl_p b) i with Some x => is_one x | None => false end.
Lemma selected_inv i bs ss : selected i bs = Ok ss -> ss = filter (bounds i) bs.
Proof.
unfold selected; intro H; apply bind_ok in H; destruct H as (ps & E & H); injection H as <-.
revert ps E; induction bs as [|b bs IH]; intros ps E; cbn [mapM] in E.
- injection E as <-; reflexivity.
- apply bind_ok in E; destruct E as (p & P & E); apply bind_ok in E; destruct E as (ps' & PS & E); injection E as <-.
  destruct (nth_error (bl_p b) i) as [x|] eqn:X; [|discriminate].
  assert (B : bounds i b = is_one x) by (unfold bounds; rewrite X; reflexivity).
  injection P as <-; cbn [combine filter fst]; rewrite B; destruct (is_one x); cbn [map snd]; rewrite (IH _ PS); reflexivity.
Qed.
Lemma selected_ok i bs : (forall b, In b bs -> (i < List.length (bl_p b))%nat) -> exists ss, selected i bs = Ok ss.
Proof.
intro H; unfold selected; destruct (mapM_total _ _ (fun b => of_option IndexError (nth_error (bl_p b) i)) bs) as (ps & E).
- intros b B; destruct (nth_error (bl_p b) i) as [x|] eqn:X; [exists x; reflexivity|apply nth_error_None in X; specialize (H b B); lia].
- rewrite E; eexists; reflexivity.
Qed.

Definition block (n : nat) (lg : logger) (ir : nat * room_log) : list (string * column) :=
  room_cols n (fst ir) (snd ir) ++ bdry_cols n (fst ir) (filter (bounds (fst ir)) (lg_bdries lg)).
Definition frame (n : nat) (lg : logger) : list (string * column) :=
  ("out_temp"%string, Num (firstn n (lg_theta_o lg))) :: ("out_abs_humid"%string, Num (firstn n (lg_x_o lg))) ::
  List.concat (map (block n lg) (enumerate (lg_rooms lg))).

Lemma detail_inv lg n dd : detail lg n = Ok dd -> dd = frame n lg /\
  (n <= List.length (lg_theta_o lg))%nat /\ (n <= List.length (lg_x_o lg))%nat /\
  (forall i r, nth_error (lg_rooms lg) i = Some r -> (n <= List.length (lg_operation_mode r))%nat /\
     forall k l, In (k, l) (room_quantities r) -> (n <= List.length l)%nat).
Proof.
unfold detail; intro H; apply bind_ok in H; destruct H as (c0 & E0 & H); apply bind_ok in H; destruct H as (c1 & E1 & H).
apply bind_ok in H; destruct H as (cs & E & H); injection H as <-.
apply num_inv in E0; destruct E0 as [-> L0]; apply num_inv in E1; destruct E1 as [-> L1].
apply (mapM_map_inv _ _ _ (block n lg) (fun ir => (n <= List.length (lg_operation_mode (snd ir)))%nat /\
     forall k l, In (k, l) (room_quantities (snd ir)) -> (n <= List.length l)%nat)) in E.
- destruct E as [-> K]; split; [reflexivity|split; [exact L0|split; [exact L1|]]].
  intros i r I; apply (K (i, r)), enumerate_in, I.
- intros ir y Y; apply bind_ok in Y; destruct Y as (rc & R1 & Y); apply bind_ok in Y; destruct Y as (ss & S & Y).
  apply bind_ok in Y; destruct Y as (bc & B & Y); injection Y as <-.
  apply room_columns_inv in R1; destruct R1 as (-> & A1 & _ & A2); apply selected_inv in S; subst ss; apply bdry_columns_inv in B; destruct B as [-> _].
  split; [reflexivity|split; assumption].
Qed.

Lemma detail_ok lg n : covers n lg -> detail lg n = Ok (frame n lg).
Proof.
intros (A & B & C & D); unfold detail; rewrite (num_ok _ _ _ A), (num_ok _ _ _ B); cbn [bind].
match goal with |- bind ?m _ = _ => assert (E : m = Ok (map (block n lg) (enumerate (lg_rooms lg)))) end.
{ apply mapM_map_ok; intros (i, r) I; cbn [fst snd]; apply enumerate_in in I; assert (J := nth_error_In _ _ I).
  destruct (C r J) as (C1 & C2 & C3); rewrite (room_columns_ok _ _ _ C1 C2 C3); cbn [bind].
  assert (LI : (i < List.length (lg_rooms lg))%nat) by (apply nth_error_Some; rewrite I; discriminate).
  destruct (selected_ok i (lg_bdries lg)) as (ss & S); [intros b BI; destruct (D b BI) as [D1 _]; lia|].
  rewrite S; cbn [bind]; apply selected_inv in S; subst ss; rewrite bdry_columns_ok; [reflexivity|].
  intros b kv BI KV; apply filter_In in BI; destruct BI as [BI _]; destruct (D b BI) as [_ D2].
  destruct kv as (k, f); apply (D2 k); unfold bdry_tab in KV; simpl in KV |- *.
  repeat (destruct KV as [KV|KV]; [injection KV as <- <-; tauto|]); destruct KV. }
rewrite E; reflexivity.
Qed.

(* no column is overwritten *)
Lemma str_eqb_neq a b : String.eqb a b = false -> a <> b.
Proof. apply String.eqb_neq. Qed.

Fixpoint distinct (l : list string) : bool :=
  match l with nil => true | s :: r => negb (existsb (String.eqb s) r) && distinct r end.
Lemma distinct_ok l : distinct l = true -> NoDup l.
Proof.
induction l as [|s r IH]; intro H; [constructor|]; simpl in H; apply andb_prop in H; destruct H as [A B]; constructor; [|apply IH, B].
intro I; apply negb_true_iff in A; assert (T : existsb (String.eqb s) r = true) by (apply existsb_exists; exists s; split; [exact I|apply String.eqb_refl]).
congruence.
Qed.

Definition suffixes (r : room_log) : list string := ("_ac_operate" :: map fst (room_quantities r) ++ ["_remarks"])%string.
Lemma room_names n i r : map fst (room_cols n i r) = map (fun s => rm i ++ s)%string (suffixes r).
Proof. unfold room_cols, suffixes; cbn [map fst]; rewrite !map_app, !map_map; reflexivity. Qed.

Lemma suffix_head r s : In s (suffixes r) -> exists t, s = String "_" t /\ forall u, t <> String "b" u.
Proof.
unfold suffixes, room_quantities; simpl; intro H.
repeat (destruct H as [<- |H]; [eexists; split; [reflexivity|intros u E; discriminate E]|]); destruct H.
Qed.

Lemma prefix_inj a b c : (a ++ b = a ++ c)%string -> b = c.
Proof. induction a as [|x a IH]; simpl; intro H; [exact H|injection H as H; apply IH, H]. Qed.

Lemma nodup_map A B (f : A -> B) l : (forall x y, In x l -> In y l -> f x = f y -> x = y) -> NoDup l -> NoDup (map f l).
Proof.
intros H N; induction N as [|x l X N IH]; [constructor|]; simpl; constructor.
- intro I; apply in_map_iff in I; destruct I as (y & E & Y); apply X; rewrite (H x y (or_introl eq_refl) (or_intror Y) (eq_sym E)); exact Y.
- apply IH; intros y z Y Z; apply H; right; assumption.
Qed.

Lemma bdry_names n i bs : map fst (bdry_cols n i bs) =
  List.concat (map (fun s => map (fun j => bname i j s) (seq 0 (List.length bs))) (map fst bdry_tab)).
Proof.
unfold bdry_cols; rewrite concat_map, !map_map; f_equal; apply map_ext; intro kv; unfold loop_cols; rewrite map_map; cbn [fst].
rewrite <- (map_map fst (fun j => bname i j (fst kv))); f_equal; unfold enumerate.
assert (K : forall (x : list nat) (y : list bdry_log), List.length x = List.length y -> map fst (combine x y) = x).
{ induction x as [|a x IH]; intros [|b y] L; try discriminate; [reflexivity|]; simpl; rewrite IH by (injection L as L; exact L); reflexivity. }
apply K; apply seq_length.
Qed.

Lemma bdry_suffix s : In s (map fst bdry_tab) -> exists t, s = String "_" t.
Proof. simpl; intro H; repeat (destruct H as [<- |H]; [eexists; reflexivity|]); destruct H. Qed.

Lemma bname_inj i j s i' j' s' : In s (map fst bdry_tab) -> In s' (map fst bdry_tab) -> bname i j s = bname i' j' s' -> i = i' /\ j = j' /\ s = s'.
Proof.
intros S S' E; destruct (bdry_suffix s S) as (t & ->); destruct (bdry_suffix s' S') as (t' & ->); unfold bname in E.
apply room_name in E; destruct E as [-> E]; apply bdry_name in E; destruct E as [-> ->]; repeat split.
Qed.

Lemma block_nodup n lg ir : NoDup (map fst (block n lg ir)).
Proof.
destruct ir as (i, r); unfold block; cbn [fst snd]; rewrite map_app, room_names, bdry_names; apply nodup_app.
- apply nodup_map; [intros x y _ _ E; apply prefix_inj in E; exact E|apply distinct_ok; vm_compute; reflexivity].
- apply nodup_concat_map.
  + apply distinct_ok; vm_compute; reflexivity.
  + intros s S; apply nodup_map; [|apply seq_NoDup]; intros x y _ _ E; apply (bname_inj i x s i y s S S E).
  + intros s s' x S S' X X'; apply in_map_iff in X; destruct X as (j & <- & _); apply in_map_iff in X'; destruct X' as (j' & E & _).
    apply (bname_inj i j s i j' s' S S' (eq_sym E)).
- intros z Z B; apply in_map_iff in Z; destruct Z as (s & <- & S); apply in_concat in B; destruct B as (y & Y & B).
  apply in_map_iff in Y; destruct Y as (s' & <- & S'); apply in_map_iff in B; destruct B as (j & E & _).
  destruct (suffix_head r s S) as (t & -> & N); destruct (bdry_suffix s' S') as (t' & ->); unfold bname, rm in E.
  rewrite append_assoc in E; apply room_name in E; destruct E as [_ E]; exact (N _ (eq_sym E)).
Qed.

Lemma block_names n lg ir x : In x (map fst (block n lg ir)) -> exists t, x = ("rm" ++ str (fst ir) ++ String "_" t)%string.
Proof.
destruct ir as (i, r); unfold block; cbn [fst snd]; rewrite map_app, room_names, bdry_names; intro H; apply in_app_or in H; destruct H as [H|H].
- apply in_map_iff in H; destruct H as (s & <- & S); destruct (suffix_head r s S) as (t & -> & _); exists t; unfold rm; apply append_assoc.
- apply in_concat in H; destruct H as (y & Y & H); apply in_map_iff in Y; destruct Y as (s & <- & S).
  apply in_map_iff in H; destruct H as (j & <- & _); eexists; unfold bname; reflexivity.
Qed.

Lemma rest_names n lg : map fst (List.concat (map (block n lg) (enumerate (lg_rooms lg)))) =
  List.concat (map (fun ir => map fst (block n lg ir)) (enumerate (lg_rooms lg))).
Proof. rewrite concat_map, map_map; reflexivity. Qed.

Lemma enumerate_nodup A (l : list A) : NoDup (enumerate l).
Proof.
apply (NoDup_map_inv fst); unfold enumerate.
assert (K : forall (x : list nat) (y : list A), List.length x = List.length y -> map fst (combine x y) = x).
{ induction x as [|a x IH]; intros [|b y] L; try discriminate; [reflexivity|]; simpl; rewrite IH by (injection L as L; exact L); reflexivity. }
rewrite K by apply seq_length; apply seq_NoDup.
Qed.

Lemma frame_nodup n lg : NoDup (map fst (frame n lg)).
Proof.
unfold frame; cbn [map fst]; rewrite rest_names.
assert (NR : forall x, In x (List.concat (map (fun ir => map fst (block n lg ir)) (enumerate (lg_rooms lg)))) -> exists t, x = String "r" t).
{ intros x X; apply in_concat in X; destruct X as (y & Y & X); apply in_map_iff in Y; destruct Y as (ir & <- & _).
  destruct (block_names n lg ir x X) as (t & ->); eexists; reflexivity. }
constructor; [|constructor].
- intros [E|I]; [discriminate E|destruct (NR _ I) as (t & E); discriminate E].
- intro I; destruct (NR _ I) as (t & E); discriminate E.
- apply nodup_concat_map; [apply enumerate_nodup|intros ir _; apply block_nodup|].
  intros (i, r) (k, r') x I K X X'; destruct (block_names n lg _ x X) as (t & E); destruct (block_names n lg _ x X') as (t' & E').
  rewrite E in E'; apply room_name in E'; destruct E' as [H _]; cbn [fst] in H; subst k.
  apply enumerate_in in I; apply enumerate_in in K; rewrite I in K; injection K as <-; reflexivity.
Qed.

(* looking columns up *)
Lemma find_in dd key (c : column) : NoDup (map fst dd) -> In (key, c) dd -> find (fun kv => String.eqb (fst kv) key) dd = Some (key, c).
Proof.
induction dd as [|(k, d) dd IH]; intros N I; [destruct I|]; cbn [map fst] in N; apply NoDup_cons_iff in N; destruct N as [A N]; cbn [find fst].
destruct I as [I|I]; [injection I as -> ->; rewrite String.eqb_refl; reflexivity|].
destruct (String.eqb_spec k key) as [-> |_]; [|apply IH; assumption].
contradiction A; apply (in_map fst) in I; exact I.
Qed.
Lemma look_in dd key c : NoDup (map fst dd) -> In (key, c) dd -> look key dd = Ok c.
Proof.
intros N I; unfold look; rewrite (find_in (rev dd) key c); [reflexivity| |apply in_rev; rewrite rev_involutive; exact I].
rewrite map_rev; apply NoDup_rev, N.
Qed.

Lemma frame_room n lg i r kc : nth_error (lg_rooms lg) i = Some r -> In kc (room_cols n i r) -> In kc (frame n lg).
Proof.
intros E I; right; right; apply in_concat; exists (block n lg (i, r)); split.
- apply in_map, enumerate_in, E.
- apply in_or_app; left; exact I.
Qed.

Definition dcols (rows i : nat) (n : nat) (r : room_log) : list (string * digest_column) :=
  [(rm i ++ "_ac_operate", DModes (hourly_first rows (firstn n (lg_operation_mode r))));
   (rm i ++ "_t_r", DNum (hourly_mean rows 2 (firstn n (lg_theta_r r))));
   (rm i ++ "_x_r", DNum (hourly_mean rows 4 (firstn n (lg_x_r r))));
   (rm i ++ "_ot", DNum (hourly_mean rows 2 (firstn n (lg_theta_ot r))));
   (rm i ++ "_l_s_c", DNum (hourly_sum rows 0 (firstn n (lg_l_cs r))));
   (rm i ++ "_l_s_r", DNum (hourly_sum rows 0 (firstn n (lg_l_rs r))));
   (rm i ++ "_l_l_c", DNum (hourly_sum rows 0 (firstn n (lg_l_cl r))))]%string.

Lemma room_digest_ok n lg rows i r : nth_error (lg_rooms lg) i = Some r -> room_digest rows i (frame n lg) = Ok (dcols rows i n r).
Proof.
intro E; assert (N := frame_nodup n lg).
assert (M : look (rm i ++ "_ac_operate") (frame n lg) = Ok (Modes (firstn n (lg_operation_mode r)))).
{ apply look_in; [exact N|]; apply (frame_room n lg i r _ E); left; reflexivity. }
assert (Q : forall k l, In (k, l) (room_quantities r) -> look (rm i ++ k) (frame n lg) = Ok (Num (firstn n l))).
{ intros k l I; apply look_in; [exact N|]; apply (frame_room n lg i r _ E); right; apply in_or_app; left.
  apply (in_map (series n (rm i))) in I; exact I. }
unfold room_digest; fold (rm i); unfold digest_mode, digest_num.
rewrite M, (Q "_t_r"%string (lg_theta_r r)), (Q "_x_r"%string (lg_x_r r)), (Q "_ot"%string (lg_theta_ot r)), (Q "_l_s_c"%string (lg_l_cs r)),
  (Q "_l_s_r"%string (lg_l_rs r)), (Q "_l_l_c"%string (lg_l_cl r)) by (unfold room_quantities; simpl; tauto).
reflexivity.
Qed.

Definition summary (rows n : nat) (lg : logger) : list (string * digest_column) :=
  ("out_temp"%string, DNum (hourly_mean rows 2 (firstn n (lg_theta_o lg)))) ::
  ("out_abs_humid"%string, DNum (hourly_mean rows 2 (firstn n (lg_x_o lg)))) ::
  List.concat (map (fun ir => dcols rows (fst ir) n (snd ir)) (enumerate (lg_rooms lg))).

Lemma map_seq_enumerate A B (g : nat * A -> B) (f : nat -> res B) l :
  (forall i r, nth_error l i = Some r -> f i = Ok (g (i, r))) -> mapM f (seq 0 (List.length l)) = Ok (map g (enumerate l)).
Proof.
intro H; unfold enumerate.
assert (K : forall (m : list A) s, (forall i r, nth_error m i = Some r -> f (s + i)%nat = Ok (g ((s + i)%nat, r))) ->
  mapM f (seq s (List.length m)) = Ok (map g (combine (seq s (List.length m)) m))).
{ induction m as [|a m IH]; intros s F; [reflexivity|]; cbn [List.length seq combine mapM map].
  assert (F0 := F 0%nat a eq_refl); rewrite Nat.add_0_r in F0; rewrite F0; cbn [bind]; rewrite (IH (S s)); [reflexivity|].
  intros i r I; assert (Fi := F (S i) r I); rewrite Nat.add_succ_r in Fi; exact Fi. }
apply K; intros i r I; apply H, I.
Qed.

Lemma digest_ok n lg rows : digest (List.length (lg_rooms lg)) rows (frame n lg) = Ok (summary rows n lg).
Proof.
unfold digest; assert (N := frame_nodup n lg).
unfold digest_num; rewrite (look_in (frame n lg) "out_temp" (Num (firstn n (lg_theta_o lg))) N) by (left; reflexivity).
rewrite (look_in (frame n lg) "out_abs_humid" (Num (firstn n (lg_x_o lg))) N) by (right; left; reflexivity); cbn [bind].
rewrite (map_seq_enumerate _ _ (fun ir => dcols rows (fst ir) n (snd ir))); [reflexivity|].
intros i r I; apply room_digest_ok, I.
Qed.

Lemma summary_nodup rows n lg : NoDup (map fst (summary rows n lg)).
Proof.
unfold summary; cbn [map fst]; rewrite concat_map, map_map.
assert (S : forall ir x, In x (map fst (dcols rows (fst ir) n (snd ir))) -> exists t, x = ("rm" ++ str (fst ir) ++ String "_" t)%string).
{ intros ir x H; unfold dcols in H; cbn [map fst] in H; unfold rm in H.
  repeat (destruct H as [<- |H]; [eexists; apply append_assoc|]); destruct H. }
assert (NR : forall x, In x (List.concat (map (fun ir => map fst (dcols rows (fst ir) n (snd ir))) (enumerate (lg_rooms lg)))) -> exists t, x = String "r" t).
{ intros x X; apply in_concat in X; destruct X as (y & Y & X); apply in_map_iff in Y; destruct Y as (ir & <- & _).
  destruct (S ir x X) as (t & ->); eexists; reflexivity. }
constructor; [|constructor].
- intros [E|I]; [discriminate E|destruct (NR _ I) as (t & E); discriminate E].
- intro I; destruct (NR _ I) as (t & E); discriminate E.
- apply nodup_concat_map; [apply enumerate_nodup| |].
  + intros ir _; change (map fst (dcols rows (fst ir) n (snd ir))) with
      (map (fun s => rm (fst ir) ++ s)%string ["_ac_operate"; "_t_r"; "_x_r"; "_ot"; "_l_s_c"; "_l_s_r"; "_l_l_c"]%string).
    apply nodup_map; [intros x y _ _ E; apply prefix_inj in E; exact E|apply distinct_ok; vm_compute; reflexivity].
  + intros (i, r) (k, r') x I K X X'; destruct (S _ x X) as (t & E); destruct (S _ x X') as (t' & E').
    rewrite E in E'; apply room_name in E'; destruct E' as [H _]; cbn [fst] in H; subst k.
    apply enumerate_in in I; apply enumerate_in in K; rewrite I in K; injection K as <-; reflexivity.
Qed.

Lemma record_inv lg nh nd ds dd : record lg nh nd = Ok (ds, dd) ->
  let n := Z.to_nat (nd * nh * 24) in let rows := Z.to_nat (nd * 24) in
  (0 <= nd * nh * 24)%Z /\ (0 <= nd * 24)%Z /\ dd = frame n lg /\ ds = summary rows n lg /\
  (n <= List.length (lg_theta_o lg))%nat /\ (n <= List.length (lg_x_o lg))%nat /\
  (forall i r, nth_error (lg_rooms lg) i = Some r -> (n <= List.length (lg_operation_mode r))%nat /\
     forall k l, In (k, l) (room_quantities r) -> (n <= List.length l)%nat).
Proof.
unfold record, n_step_main; intro H; destruct (Z.ltb_spec (nd * nh * 24) 0) as [_|A]; [discriminate|].
apply bind_ok in H; destruct H as (dd' & D & H); destruct (Z.ltb_spec (nd * 24) 0) as [_|B]; [discriminate|].
apply detail_inv in D; destruct D as (-> & D); rewrite digest_ok in H; cbn [bind] in H; injection H as <- <-.
split; [exact A|split; [exact B|split; [reflexivity|split; [reflexivity|exact D]]]].
Qed.

(* hours *)
Lemma quarters_nth A h (l : list A) : nth_error (quarters l) h =
  if (4 * h <? List.length l)%nat then Some (firstn 4 (skipn (4 * h) l)) else None.
Proof.
revert l; induction h as [|h IH]; intro l.
- rewrite Nat.mul_0_r; destruct l as [|a [|b [|c [|d l]]]]; reflexivity.
- replace (4 * S h)%nat with (4 + 4 * h)%nat by lia.
  destruct l as [|a [|b [|c [|d l]]]]; try (cbn [quarters nth_error]; destruct h; reflexivity).
  cbn [quarters nth_error]; rewrite IH; reflexivity.
Qed.

Lemma skip4 A (l : list A) k a b c e : nth_error l k = Some a -> nth_error l (k + 1) = Some b -> nth_error l (k + 2) = Some c -> nth_error l (k + 3) = Some e ->
  firstn 4 (skipn k l) = [a; b; c; e] /\ (k + 4 <= List.length l)%nat.
Proof.
revert l; induction k as [|k IH]; intros l A1 A2 A3 A4.
- destruct l as [|a' [|b' [|c' [|d' l]]]]; try discriminate; simpl in *.
  injection A1 as ->; injection A2 as ->; injection A3 as ->; injection A4 as ->; split; [reflexivity|lia].
- destruct l as [|x l]; [discriminate|]; simpl in A1, A2, A3, A4; destruct (IH l A1 A2 A3 A4) as [H L]; split; [exact H|simpl; lia].
Qed.

Lemma hour_at A (l : list A) h a b c e : quarter_values l h a b c e -> nth_error (quarters l) h = Some [a; b; c; e].
Proof.
intros (A1 & A2 & A3 & A4); destruct (skip4 _ _ _ _ _ _ _ A1 A2 A3 A4) as [E L]; rewrite quarters_nth, E.
destruct (Nat.ltb_spec (4 * h) (List.length l)) as [_|N]; [reflexivity|lia].
Qed.

Lemma align_nth A rows (l : list A) h : (h < rows)%nat -> nth_error (align rows l) h = Some (nth_error l h).
Proof.
intro L; unfold align; apply map_nth_error; rewrite (nth_error_nth' _ 0%nat) by (rewrite seq_length; exact L); rewrite seq_nth by exact L; reflexivity.
Qed.
Lemma align_length A rows (l : list A) : List.length (align rows l) = rows.
Proof. unfold align; rewrite map_length, seq_length; reflexivity. Qed.

(* rounding *)
Lemma rint_near x : Rabs (IZR (rint x) - x) <= 1 / 2.
Proof.
unfold rint; destruct (floor_spec (x + 1 / 2)) as [A B]; destruct (Req_EM_T _ _) as [E|_]; [destruct (Z.even _)|].
- apply Rabs_le; lra.
- rewrite minus_IZR; apply Rabs_le; lra.
- apply Rabs_le; lra.
Qed.
Lemma ten_pos d : 0 < 10 ^ d.
Proof. apply pow_lt; lra. Qed.
Lemma pd_round_ok d x : rounded d x (pd_round d x).
Proof.
unfold rounded, pd_round; assert (P := ten_pos d); split; [eexists; reflexivity|].
assert (N := rint_near (x * 10 ^ d)); replace (IZR (rint (x * 10 ^ d)) / 10 ^ d - x) with ((IZR (rint (x * 10 ^ d)) - x * 10 ^ d) * / 10 ^ d) by (field; lra).
rewrite Rabs_mult, (Rabs_right (/ 10 ^ d)) by (left; apply Rinv_0_lt_compat, P).
assert (Q := Rinv_0_lt_compat _ P); apply Rle_trans with (1 / 2 * / 10 ^ d); [apply Rmult_le_compat_r; lra|lra].
Qed.

Lemma mean4 a b c e : mean [a; b; c; e] = (a + b + c + e) / 4.
Proof. unfold mean, total; simpl; field. Qed.
Lemma total4 a b c e : total [a; b; c; e] = a + b + c + e.
Proof. unfold total; simpl; ring. Qed.

Lemma mean_shown rows d l h : (h < rows)%nat -> shows_mean d l (hourly_mean rows d l) h.
Proof.
intros L a b c e Q; unfold hourly_mean; rewrite align_nth by exact L; rewrite (map_nth_error _ _ _ (hour_at _ _ _ _ _ _ _ Q)).
eexists; split; [reflexivity|]; rewrite <- mean4; apply pd_round_ok.
Qed.
Lemma sum_shown rows d l h : (h < rows)%nat -> shows_sum d l (hourly_sum rows d l) h.
Proof.
intros L a b c e Q; unfold hourly_sum; rewrite align_nth by exact L; rewrite (map_nth_error _ _ _ (hour_at _ _ _ _ _ _ _ Q)).
eexists; split; [reflexivity|]; rewrite <- total4; apply pd_round_ok.
Qed.

Lemma missing rows d l h : (h < rows)%nat -> (List.length l <= 4 * h)%nat -> nth_error (hourly_mean rows d l) h = Some None /\ nth_error (hourly_sum rows d l) h = Some None.
Proof.
intros L N; assert (Q : nth_error (quarters l) h = None) by (rewrite quarters_nth; destruct (Nat.ltb_spec (4 * h) (List.length l)); [lia|reflexivity]).
assert (K : forall (B : Type) (f : list R -> B), nth_error (map f (quarters l)) h = None).
{ intros B f; apply nth_error_None; rewrite map_length; apply nth_error_None, Q. }
unfold hourly_mean, hourly_sum; rewrite !align_nth by exact L; rewrite !K; split; reflexivity.
Qed.

Lemma nth_firstn A n (l : list A) k : (k < n)%nat -> nth_error (firstn n l) k = nth_error l k.
Proof. revert l k; induction n as [|n IH]; intros l k L; [lia|]; destruct l as [|a l]; [reflexivity|]; destruct k as [|k]; [reflexivity|]; simpl; apply IH; lia. Qed.

(* what the cut series say about the full ones *)
Lemma quarter_firstn A n (l : list A) h a b c e : (4 * h + 4 <= n)%nat -> quarter_values l h a b c e -> quarter_values (firstn n l) h a b c e.
Proof. intros L (A1 & A2 & A3 & A4); unfold quarter_values; rewrite !nth_firstn by lia; repeat split; assumption. Qed.

Lemma quarter_exists A (l : list A) h : (4 * h + 4 <= List.length l)%nat -> exists a b c e, quarter_values l h a b c e.
Proof.
intro L; unfold quarter_values.
assert (K : forall k, (k < List.length l)%nat -> exists a, nth_error l k = Some a).
{ intros k Q; destruct (nth_error l k) as [a|] eqn:E; [exists a; reflexivity|apply nth_error_None in E; lia]. }
destruct (K (4 * h)%nat ltac:(lia)) as (a & A1); destruct (K (4 * h + 1)%nat ltac:(lia)) as (b & A2).
destruct (K (4 * h + 2)%nat ltac:(lia)) as (c & A3); destruct (K (4 * h + 3)%nat ltac:(lia)) as (e & A4).
exists a, b, c, e; repeat split; assumption.
Qed.

Lemma heads_nth A (l : list A) h : nth_error (heads (quarters l)) h = nth_error l (4 * h).
Proof.
revert l; induction h as [|h IH]; intro l.
- destruct l as [|a [|b [|c [|d l]]]]; reflexivity.
- replace (4 * S h)%nat with (4 + 4 * h)%nat by lia.
  destruct l as [|a [|b [|c [|d l]]]]; try (unfold heads; simpl; destruct h; reflexivity).
  change (heads (quarters (a :: b :: c :: d :: l))) with (a :: heads (quarters l)); cbn [nth_error]; rewrite IH; reflexivity.
Qed.
Lemma first_shown A rows (l : list A) h : (h < rows)%nat -> nth_error (hourly_first rows l) h = Some (nth_error l (4 * h)).
Proof. intro L; unfold hourly_first; rewrite align_nth by exact L; rewrite heads_nth; reflexivity. Qed.

(* the columns of the detailed frame *)
Lemma detail_room lg nh nd ds dd i r k l : record lg nh nd = Ok (ds, dd) -> nth_error (lg_rooms lg) i = Some r -> In (k, l) (room_quantities r) ->
  In ("rm" ++ str i ++ k, Num (firstn (Z.to_nat (nd * nh * 24)) l))%string dd.
Proof.
intros H I K; destruct (record_inv _ _ _ _ _ H) as (_ & _ & -> & _); apply (frame_room _ lg i r _ I); right; apply in_or_app; left.
apply (in_map (series (Z.to_nat (nd * nh * 24)) (rm i))) in K; unfold series, rm in K; cbn [fst snd] in K; rewrite append_assoc in K; exact K.
Qed.
Lemma detail_mode lg nh nd ds dd i r : record lg nh nd = Ok (ds, dd) -> nth_error (lg_rooms lg) i = Some r ->
  In ("rm" ++ str i ++ "_ac_operate", Modes (firstn (Z.to_nat (nd * nh * 24)) (lg_operation_mode r)))%string dd.
Proof.
intros H I; destruct (record_inv _ _ _ _ _ H) as (_ & _ & -> & _); apply (frame_room _ lg i r _ I); left; unfold rm; rewrite append_assoc; reflexivity.
Qed.
Lemma detail_bdry lg nh nd ds dd i r j b k l : record lg nh nd = Ok (ds, dd) -> nth_error (lg_rooms lg) i = Some r ->
  nth_error (filter (belongs i) (lg_bdries lg)) j = Some b -> In (k, l) (bdry_quantities b) ->
  In ("rm" ++ str i ++ "_b" ++ str j ++ k, Num (firstn (Z.to_nat (nd * nh * 24)) l))%string dd.
Proof.
intros H I J K; destruct (record_inv _ _ _ _ _ H) as (_ & _ & -> & _); set (n := Z.to_nat (nd * nh * 24)).
right; right; apply in_concat; exists (block n lg (i, r)); split; [apply in_map, enumerate_in, I|apply in_or_app; right; cbn [fst]].
change (bounds i) with (belongs i); unfold bdry_cols; apply in_concat.
assert (T : exists kv, In kv bdry_tab /\ (k, l) = (fst kv, snd kv b)).
{ change (bdry_quantities b) with (map (fun kv => (fst kv, snd kv b)) bdry_tab) in K.
  apply in_map_iff in K; destruct K as (kv & E & K); exists kv; split; [exact K|symmetry; exact E]. }
destruct T as (kv & T & E); injection E as -> ->; exists (loop_cols n i kv (filter (belongs i) (lg_bdries lg))); split; [apply in_map_iff; exists kv; split; [reflexivity|exact T]|].
unfold loop_cols; apply in_map_iff; exists (j, b); split; [reflexivity|apply enumerate_in, J].
Qed.
Lemma detail_outdoor lg nh nd ds dd : record lg nh nd = Ok (ds, dd) ->
  In ("out_temp"%string, Num (firstn (Z.to_nat (nd * nh * 24)) (lg_theta_o lg))) dd /\
  In ("out_abs_humid"%string, Num (firstn (Z.to_nat (nd * nh * 24)) (lg_x_o lg))) dd.
Proof. intro H; destruct (record_inv _ _ _ _ _ H) as (_ & _ & -> & _); split; [left|right; left]; reflexivity. Qed.

Lemma names_once lg nh nd ds dd : record lg nh nd = Ok (ds, dd) -> NoDup (map fst ds) /\ NoDup (map fst dd).
Proof. intro H; destruct (record_inv _ _ _ _ _ H) as (_ & _ & -> & -> & _); split; [apply summary_nodup|apply frame_nodup]. Qed.

Lemma record_ok lg nh nd : (0 <= nd)%Z -> (0 <= nh)%Z -> covers (Z.to_nat (nd * nh * 24)) lg -> exists ds dd, record lg nh nd = Ok (ds, dd).
Proof.
intros D N C; unfold record, n_step_main; destruct (Z.ltb_spec (nd * nh * 24) 0) as [L|_]; [nia|].
rewrite (detail_ok _ _ C); cbn [bind]; destruct (Z.ltb_spec (nd * 24) 0) as [L|_]; [nia|]; rewrite digest_ok; eexists; eexists; reflexivity.
Qed.

(* the columns of the digest *)
Lemma hourly_mean_length rows d l : List.length (hourly_mean rows d l) = rows.
Proof. apply align_length. Qed.
Lemma hourly_sum_length rows d l : List.length (hourly_sum rows d l) = rows.
Proof. apply align_length. Qed.

Lemma summary_room rows n lg i r kc : nth_error (lg_rooms lg) i = Some r -> In kc (dcols rows i n r) -> In kc (summary rows n lg).
Proof.
intros E I; right; right; apply in_concat; exists (dcols rows i n r); split; [|exact I].
apply in_map_iff; exists (i, r); split; [reflexivity|apply enumerate_in, E].
Qed.

Lemma rows_steps nd h : (h < Z.to_nat (nd * 24))%nat -> (4 * h + 4 <= Z.to_nat (nd * 4 * 24))%nat.
Proof. intro L; lia. Qed.

Lemma shows_mean_firstn n d l col h : (4 * h + 4 <= n)%nat -> shows_mean d (firstn n l) col h -> shows_mean d l col h.
Proof. intros L S a b c e Q; apply S, quarter_firstn; assumption. Qed.
Lemma shows_sum_firstn n d l col h : (4 * h + 4 <= n)%nat -> shows_sum d (firstn n l) col h -> shows_sum d l col h.
Proof. intros L S a b c e Q; apply S, quarter_firstn; assumption. Qed.

(* every row of hour h comes from steps 4 h to 4 h + 3, whatever the interval *)
Definition fixed_rows (n hours : nat) (row : list (option R) -> nat -> Prop) (col : list (option R)) (h : nat) : Prop :=
  (4 * h + 4 <= n)%nat -> row col h.

Lemma mean_rows hours n d l key ds : In (key, DNum (hourly_mean hours d (firstn n l))) ds ->
  digest_shows ds key hours (fun col h => ((4 * h + 4 <= n)%nat -> shows_mean d l col h) /\ ((n <= 4 * h)%nat -> nth_error col h = Some None)).
Proof.
intro I; eexists; split; [exact I|split; [apply hourly_mean_length|intros h L; split; intro Q]].
- apply (shows_mean_firstn n); [exact Q|apply mean_shown, L].
- refine (proj1 (missing hours d (firstn n l) h L _)); rewrite firstn_length; lia.
Qed.
Lemma sum_rows hours n d l key ds : In (key, DNum (hourly_sum hours d (firstn n l))) ds ->
  digest_shows ds key hours (fun col h => ((4 * h + 4 <= n)%nat -> shows_sum d l col h) /\ ((n <= 4 * h)%nat -> nth_error col h = Some None)).
Proof.
intro I; eexists; split; [exact I|split; [apply hourly_sum_length|intros h L; split; intro Q]].
- apply (shows_sum_firstn n); [exact Q|apply sum_shown, L].
- refine (proj2 (missing hours d (firstn n l) h L _)); rewrite firstn_length; lia.
Qed.

Lemma shows_weaken ds key hours (p q : list (option R) -> nat -> Prop) : (forall col h, (h < hours)%nat -> p col h -> q col h) ->
  digest_shows ds key hours p -> digest_shows ds key hours q.
Proof. intros W (col & I & L & H); exists col; split; [exact I|split; [exact L|intros h Q; apply W, H; exact Q]]. Qed.

Definition mean_columns (r : room_log) : list (string * nat * list R) :=
  [("_t_r", 2%nat, lg_theta_r r); ("_x_r", 4%nat, lg_x_r r); ("_ot", 2%nat, lg_theta_ot r)]%string.
Definition sum_columns (r : room_log) : list (string * list R) := [("_l_s_c", lg_l_cs r); ("_l_s_r", lg_l_rs r); ("_l_l_c", lg_l_cl r)]%string.

Lemma summary_means lg nh nd ds dd i r k d l : record lg nh nd = Ok (ds, dd) -> nth_error (lg_rooms lg) i = Some r ->
  In (k, d, l) [("_t_r", 2%nat, lg_theta_r r); ("_x_r", 4%nat, lg_x_r r); ("_ot", 2%nat, lg_theta_ot r)]%string ->
  digest_shows ds ("rm" ++ str i ++ k) (Z.to_nat (nd * 24)) (fun col h => ((4 * h + 4 <= Z.to_nat (nd * nh * 24))%nat -> shows_mean d l col h) /\
    ((Z.to_nat (nd * nh * 24) <= 4 * h)%nat -> nth_error col h = Some None)).
Proof.
intros H I K; destruct (record_inv _ _ _ _ _ H) as (_ & _ & _ & -> & _); apply mean_rows, (summary_room _ _ lg i r _ I).
rewrite <- append_assoc; fold (rm i); unfold dcols; simpl in K.
destruct K as [K|[K|[K|[]]]]; injection K as <- <- <-; simpl; tauto.
Qed.
Lemma summary_sums lg nh nd ds dd i r k l : record lg nh nd = Ok (ds, dd) -> nth_error (lg_rooms lg) i = Some r ->
  In (k, l) [("_l_s_c", lg_l_cs r); ("_l_s_r", lg_l_rs r); ("_l_l_c", lg_l_cl r)]%string ->
  digest_shows ds ("rm" ++ str i ++ k) (Z.to_nat (nd * 24)) (fun col h => ((4 * h + 4 <= Z.to_nat (nd * nh * 24))%nat -> shows_sum 0 l col h) /\
    ((Z.to_nat (nd * nh * 24) <= 4 * h)%nat -> nth_error col h = Some None)).
Proof.
intros H I K; destruct (record_inv _ _ _ _ _ H) as (_ & _ & _ & -> & _); apply sum_rows, (summary_room _ _ lg i r _ I).
rewrite <- append_assoc; fold (rm i); unfold dcols; simpl in K.
destruct K as [K|[K|[K|[]]]]; injection K as <- <-; simpl; tauto.
Qed.
Lemma summary_outdoor lg nh nd ds dd k l : record lg nh nd = Ok (ds, dd) ->
  In (k, l) [("out_temp", lg_theta_o lg); ("out_abs_humid", lg_x_o lg)]%string ->
  digest_shows ds k (Z.to_nat (nd * 24)) (fun col h => ((4 * h + 4 <= Z.to_nat (nd * nh * 24))%nat -> shows_mean 2 l col h) /\
    ((Z.to_nat (nd * nh * 24) <= 4 * h)%nat -> nth_error col h = Some None)).
Proof.
intros H K; destruct (record_inv _ _ _ _ _ H) as (_ & _ & _ & -> & _); apply mean_rows.
destruct K as [K|[K|[]]]; injection K as <- <-; [left|right; left]; reflexivity.
Qed.
Lemma summary_mode lg nh nd ds dd i r : record lg nh nd = Ok (ds, dd) -> nth_error (lg_rooms lg) i = Some r ->
  exists col, In ("rm" ++ str i ++ "_ac_operate", DModes col)%string ds /\ List.length col = Z.to_nat (nd * 24) /\
    forall h, (h < Z.to_nat (nd * 24))%nat -> (4 * h < Z.to_nat (nd * nh * 24))%nat -> exists m, nth_error (lg_operation_mode r) (4 * h) = Some m /\ nth_error col h = Some (Some m).
Proof.
intros H I; destruct (record_inv _ _ _ _ _ H) as (_ & _ & _ & -> & _ & _ & C); destruct (C i r I) as [L _].
eexists; split; [apply (summary_room _ _ lg i r _ I); left; unfold rm; rewrite append_assoc; reflexivity|].
split; [apply align_length|intros h Q T]; rewrite first_shown by exact Q; rewrite nth_firstn by exact T.
destruct (nth_error (lg_operation_mode r) (4 * h)) as [m|] eqn:E; [exists m; split; reflexivity|apply nth_error_None in E; lia].
Qed.

(* small outdoor humidity is shown as zero *)
Lemma rint_zero x : Rabs x < 1 / 2 -> rint x = 0%Z.
Proof.
intro A; apply Rabs_def2 in A; unfold rint.
assert (F : math_floor (x + 1 / 2) = 0%Z).
{ apply floor_unique; lra. }
rewrite F; destruct (Req_EM_T 0 (x + 1 / 2)); reflexivity.
Qed.

(* quarter hours: every hour has its four values *)
Lemma hourly_means lg nd ds dd i r k d l : record lg 4 nd = Ok (ds, dd) -> nth_error (lg_rooms lg) i = Some r ->
  In (k, d, l) [("_t_r", 2%nat, lg_theta_r r); ("_x_r", 4%nat, lg_x_r r); ("_ot", 2%nat, lg_theta_ot r)]%string ->
  digest_shows ds ("rm" ++ str i ++ k) (Z.to_nat (nd * 24)) (fun col h => (exists a b c e, quarter_values l h a b c e) /\ shows_mean d l col h).
Proof.
intros H I K; assert (S := summary_means lg 4 nd ds dd i r k d l H I K); revert S; apply shows_weaken; intros col h L [A _].
apply rows_steps in L; split; [|exact (A L)]; apply quarter_exists; destruct (record_inv _ _ _ _ _ H) as (_ & _ & _ & _ & _ & _ & C); destruct (C i r I) as [_ Q].
assert (T : (Z.to_nat (nd * 4 * 24) <= List.length l)%nat); [|lia].
apply (Q k); destruct K as [K|[K|[K|[]]]]; injection K as <- <- <-; unfold room_quantities; simpl; tauto.
Qed.
Lemma hourly_sums lg nd ds dd i r k l : record lg 4 nd = Ok (ds, dd) -> nth_error (lg_rooms lg) i = Some r ->
  In (k, l) [("_l_s_c", lg_l_cs r); ("_l_s_r", lg_l_rs r); ("_l_l_c", lg_l_cl r)]%string ->
  digest_shows ds ("rm" ++ str i ++ k) (Z.to_nat (nd * 24)) (fun col h => (exists a b c e, quarter_values l h a b c e) /\ shows_sum 0 l col h).
Proof.
intros H I K; assert (S := summary_sums lg 4 nd ds dd i r k l H I K); revert S; apply shows_weaken; intros col h L [A _].
apply rows_steps in L; split; [|exact (A L)]; apply quarter_exists; destruct (record_inv _ _ _ _ _ H) as (_ & _ & _ & _ & _ & _ & C); destruct (C i r I) as [_ Q].
assert (T : (Z.to_nat (nd * 4 * 24) <= List.length l)%nat); [|lia].
apply (Q k); destruct K as [K|[K|[K|[]]]]; injection K as <- <-; unfold room_quantities; simpl; tauto.
Qed.
Lemma hourly_outdoor lg nd ds dd k l : record lg 4 nd = Ok (ds, dd) -> In (k, l) [("out_temp", lg_theta_o lg); ("out_abs_humid", lg_x_o lg)]%string ->
  digest_shows ds k (Z.to_nat (nd * 24)) (fun col h => (exists a b c e, quarter_values l h a b c e) /\ shows_mean 2 l col h).
Proof.
intros H K; assert (S := summary_outdoor lg 4 nd ds dd k l H K); revert S; apply shows_weaken; intros col h L [A _].
apply rows_steps in L; split; [|exact (A L)]; apply quarter_exists; destruct (record_inv _ _ _ _ _ H) as (_ & _ & _ & _ & Q0 & Q1 & _).
assert (T : (Z.to_nat (nd * 4 * 24) <= List.length l)%nat); [|lia].
destruct K as [K|[K|[]]]; injection K as <- <-; assumption.
Qed.
Lemma hourly_mode lg nd ds dd i r : record lg 4 nd = Ok (ds, dd) -> nth_error (lg_rooms lg) i = Some r ->
  exists col, In ("rm" ++ str i ++ "_ac_operate", DModes col)%string ds /\ List.length col = Z.to_nat (nd * 24) /\
    forall h, (h < Z.to_nat (nd * 24))%nat -> exists m, nth_error (lg_operation_mode r) (4 * h) = Some m /\ nth_error col h = Some (Some m).
Proof.
intros H I; destruct (summary_mode lg 4 nd ds dd i r H I) as (col & A & B & C); exists col; split; [exact A|split; [exact B|]].
intros h L; apply C; [exact L|]; lia.
Qed.

(* dry outdoor air *)
Lemma rounded_small x y : rounded 2 x y -> 0 <= x < 5 / 1000 -> y = 0.
Proof.
intros [[k ->] A] X; replace (10 ^ 2) with 100 in A |- * by (simpl; ring); assert (B := Rle_abs (IZR k / 100 - x)).
assert (C := Rle_abs (- (IZR k / 100 - x))); rewrite Rabs_Ropp in C.
assert (k = 0)%Z; [|subst; field].
assert (IZR k < 1) by lra; assert (-1 < IZR k) by lra; apply lt_IZR in H; apply (lt_IZR (-1)) in H0; lia.
Qed.

Lemma dry_shown lg nd ds dd : record lg 4 nd = Ok (ds, dd) -> (forall x, In x (lg_x_o lg) -> 0 <= x < 5 / 1000) ->
  digest_shows ds "out_abs_humid" (Z.to_nat (nd * 24)) (fun col h => nth_error col h = Some (Some 0)).
Proof.
intros H D; generalize (hourly_outdoor lg nd ds dd "out_abs_humid" (lg_x_o lg) H (or_intror (or_introl eq_refl))); apply shows_weaken.
intros col h L [(a & b & c & e & Q) S]; destruct (S a b c e Q) as (y & Y & E); rewrite Y; f_equal; f_equal; apply (rounded_small _ _ E).
destruct Q as (A1 & A2 & A3 & A4); apply nth_error_In, D in A1; apply nth_error_In, D in A2; apply nth_error_In, D in A3; apply nth_error_In, D in A4; lra.
Qed.

Lemma record_negative lg nh nd : (nd < 0)%Z -> (0 < nh)%Z -> record lg nh nd = Err ValueError.
Proof. intros A B; unfold record, n_step_main; destruct (Z.ltb_spec (nd * nh * 24) 0) as [_|L]; [reflexivity|nia]. Qed.

(* an example *)
Definition flat_room (n : nat) (x : R) (t : list R) : room_log :=
  let z := repeat x n in
  Build_room_log (repeat HEATING n) z z z t z z z z z z z z z z z z z z z z z z z (repeat ""%string n).
Definition flat_bdry (n : nat) (x : R) : bdry_log := let z := repeat x n in Build_bdry_log [1] z z z z z z z z z.
Definition flat_logger (n : nat) (x : R) (t : list R) : logger :=
  Build_logger (repeat x n) (repeat x n) [flat_room n x t] [flat_bdry n x].

Lemma flat_covers n x t : List.length t = n -> covers n (flat_logger n x t).
Proof.
intro T; assert (Z : forall A (a : A), (n <= List.length (repeat a n))%nat) by (intros A a; rewrite repeat_length; lia).
split; [apply Z|split; [apply Z|split]].
- intros r [<- |[]]; split; [apply Z|split; [apply Z|]]; intros k l I; unfold room_quantities in I; simpl in I.
  repeat (destruct I as [I|I]; [injection I as _ <-; first [apply Z|lia]|]); destruct I.
- intros b [<- |[]]; split; [simpl; lia|]; intros k l I; unfold bdry_quantities in I; simpl in I.
  repeat (destruct I as [I|I]; [injection I as _ <-; apply Z|]); destruct I.
Qed.

(* five-minute steps: cold during the first hour, 20 degrees afterwards *)
Definition warming : list R := (repeat 0 12 ++ repeat 20 (12 * 23))%list.
Lemma five_minutes : exists lg ds dd r col, record lg 12 1 = Ok (ds, dd) /\ nth_error (lg_rooms lg) 0 = Some r /\
  In ("rm0_t_r"%string, DNum col) ds /\ (forall x, In x (firstn 12 (skipn 12 (lg_theta_r r))) -> x = 20) /\
  exists y, nth_error col 1 = Some (Some y) /\ y <= 1 / 100.
Proof.
assert (C := flat_covers (12 * 24) 0 warming eq_refl).
destruct (record_ok (flat_logger (12 * 24) 0 warming) 12 1) as (ds & dd & E); [lia|lia|exact C|].
destruct (summary_means _ _ _ _ _ 0 (flat_room (12 * 24) 0 warming) "_t_r" 2 warming E eq_refl (or_introl eq_refl)) as (col & I & L & S).
exists (flat_logger (12 * 24) 0 warming), ds, dd, (flat_room (12 * 24) 0 warming), col; split; [exact E|split; [reflexivity|split; [exact I|split]]].
- intros x X; change (In x (repeat 20 12)) in X; apply repeat_spec in X; exact X.
- destruct (S 1%nat) as [S1 _]; [vm_compute; lia|]; destruct (S1 ltac:(vm_compute; lia) 0 0 0 0) as (y & Y & _ & R0); [repeat split|].
  exists y; split; [exact Y|]; assert (Q := Rle_abs (y - (0 + 0 + 0 + 0) / 4)); simpl in R0; lra.
Qed.
