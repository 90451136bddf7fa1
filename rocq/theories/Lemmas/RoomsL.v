(* Lemmas about the rooms that the initializer writes and the core reads (Model/Initializer.v, Model/ReadHouse.v). *)
From Coq Require Import Reals List String ZArith Lra Lia Bool.
From Verif Require Import Model.Py Model.BoundaryDict Model.HouseDict Model.Initializer Model.ReadHouse Spec.HouseSpec Lemmas.PyL Lemmas.VentL.
Import ListNotations.
Local Open Scope R_scope.

Lemma check_ids_ok ids : forall i, check_ids i ids = Ok tt <-> ids = map (fun k => (i + Z.of_nat k)%Z) (seq 0 (List.length ids)).
Proof.
induction ids as [|x r IH]; intro i; simpl; [split; reflexivity|].
rewrite <- seq_shift, map_map; destruct (Z.eqb_spec i x) as [<-|N].
- rewrite IH; replace (i + 0)%Z with i by lia.
  assert (E : map (fun k => (i + Z.of_nat (S k))%Z) (seq 0 (List.length r)) = map (fun k => (i + 1 + Z.of_nat k)%Z) (seq 0 (List.length r)))
    by (apply map_ext; intro; lia).
  rewrite E; split; [intros ->; rewrite map_length, seq_length; reflexivity|intro H; injection H; auto].
- split; [discriminate|]; intro H; injection H as H _; lia.
Qed.

Lemma check_ids_err ids i e : check_ids i ids = Err e -> e = ValueError.
Proof. revert i; induction ids as [|x r IH]; intros i; simpl; [discriminate|]; destruct (i =? x)%Z; [apply IH|congruence]. Qed.

Definition kind_name (k : room_kind) : string :=
  match k with
  | MAIN_OCCUPANT_ROOM => "main_occupant_room" | OTHER_OCCUPANT_ROOM => "other_occupant_room"
  | NON_OCCUPANT_ROOM => "non_occupant_room" | UNDERFLOOR => "underfloor"
  end.

Lemma room_type_ok s k : RoomType s = Ok k <-> s = kind_name k.
Proof.
unfold RoomType; split.
- destruct (String.eqb_spec s "main_occupant_room") as [E|_]; [intro H; rewrite E; injection H as <-; reflexivity|].
  destruct (String.eqb_spec s "other_occupant_room") as [E|_]; [intro H; rewrite E; injection H as <-; reflexivity|].
  destruct (String.eqb_spec s "non_occupant_room") as [E|_]; [intro H; rewrite E; injection H as <-; reflexivity|].
  destruct (String.eqb_spec s "underfloor") as [E|_]; [intro H; rewrite E; injection H as <-; reflexivity|discriminate].
- intros ->; destruct k; reflexivity.
Qed.

Lemma room_type_known s : (exists k, RoomType s = Ok k) <-> In s room_types.
Proof.
split.
- intros [k H]; apply room_type_ok in H; subst; destruct k; simpl; auto.
- simpl; intros [<-|[<-|[<-|[<-|[]]]]]; [exists MAIN_OCCUPANT_ROOM|exists OTHER_OCCUPANT_ROOM|exists NON_OCCUPANT_ROOM|exists UNDERFLOOR]; reflexivity.
Qed.

Lemma room_type_err s e : RoomType s = Err e -> e = ValueError.
Proof. unfold RoomType; repeat (match goal with |- context [if ?b then _ else _] => destruct b end; [discriminate|]); congruence. Qed.

Lemma kind_name_inj a b : kind_name a = kind_name b -> a = b.
Proof. destruct a, b; simpl; congruence. Qed.

Lemma count_kinds kinds k : count_occ room_kind_eq_dec kinds k = count_occ string_dec (map kind_name kinds) (kind_name k).
Proof.
induction kinds as [|a l IH]; simpl; [reflexivity|].
destruct (room_kind_eq_dec a k) as [E0|N], (string_dec (kind_name a) (kind_name k)) as [E|N2]; try congruence.
exfalso; apply N, kind_name_inj, E.
Qed.

Lemma mapM_key A B (f : A -> option B) l xs : map f l = map Some xs -> mapM (fun r => key (f r)) l = Ok xs.
Proof.
revert xs; induction l as [|a l IH]; intros [|x xs]; simpl; try discriminate; [reflexivity|].
intros [= -> H]; simpl; rewrite (IH xs H); reflexivity.
Qed.

Lemma mapM_key_inv A B (f : A -> option B) l xs : mapM (fun r => key (f r)) l = Ok xs -> map f l = map Some xs.
Proof.
intro H; apply mapM_forall2 in H; induction H as [|a x l xs E F IH]; simpl; [reflexivity|].
rewrite IH; destruct (f a); simpl in E; congruence.
Qed.

Lemma mapM_given A B (f : A -> option B) l : (forall a, In a l -> given (f a)) -> exists xs, mapM (fun r => key (f r)) l = Ok xs.
Proof. intro H; apply mapM_total; intros a I; destruct (H a I) as [b ->]; simpl; eauto. Qed.

Lemma mapM_types (rooms : list room_in) types : map r_room_type rooms = map Some types ->
  mapM (fun r => bind (key (r_room_type r)) RoomType) rooms = mapM RoomType types.
Proof.
revert types; induction rooms as [|r l IH]; intros [|t types]; simpl; try discriminate; [reflexivity|].
intros [= -> H]; simpl; rewrite (IH types H); reflexivity.
Qed.

Lemma mapM_kinds types kinds : mapM RoomType types = Ok kinds -> types = map kind_name kinds.
Proof. intro H; apply mapM_forall2 in H; induction H as [|t k l ks E F IH]; simpl; [reflexivity|]; apply room_type_ok in E; congruence. Qed.

(* the five checks together *)
Definition checks (ts : list room_kind) : res unit :=
  bind (check_specifying_room_type ts MAIN_OCCUPANT_ROOM) (fun _ =>
  bind (check_not_specifying_multi_room_type ts MAIN_OCCUPANT_ROOM) (fun _ =>
  bind (check_not_specifying_multi_room_type ts OTHER_OCCUPANT_ROOM) (fun _ =>
  bind (check_not_specifying_multi_room_type ts NON_OCCUPANT_ROOM) (fun _ =>
  check_not_specifying_multi_room_type ts UNDERFLOOR)))).

Lemma checks_err ts e : checks ts = Err e -> e = ValueError.
Proof.
unfold checks, check_specifying_room_type, check_not_specifying_multi_room_type.
destruct (_ =? 1)%nat; simpl; [|congruence].
repeat (destruct (1 <? _)%nat; simpl; [congruence|]); discriminate.
Qed.

Lemma checks_ok ts : checks ts = Ok tt <->
  count_occ room_kind_eq_dec ts MAIN_OCCUPANT_ROOM = 1%nat /\ forall k, (count_occ room_kind_eq_dec ts k <= 1)%nat.
Proof.
unfold checks, check_specifying_room_type, check_not_specifying_multi_room_type; split.
- destruct (Nat.eqb_spec (count_occ room_kind_eq_dec ts MAIN_OCCUPANT_ROOM) 1) as [E|]; simpl; [|discriminate].
  destruct (Nat.ltb_spec 1 (count_occ room_kind_eq_dec ts MAIN_OCCUPANT_ROOM)); simpl; [discriminate|].
  destruct (Nat.ltb_spec 1 (count_occ room_kind_eq_dec ts OTHER_OCCUPANT_ROOM)); simpl; [discriminate|].
  destruct (Nat.ltb_spec 1 (count_occ room_kind_eq_dec ts NON_OCCUPANT_ROOM)); simpl; [discriminate|].
  destruct (Nat.ltb_spec 1 (count_occ room_kind_eq_dec ts UNDERFLOOR)); simpl; [discriminate|].
  intros _; split; [exact E|intros []; lia].
- intros [E H]; rewrite E; simpl.
  destruct (Nat.ltb_spec 1 (count_occ room_kind_eq_dec ts OTHER_OCCUPANT_ROOM)); [specialize (H OTHER_OCCUPANT_ROOM); lia|].
  destruct (Nat.ltb_spec 1 (count_occ room_kind_eq_dec ts NON_OCCUPANT_ROOM)); [specialize (H NON_OCCUPANT_ROOM); lia|].
  destruct (Nat.ltb_spec 1 (count_occ room_kind_eq_dec ts UNDERFLOOR)); [specialize (H UNDERFLOOR); lia|]; reflexivity.
Qed.

(* ids and types, as checked *)
Definition check_rooms (ids : list Z) (types : list string) : res unit :=
  bind (check_ids 0 ids) (fun _ => bind (mapM RoomType types) checks).

Lemma check_rooms_ok ids types : check_rooms ids types = Ok tt <-> valid_rooms ids types.
Proof.
unfold check_rooms, valid_rooms; split.
- intro H; apply bind_ok in H; destruct H as [[] [I H]]; apply bind_ok in H; destruct H as [kinds [K C]].
  apply check_ids_ok in I; apply checks_ok in C; destruct C as [M A]; apply mapM_kinds in K; subst types.
  split; [exact I|]; split; [|split].
  + intros t T; apply in_map_iff in T; destruct T as [k [<- _]]; destruct k; simpl; auto.
  + rewrite <- M; symmetry; exact (count_kinds kinds MAIN_OCCUPANT_ROOM).
  + intros t T; apply room_type_known in T; destruct T as [k T]; apply room_type_ok in T; subst t.
    rewrite <- count_kinds; apply A.
- intros [I [K [M A]]].
  destruct (mapM_total _ _ RoomType types) as [kinds E]; [intros t T; apply room_type_known, K, T|].
  assert (C : check_ids 0 ids = Ok tt) by (apply check_ids_ok; exact I); rewrite C; simpl; rewrite E; simpl.
  apply mapM_kinds in E; subst types; apply checks_ok; split.
  + rewrite count_kinds; exact M.
  + intro k; rewrite count_kinds; apply A; destruct k; simpl; auto.
Qed.

Lemma check_rooms_err ids types e : check_rooms ids types = Err e -> e = ValueError.
Proof.
unfold check_rooms; destruct (check_ids 0 ids) as [u|e1] eqn:E; simpl; [|intros [= <-]; exact (check_ids_err _ _ _ E)].
destruct (mapM RoomType types) as [ks|e2] eqn:F; simpl; [apply checks_err|].
intros [= <-]; destruct (mapM_err _ _ _ _ _ F) as [x [_ X]]; exact (room_type_err _ _ X).
Qed.

(* the whole function after the checks *)
Definition remaining (rooms : list room_in) (ids : list Z) (names : list string) : res (list space) :=
  bind (mapM (fun r => key (r_volume r)) rooms) (fun vols =>
  bind (mapM (fun r => key (r_vent r)) rooms) (fun vents =>
  bind (mapM read_paths rooms) (fun next_vents =>
  bind (mapM (fun r => key (r_natural_vent_time r)) rooms) (fun nats =>
  bind (mapM (fun r => key (r_heating r)) rooms) (fun hes =>
  bind (mapM read_equipment hes) (fun hs =>
  bind (mapM (fun r => key (r_cooling r)) rooms) (fun ces =>
  bind (mapM read_equipment ces) (fun cs =>
  bind (get_v_int_vent_is next_vents (List.length rooms)) (fun ps =>
  Ok (map make_space (rows ids names vols vents ps nats hs cs))))))))))).

Lemma bind_assoc A B C (a : res A) (f : A -> res B) (g : B -> res C) : bind (bind a f) g = bind a (fun x => bind (f x) g).
Proof. destruct a; reflexivity. Qed.

Lemma make_spaces_split rooms : make_spaces_dict rooms =
  bind (mapM (fun r => key (r_id r)) rooms) (fun ids =>
  bind (check_ids 0 ids) (fun _ =>
  bind (mapM (fun r => key (r_name r)) rooms) (fun names =>
  bind (mapM (fun r => bind (key (r_room_type r)) RoomType) rooms) (fun types =>
  bind (checks types) (fun _ => remaining rooms ids names))))).
Proof.
unfold make_spaces_dict, checks, remaining.
destruct (mapM (fun r => key (r_id r)) rooms) as [ids|]; [|reflexivity]; cbn [bind].
destruct (check_ids 0 ids) as [u|]; [|reflexivity]; cbn [bind].
destruct (mapM (fun r => key (r_name r)) rooms) as [names|]; [|reflexivity]; cbn [bind].
destruct (mapM (fun r => bind (key (r_room_type r)) RoomType) rooms) as [types|]; [|reflexivity]; cbn [bind].
rewrite !bind_assoc; reflexivity.
Qed.

Lemma complete_equipment_ok e : complete_equipment e -> exists s, read_equipment e = Ok s.
Proof.
unfold read_equipment; intros [E|[[E [c [C [[a A] [[b B] [[v V] [w W]]]]]]]|[E [r [Rr [[m M] [a A]]]]]]]; rewrite E; simpl.
- eauto.
- rewrite C; simpl; rewrite A, B, V, W; simpl; eauto.
- rewrite Rr; simpl; rewrite M, A; simpl; eauto.
Qed.

Lemma paths_read n r : complete_room n r -> exists l, read_paths r = Ok l /\ forall p, In p l -> (0 <= fst p < Z.of_nat n)%Z.
Proof.
intros (_ & _ & _ & _ & _ & _ & (l & L & P) & _ & _); unfold read_paths; rewrite L; simpl.
destruct (mapM_total _ _ (fun p => bind (key (upstream_room_id p)) (fun k => bind (key (v_volume p)) (fun v => Ok (k, v)))) l) as [ys Y].
- intros p I; destruct (P p I) as (k & v & -> & -> & _); simpl; eauto.
- exists ys; split; [exact Y|]; intros q I; apply In_nth_error in I; destruct I as [i I].
  assert (F := mapM_forall2 _ _ _ _ _ Y); clear Y.
  assert (G : exists p, In p l /\ bind (key (upstream_room_id p)) (fun k => bind (key (v_volume p)) (fun v => Ok (k, v))) = Ok q).
  { clear P L; revert i I; induction F as [|p y l ys E F IH]; intros [|i] I; simpl in I; try discriminate.
    - injection I as <-; exists p; split; [left; reflexivity|exact E].
    - destruct (IH i I) as [p' [J K]]; exists p'; split; [right; exact J|exact K]. }
  destruct G as [p [J K]]; destruct (P p J) as (k & v & A & B & C); rewrite A, B in K; simpl in K; injection K as <-; exact C.
Qed.

Lemma remaining_ok rooms ids names : Forall (complete_room (List.length rooms)) rooms -> exists ss, remaining rooms ids names = Ok ss.
Proof.
intro F; assert (G := proj1 (Forall_forall _ _) F).
unfold remaining.
destruct (mapM_given _ _ r_volume rooms) as [vols ->]; [intros r I; apply (G r I)|]; cbn [bind].
destruct (mapM_given _ _ r_vent rooms) as [vents ->]; [intros r I; apply (G r I)|]; cbn [bind].
destruct (mapM read_paths rooms) as [nv|e] eqn:P.
2:{ destruct (mapM_err _ _ _ _ _ P) as [r [I E]]; destruct (paths_read _ r (G r I)) as [l [L _]]; congruence. }
cbn [bind].
destruct (mapM_given _ _ r_natural_vent_time rooms) as [nats ->]; [intros r I; apply (G r I)|]; cbn [bind].
assert (Eq : forall f : room_in -> option equip_in, (forall r, In r rooms -> exists e, f r = Some e /\ complete_equipment e) ->
  exists es ss, mapM (fun r => key (f r)) rooms = Ok es /\ mapM read_equipment es = Ok ss).
{ intros f Hf; clear - Hf; induction rooms as [|r l IH]; simpl; [exists [], []; auto|].
  destruct (Hf r (or_introl eq_refl)) as [e [E C]]; rewrite E; simpl; destruct (complete_equipment_ok e C) as [s S].
  destruct IH as (es & ss & A & B); [intros; apply Hf; right; assumption|]; rewrite A; simpl; exists (e :: es), (s :: ss); split; [reflexivity|].
  simpl; rewrite S; simpl; rewrite B; reflexivity. }
destruct (Eq r_heating) as (hes & hs & -> & E1); [intros r I; apply (G r I)|]; cbn [bind]; rewrite E1; cbn [bind].
destruct (Eq r_cooling) as (ces & cs & -> & E2); [intros r I; apply (G r I)|]; cbn [bind]; rewrite E2; cbn [bind].
destruct (vent_completes nv (List.length rooms)) as [m ->]; [|cbn [bind]; eauto].
intros paths p I J; apply In_nth_error in I; destruct I as [i I].
apply mapM_ok in P; destruct P as [L P]; assert (Li : (i < List.length rooms)%nat) by (rewrite <- L; apply nth_error_Some; congruence).
destruct (nth_error rooms i) as [r|] eqn:Er; [|apply nth_error_None in Er; lia].
destruct (P i r Er) as [ps [E K]]; rewrite I in K; injection K as <-.
destruct (paths_read _ r (G r (nth_error_In _ _ Er))) as [l [E' H]]; rewrite E in E'; injection E' as <-; exact (H p J).
Qed.

Lemma rooms_accepted rooms ids types : map r_id rooms = map Some ids -> map r_room_type rooms = map Some types ->
  Forall (complete_room (List.length rooms)) rooms ->
  ((exists ss, make_spaces_dict rooms = Ok ss) <-> valid_rooms ids types) /\
  (~ valid_rooms ids types -> make_spaces_dict rooms = Err ValueError).
Proof.
intros Hi Ht F; assert (G := proj1 (Forall_forall _ _) F).
destruct (mapM_given _ _ r_name rooms) as [names N]; [intros r I; apply (G r I)|].
assert (X : make_spaces_dict rooms = bind (check_rooms ids types) (fun _ => remaining rooms ids names)).
{ rewrite make_spaces_split, (mapM_key _ _ _ _ _ Hi), N, (mapM_types _ _ Ht); unfold check_rooms; cbn [bind].
  destruct (check_ids 0 ids); [|reflexivity]; cbn [bind]; destruct (mapM RoomType types); reflexivity. }
rewrite X; destruct (check_rooms ids types) as [[]|e] eqn:C; cbn [bind].
- split; [|intro V; exfalso; apply V, check_rooms_ok, C].
  split; [intros _; apply check_rooms_ok, C|intros _; apply remaining_ok, F].
- rewrite (check_rooms_err _ _ _ C); split; [|reflexivity].
  split; [intros [ss S]; discriminate|intro V; apply check_rooms_ok in V; congruence].
Qed.

Lemma valid_at_most_four ids types : valid_rooms ids types -> (List.length types <= 4)%nat.
Proof.
intros [_ [K [_ A]]].
assert (L : forall l : list string, (forall t, In t l -> In t room_types) ->
  (List.length l = count_occ string_dec l "main_occupant_room"%string + count_occ string_dec l "other_occupant_room"%string +
     count_occ string_dec l "non_occupant_room"%string + count_occ string_dec l "underfloor"%string)%nat).
{ induction l as [|t l IH]; intro H; [reflexivity|].
  assert (T := H t (or_introl eq_refl)); specialize (IH (fun x I => H x (or_intror I))).
  simpl in T; destruct T as [<-|[<-|[<-|[<-|[]]]]]; simpl; lia. }
rewrite (L types K).
assert (A1 := A "main_occupant_room"%string); assert (A2 := A "other_occupant_room"%string);
assert (A3 := A "non_occupant_room"%string); assert (A4 := A "underfloor"%string); simpl in A1, A2, A3, A4; intuition lia.
Qed.

(* what the rows are *)
Definition matches (n : nat) (r : room_in) (w : room_row) : Prop :=
  r_id r = Some (rr_id w) /\ r_name r = Some (rr_name w) /\ r_volume r = Some (rr_volume w) /\ r_vent r = Some (rr_vent w) /\
  (exists l, read_paths r = Ok l /\ foldM add_path l (repeat 0 n) = Ok (rr_paths w)) /\
  r_natural_vent_time r = Some (rr_natural w) /\
  (exists e, r_heating r = Some e /\ read_equipment e = Ok (rr_heating w)) /\
  (exists e, r_cooling r = Some e /\ read_equipment e = Ok (rr_cooling w)).

Lemma forall2_trans A B C (P : A -> B -> Prop) (Q : B -> C -> Prop) a b c :
  Forall2 P a b -> Forall2 Q b c -> Forall2 (fun x z => exists y, P x y /\ Q y z) a c.
Proof.
intros F; revert c; induction F as [|x y l m E F IH]; intros c G; inversion G; subst; constructor; eauto.
Qed.

Lemma forall2_map A B (f : A -> option B) l xs : map f l = map Some xs -> Forall2 (fun a x => f a = Some x) l xs.
Proof. revert xs; induction l as [|a l IH]; intros [|x xs]; simpl; try discriminate; constructor; [congruence|apply IH; congruence]. Qed.

Lemma rows_match n rooms ids names vols vents ps nats hs cs :
  Forall2 (fun r x => r_id r = Some x) rooms ids -> Forall2 (fun r x => r_name r = Some x) rooms names ->
  Forall2 (fun r x => r_volume r = Some x) rooms vols -> Forall2 (fun r x => r_vent r = Some x) rooms vents ->
  Forall2 (fun r x => exists l, read_paths r = Ok l /\ foldM add_path l (repeat 0 n) = Ok x) rooms ps ->
  Forall2 (fun r x => r_natural_vent_time r = Some x) rooms nats ->
  Forall2 (fun r x => exists e, r_heating r = Some e /\ read_equipment e = Ok x) rooms hs ->
  Forall2 (fun r x => exists e, r_cooling r = Some e /\ read_equipment e = Ok x) rooms cs ->
  Forall2 (matches n) rooms (rows ids names vols vents ps nats hs cs).
Proof.
intro F; revert names vols vents ps nats hs cs; induction F as [|r i l ids E F IH]; intros names vols vents ps nats hs cs A1 A2 A3 A4 A5 A6 A7;
  inversion A1; subst; inversion A2; subst; inversion A3; subst; inversion A4; subst; inversion A5; subst; inversion A6; subst; inversion A7; subst; simpl; constructor.
- unfold matches; simpl; tauto.
- apply IH; assumption.
Qed.

Lemma spaces_rows rooms ss : make_spaces_dict rooms = Ok ss ->
  exists ws, ss = map make_space ws /\ Forall2 (matches (List.length rooms)) rooms ws /\
  exists ids types, map r_id rooms = map Some ids /\ map r_room_type rooms = map Some types /\ valid_rooms ids types.
Proof.
rewrite make_spaces_split; intro H.
apply bind_ok in H; destruct H as [ids [I H]]; apply bind_ok in H; destruct H as [[] [C H]].
apply bind_ok in H; destruct H as [names [N H]]; apply bind_ok in H; destruct H as [kinds [K H]].
apply bind_ok in H; destruct H as [[] [Ch H]]; unfold remaining in H.
apply bind_ok in H; destruct H as [vols [V H]]; apply bind_ok in H; destruct H as [vents [U H]].
apply bind_ok in H; destruct H as [nv [P H]]; apply bind_ok in H; destruct H as [nats [T H]].
apply bind_ok in H; destruct H as [hes [He H]]; apply bind_ok in H; destruct H as [hs [Hs H]].
apply bind_ok in H; destruct H as [ces [Ce H]]; apply bind_ok in H; destruct H as [cs [Cs H]].
apply bind_ok in H; destruct H as [ps [Ps H]]; injection H as <-.
eexists; split; [reflexivity|]; split.
- apply mapM_key_inv in I, N, V, U, T, He, Ce.
  apply rows_match; try (apply forall2_map; assumption).
  + exact (forall2_trans _ _ _ _ _ _ _ _ (mapM_forall2 _ _ _ _ _ P) (mapM_forall2 _ _ _ _ _ Ps)).
  + exact (forall2_trans _ _ _ _ _ _ _ _ (forall2_map _ _ _ _ _ He) (mapM_forall2 _ _ _ _ _ Hs)).
  + exact (forall2_trans _ _ _ _ _ _ _ _ (forall2_map _ _ _ _ _ Ce) (mapM_forall2 _ _ _ _ _ Cs)).
- apply mapM_key_inv in I; exists ids.
  assert (E : exists types, map r_room_type rooms = map Some types /\ mapM RoomType types = Ok kinds).
  { clear - K; apply mapM_forall2 in K; induction K as [|r k l ks E F IH]; [exists []; auto|].
    destruct IH as [ts [A B]]; apply bind_ok in E; destruct E as [t [Et Ek]]; exists (t :: ts); simpl.
    destruct (r_room_type r); simpl in Et; [|discriminate]; injection Et as <-; rewrite A, Ek; simpl; rewrite B; auto. }
  destruct E as [types [Et Ek]]; exists types; split; [exact I|split; [exact Et|]].
  apply check_rooms_ok; unfold check_rooms; rewrite C; simpl; rewrite Ek; simpl; exact Ch.
Qed.

Lemma forall2_nth A B (P : A -> B -> Prop) a b i x : Forall2 P a b -> nth_error a i = Some x -> exists y, nth_error b i = Some y /\ P x y.
Proof.
intro F; revert i; induction F as [|u v a b E F IH]; intros [|i]; simpl; try discriminate; [intros [= <-]; eauto|apply IH].
Qed.

Lemma forall2_length A B (P : A -> B -> Prop) a b : Forall2 P a b -> List.length a = List.length b.
Proof. induction 1; simpl; lia. Qed.

Lemma spaces_row rooms ss : make_spaces_dict rooms = Ok ss ->
  List.length ss = List.length rooms /\
  forall i r, nth_error rooms i = Some r -> exists s w, nth_error ss i = Some s /\ s = make_space w /\ matches (List.length rooms) r w /\ rr_id w = Z.of_nat i.
Proof.
intro H; destruct (spaces_rows _ _ H) as (ws & -> & F & ids & types & I & T & V).
split; [rewrite map_length; symmetry; exact (forall2_length _ _ _ _ _ F)|].
intros i r E; destruct (forall2_nth _ _ _ _ _ _ _ F E) as [w [W M]].
exists (make_space w), w; rewrite nth_error_map, W; split; [reflexivity|split; [reflexivity|split; [exact M|]]].
destruct M as [M _]; destruct V as [V _].
assert (X : nth_error (map r_id rooms) i = Some (Some (rr_id w))) by (rewrite nth_error_map, E; simpl; congruence).
rewrite I, V, nth_error_map, nth_error_map in X.
assert (L : (i < List.length ids)%nat).
{ assert (Y := f_equal (@List.length _) I); rewrite !map_length in Y; rewrite <- Y; apply nth_error_Some; congruence. }
rewrite nth_error_nth' with (d := O) in X by (rewrite seq_length; exact L); rewrite seq_nth in X by exact L; simpl in X; congruence.
Qed.

(* reading *)
Definition is_conv (s : equip_spec) : Prop := match s with ConvSpec _ _ _ _ => True | _ => False end.

Lemma read_kind e s : read_equipment e = Ok s ->
  match s with
  | NoSpec => e_type e = Some "not_installed"%string
  | ConvSpec a b v w => e_type e = Some "convective"%string /\
      exists c, e_convective e = Some c /\ ci_q_min c = Some a /\ ci_q_max c = Some b /\ ci_v_min c = Some v /\ ci_v_max c = Some w
  | RadSpec m a => e_type e = Some "radiative"%string /\ exists r, e_radiative e = Some r /\ ri_max_capacity r = Some m /\ ri_area r = Some a
  end.
Proof.
unfold read_equipment, EquipmentType, key; destruct (e_type e) as [t|]; simpl; [|discriminate].
destruct (String.eqb_spec t "not_installed") as [->|_]; simpl; [intros [= <-]; reflexivity|].
destruct (String.eqb_spec t "convective") as [->|_]; simpl.
- destruct (e_convective e) as [c|]; simpl; [|discriminate].
  destruct (ci_q_min c) as [a|] eqn:A; simpl; [|discriminate]; destruct (ci_q_max c) as [b|] eqn:B; simpl; [|discriminate].
  destruct (ci_v_min c) as [v|] eqn:V; simpl; [|discriminate]; destruct (ci_v_max c) as [w|] eqn:W; simpl; [|discriminate].
  intros [= <-]; split; [reflexivity|]; exists c; auto.
- destruct (String.eqb_spec t "radiative") as [->|_]; simpl; [|discriminate].
  destruct (e_radiative e) as [r|]; simpl; [|discriminate].
  destruct (ri_max_capacity r) as [m|] eqn:M; simpl; [|discriminate]; destruct (ri_area r) as [a|] eqn:A; simpl; [|discriminate].
  intros [= <-]; split; [reflexivity|]; exists r; auto.
Qed.

Lemma mapM_err_kind A B (f : A -> res B) l e : (forall x e', In x l -> f x = Err e' -> e' = KeyError) -> mapM f l = Err e -> e = KeyError.
Proof. intros H E; destruct (mapM_err _ _ _ _ _ E) as [x [I X]]; exact (H x e I X). Qed.

Lemma key_err A (o : option A) e : key o = Err e -> e = KeyError.
Proof. destruct o; simpl; congruence. Qed.

Lemma read_spaces_err ss e : read_spaces ss = Err e -> e = KeyError.
Proof.
unfold read_spaces.
destruct (mapM radiative_heating ss) as [h|e1] eqn:E1; cbn [bind].
2:{ intros [= <-]; revert E1; apply mapM_err_kind; intros s e' _; unfold radiative_heating.
    destruct (ro_installed _); [|discriminate]; destruct (key _) eqn:K; simpl; [discriminate|]; intros [= <-]; exact (key_err _ _ _ K). }
destruct (mapM radiative_cooling ss) as [c|e2] eqn:E2; cbn [bind].
2:{ intros [= <-]; revert E2; apply mapM_err_kind; intros s e' _; unfold radiative_cooling.
    destruct (ro_installed _); [|discriminate]; destruct (key _) eqn:K; simpl; [discriminate|]; intros [= <-]; exact (key_err _ _ _ K). }
repeat (match goal with |- context [mapM ?f ss] => destruct (mapM f ss) as [?|?] eqn:?E; cbn [bind] end;
  [|intros [= <-]; match goal with H : mapM _ ss = Err _ |- _ => revert H end; apply mapM_err_kind; intros s e' _ K; exact (key_err _ _ _ K)]).
discriminate.
Qed.

Lemma read_spaces_conv ws : Forall (fun w => is_conv (rr_cooling w)) ws -> exists cr, read_spaces (map make_space ws) = Ok cr.
Proof.
intro F; assert (G := proj1 (Forall_forall _ _) F); unfold read_spaces.
assert (In_ : forall s, In s (map make_space ws) -> exists w, s = make_space w /\ is_conv (rr_cooling w)).
{ intros s I; apply in_map_iff in I; destruct I as [w [<- I]]; exists w; split; [reflexivity|exact (G w I)]. }
destruct (mapM_total _ _ radiative_heating (map make_space ws)) as [h ->].
{ intros s I; destruct (In_ s I) as [w [-> _]]; unfold radiative_heating; simpl; destruct (rr_heating w); simpl; eauto. }
destruct (mapM_total _ _ radiative_cooling (map make_space ws)) as [c ->].
{ intros s I; destruct (In_ s I) as [w [-> C]]; unfold radiative_cooling; simpl; destruct (rr_cooling w); try contradiction; simpl; eauto. }
cbn [bind].
repeat (match goal with |- context [mapM ?f (map make_space ws)] => destruct (mapM_total _ _ f (map make_space ws)) as [? ->]; cbn [bind] end;
  [intros s I; destruct (In_ s I) as [w [-> C]]; simpl; destruct (rr_cooling w); try contradiction; simpl; eauto|]).
eauto.
Qed.

Lemma read_spaces_not ws w cr : In w ws -> read_spaces (map make_space ws) = Ok cr -> is_conv (rr_cooling w).
Proof.
intros I H; unfold read_spaces in H.
apply bind_ok in H; destruct H as [h [Hh H]]; apply bind_ok in H; destruct H as [c [Hc H]].
apply bind_ok in H; destruct H as [q [Hq H]].
assert (J : In (make_space w) (map make_space ws)) by (apply in_map; exact I).
apply In_nth_error in J; destruct J as [i J].
destruct (mapM_ok _ _ _ _ _ Hq) as [_ N]; destruct (N i _ J) as [y [Y _]]; simpl in Y.
destruct (rr_cooling w); simpl in *; [discriminate|exact Logic.I|discriminate].
Qed.

Lemma spaces_readable rooms ss : make_spaces_dict rooms = Ok ss ->
  ((exists cr, read_spaces ss = Ok cr) <-> forall r, In r rooms -> exists e, r_cooling r = Some e /\ e_type e = Some "convective"%string) /\
  (forall err, read_spaces ss = Err err -> err = KeyError).
Proof.
intro H; split; [|intro; apply read_spaces_err].
destruct (spaces_rows _ _ H) as (ws & -> & F & _); split.
- intros [cr C] r I; apply In_nth_error in I; destruct I as [i I]; destruct (forall2_nth _ _ _ _ _ _ _ F I) as [w [W M]].
  assert (Cv := read_spaces_not _ _ _ (nth_error_In _ _ W) C).
  destruct M as (_ & _ & _ & _ & _ & _ & _ & (e & E & K)); exists e; split; [exact E|].
  apply read_kind in K; destruct (rr_cooling w); simpl in Cv; try contradiction; apply K.
- intro A; apply read_spaces_conv; apply Forall_forall; intros w I.
  assert (B : forall w, In w ws -> exists r, In r rooms /\ matches (List.length rooms) r w).
  { clear - F; revert F; generalize (List.length rooms); intros n F; induction F as [|r w rs ws M F IH]; intros u [].
    - subst u; exists r; split; [left; reflexivity|exact M].
    - destruct (IH u H) as [r' [J K]]; exists r'; split; [right; exact J|exact K]. }
  destruct (B w I) as [r [J (_ & _ & _ & _ & _ & _ & _ & (e & E & K))]]; destruct (A r J) as [e' [E' T]].
  rewrite E in E'; injection E' as <-; apply read_kind in K; destruct (rr_cooling w); [congruence|exact Logic.I|destruct K; congruence].
Qed.

Lemma spaces_values rooms ss cr : make_spaces_dict rooms = Ok ss -> read_spaces ss = Ok cr -> forall i r, nth_error rooms i = Some r ->
  exists w, matches (List.length rooms) r w /\ rr_id w = Z.of_nat i /\
  nth_error (cr_id cr) i = Some (rr_id w) /\ nth_error (cr_name cr) i = Some (rr_name w) /\ nth_error (cr_volume cr) i = Some (rr_volume w) /\
  nth_error (cr_v_vent_ex cr) i = Some (rr_vent w / 3600) /\ nth_error (cr_v_int_vent cr) i = Some (rr_paths w) /\
  nth_error (cr_v_ntrl cr) i = Some (rr_volume w * rr_natural w / 3600) /\
  nth_error (cr_is_radiative_cooling cr) i = Some false /\ nth_error (cr_lr_c_max cr) i = Some 0 /\
  (match rr_heating w with
   | RadSpec m a => nth_error (cr_is_radiative_heating cr) i = Some true /\ nth_error (cr_lr_h_max cr) i = Some (m * a)
   | _ => nth_error (cr_is_radiative_heating cr) i = Some false /\ nth_error (cr_lr_h_max cr) i = Some 0
   end) /\
  (match rr_cooling w with
   | ConvSpec a b u v => nth_error (cr_q_min cr) i = Some a /\ nth_error (cr_q_max cr) i = Some b /\
                         nth_error (cr_v_min cr) i = Some u /\ nth_error (cr_v_max cr) i = Some v
   | _ => False
   end).
Proof.
intros H C i r E; destruct (spaces_row _ _ H) as [_ N]; destruct (N i r E) as (s & w & S & -> & M & Id).
exists w; split; [exact M|split; [exact Id|]].
unfold read_spaces in C.
apply bind_ok in C; destruct C as [h [Hh C]]; apply bind_ok in C; destruct C as [c [Hc C]].
apply bind_ok in C; destruct C as [q1 [H1 C]]; apply bind_ok in C; destruct C as [q2 [H2 C]].
apply bind_ok in C; destruct C as [v1 [H3 C]]; apply bind_ok in C; destruct C as [v2 [H4 C]]; injection C as <-; cbn.
destruct (mapM_ok _ _ _ _ _ Hh) as [_ Nh]; destruct (Nh i _ S) as [yh [Yh Ih]].
destruct (mapM_ok _ _ _ _ _ Hc) as [_ Nc]; destruct (Nc i _ S) as [yc [Yc Ic]].
destruct (mapM_ok _ _ _ _ _ H1) as [_ N1]; destruct (N1 i _ S) as [y1 [Y1 I1]].
destruct (mapM_ok _ _ _ _ _ H2) as [_ N2]; destruct (N2 i _ S) as [y2 [Y2 I2]].
destruct (mapM_ok _ _ _ _ _ H3) as [_ N3]; destruct (N3 i _ S) as [y3 [Y3 I3]].
destruct (mapM_ok _ _ _ _ _ H4) as [_ N4]; destruct (N4 i _ S) as [y4 [Y4 I4]].
rewrite !nth_error_map, S, Ih, Ic, I1, I2, I3, I4; cbn.
do 6 (split; [reflexivity|]).
unfold radiative_heating, radiative_cooling in Yh, Yc; cbn in Yh, Yc, Y1, Y2, Y3, Y4.
destruct (rr_cooling w); cbn in *; try discriminate.
injection Yc as <-; injection Y1 as <-; injection Y2 as <-; injection Y3 as <-; injection Y4 as <-; cbn.
split; [reflexivity|split; [reflexivity|]]; split; [|auto].
destruct (rr_heating w); cbn in Yh; injection Yh as <-; cbn; auto.
Qed.
