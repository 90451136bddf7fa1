(* Lemmas about the boundaries that the initializer writes (Model/Initializer.v, Model/ReadHouse.v). *)
From Coq Require Import Reals List String ZArith Lra Lia Bool FinFun.
From Verif Require Import Model.Py Model.Trig Model.BoundaryDict Model.BoundarySimple Model.SolarShading Model.ResponseFactor Model.HouseDict Model.Initializer Model.ReadHouse Model.FactorH.
From Verif Require Import Spec.HouseSpec Lemmas.PyL Lemmas.CoreLoopL Lemmas.VentL Lemmas.RoomsL.
Import ListNotations.
Local Open Scope R_scope.

(* masks *)
Lemma put_length A (l : list A) m v : List.length (put l m v) = List.length l.
Proof. revert m v; induction l as [|x l IH]; intros [|[] m] [|y v]; simpl; auto. Qed.

Lemma select_put A (l : list A) m v : List.length l = List.length m -> List.length v = List.length (select m l) -> select m (put l m v) = v.
Proof.
revert m v; induction l as [|x l IH]; intros [|[] m] v; simpl; try discriminate.
- intros _ H; destruct v; [reflexivity|discriminate].
- intros Lm Lv; destruct v as [|y v]; [discriminate|]; simpl; f_equal; apply IH; simpl in Lv; lia.
- intros Lm Lv; destruct v as [|y v]; simpl; apply IH; simpl in *; lia.
Qed.

Lemma select_put_other A (l : list A) m1 m2 v : Forall2 (fun a b => a = true -> b = false) m1 m2 -> select m2 (put l m1 v) = select m2 l.
Proof.
intro F; revert l v; induction F as [|a b m1 m2 H F IH]; intros [|x l] v; try reflexivity.
destruct a; simpl.
- rewrite (H eq_refl); destruct v; simpl; [reflexivity|apply IH].
- destruct v, b; simpl; rewrite IH; reflexivity.
Qed.

Lemma select_filter A B (P : A -> bool) (f : A -> B) l : select (map P l) (map f l) = map f (filter P l).
Proof. induction l as [|a l IH]; simpl; [reflexivity|]; destruct (P a); simpl; rewrite IH; reflexivity. Qed.

Lemma select_length A B (m : list bool) (a : list A) (b : list B) : List.length a = List.length b -> List.length (select m a) = List.length (select m b).
Proof.
revert a b; induction m as [|[] m IH]; intros [|x a] [|y b]; simpl; try discriminate; auto.
Qed.

Lemma select_map A B (f : A -> B) m l : select m (map f l) = map f (select m l).
Proof. revert l; induction m as [|[] m IH]; intros [|x l]; simpl; auto; f_equal; auto. Qed.

(* per room *)
Section Per_room.
Variable bss : list bsimple.
Variable f : Z -> list R -> list bool -> res (list (option R)).
Let mask i := map (fun bs => (bs_connected_room_id bs =? i)%Z) bss.
Hypothesis size : forall i a fl v, f i a fl = Ok v -> List.length a = List.length fl -> List.length v = List.length a.

Lemma masks_apart i j : i <> j -> Forall2 (fun a b => a = true -> b = false) (mask i) (mask j).
Proof.
intro N; unfold mask; induction bss as [|b l IH]; simpl; constructor; [|exact IH].
intro E; apply Z.eqb_eq in E; apply Z.eqb_neq; congruence.
Qed.

Lemma per_room_fold rs : forall acc out, NoDup rs -> List.length acc = List.length bss ->
  foldM (fun acc i => bind (f i (map bs_area (select (mask i) bss)) (map bs_is_floor (select (mask i) bss))) (fun vals => Ok (put acc (mask i) vals))) rs acc = Ok out ->
  List.length out = List.length bss /\
  (forall i, In i rs -> exists vals, f i (map bs_area (select (mask i) bss)) (map bs_is_floor (select (mask i) bss)) = Ok vals /\ select (mask i) out = vals) /\
  (forall i, ~ In i rs -> select (mask i) out = select (mask i) acc).
Proof.
induction rs as [|r rs IH]; intros acc out ND La H; simpl in H.
- injection H as <-; split; [exact La|split; [intros i []|auto]].
- apply bind_ok in H; destruct H as [acc' [E H]]; apply bind_ok in E; destruct E as [vals [V E]]; injection E as <-.
  inversion ND as [|? ? N ND2]; subst.
  assert (La' : List.length (put acc (mask r) vals) = List.length bss) by (rewrite put_length; exact La).
  destruct (IH _ _ ND2 La' H) as [L [I J]]; split; [exact L|]; split.
  + intros i [<-|K]; [|exact (I i K)].
    exists vals; split; [exact V|]; rewrite (J r N); apply select_put.
    * unfold mask; rewrite map_length; exact La.
    * assert (S := size _ _ _ _ V); rewrite !map_length in S; rewrite (S eq_refl); apply select_length; symmetry; exact La.
  + intros i K; rewrite J by (intro X; apply K; right; exact X); apply select_put_other, masks_apart; intros ->; apply K; left; reflexivity.
Qed.

Lemma per_room_ok n out : per_room bss (range 0 n) f = Ok out ->
  List.length out = List.length bss /\
  forall i, (0 <= i < n)%Z -> let l := filter (fun bs => (bs_connected_room_id bs =? i)%Z) bss in
  f i (map bs_area l) (map bs_is_floor l) = Ok (select (mask i) out).
Proof.
intro H; unfold per_room in H.
assert (ND : NoDup (range 0 n)).
{ unfold range; apply Injective_map_NoDup; [intros a b; lia|apply seq_NoDup]. }
destruct (per_room_fold (range 0 n) _ _ ND (repeat_length _ _) H) as [L [I _]]; split; [exact L|].
intros i Hi l; destruct (I i) as [vals [V S]]; [apply in_range; lia|].
assert (E : select (mask i) bss = l).
{ unfold l, mask; rewrite <- (map_id (filter _ bss)), <- select_filter, map_id; reflexivity. }
rewrite E in V; rewrite S; exact V.
Qed.
End Per_room.

Lemma py_get_nat A (l : list A) j : (j < List.length l)%nat -> py_get l (Z.of_nat j) = of_option IndexError (nth_error l j).
Proof. intro L; unfold py_get; rewrite py_index_in by lia; simpl; rewrite Nat2Z.id; reflexivity. Qed.

Lemma py_get_ok A (l : list A) j x : py_get l (Z.of_nat j) = Ok x -> nth_error l j = Some x.
Proof.
unfold py_get; intro H; apply bind_ok in H; destruct H as [k [K H]]; destruct (py_index_nat _ _ _ K) as [_ [E|E]]; [|apply py_index_nat in K; lia].
replace j with k by lia; destruct (nth_error l k); simpl in H; congruence.
Qed.

Lemma mrt_size i a fl v : (fun (_ : Z) a fl => get_f_mrt_hum_is a fl) i a fl = Ok v -> List.length a = List.length fl -> List.length v = List.length a.
Proof.
unfold get_f_mrt_hum_is; destruct (_ =? 0)%nat; [discriminate|]; intros [= <-] _; rewrite !put_length; apply repeat_length.
Qed.

Lemma flr_size rad i a fl v : bind (py_get rad i) (fun r => get_flr_i_js a r fl) = Ok v -> List.length a = List.length fl -> List.length v = List.length a.
Proof.
intros H L; apply bind_ok in H; destruct H as [r [_ H]]; revert H; unfold get_flr_i_js; destruct (_ =? 0)%nat; [discriminate|].
intros [= <-]; rewrite map_length, combine_length; lia.
Qed.

(* one entry *)
Definition entry_of (bs : bsimple) (k : option (Z * R)) (s : spec) (fl fm : option R) : bdry :=
  {| bd_id := bs_id bs; bd_name := bs_name bs; bd_is_ground := match bs_type bs with Ground => "true" | _ => "false" end%string;
     bd_connected_space_id := bs_connected_room_id bs; bd_area := bs_area bs; bd_h_i := bs_h_i bs; bd_h_c := bs_h_c bs;
     bd_flr := fl; bd_is_solar_absorbed := bool_string (bs_is_solar_absorbed_inside bs); bd_f_mrt_hum := fm;
     bd_k_outside := bs_h_td bs; bd_k_inside := k; bd_spec := s |}.

Lemma boundaries_ok round1 bss rooms bds out : make_boundaries round1 bss rooms bds = Ok out ->
  exists f_mrt rad flr, let n := Z.of_nat (List.length rooms) in
  per_room bss (range 0 n) (fun _ a fl => get_f_mrt_hum_is a fl) = Ok f_mrt /\
  mapM is_radiative rooms = Ok rad /\
  per_room bss (range 0 n) (fun i a fl => bind (py_get rad i) (fun r => get_flr_i_js a r fl)) = Ok flr /\
  List.length out = List.length bss /\
  forall j bs, nth_error bss j = Some bs -> exists k b s fl fm,
    k_inside round1 bs = Ok k /\ nth_error bds j = Some b /\ get_boundary_spec b (bs_type bs) = Ok s /\
    nth_error flr j = Some fl /\ nth_error f_mrt j = Some fm /\ nth_error out j = Some (entry_of bs k s fl fm).
Proof.
unfold make_boundaries; intro H.
apply bind_ok in H; destruct H as [k_ei [K H]]; apply bind_ok in H; destruct H as [f_mrt [M H]].
apply bind_ok in H; destruct H as [rad [Rd H]]; apply bind_ok in H; destruct H as [flr [Fl H]].
apply bind_ok in H; destruct H as [specs [S H]].
exists f_mrt, rad, flr; split; [exact M|split; [exact Rd|split; [exact Fl|]]].
destruct (mapM_ok _ _ _ _ _ H) as [L N]; rewrite length_range in L; split; [lia|].
intros j bs E.
assert (Lj : (j < List.length bss)%nat) by (apply nth_error_Some; congruence).
assert (Rj : nth_error (range 0 (Z.of_nat (List.length bss))) j = Some (0 + Z.of_nat j)%Z) by (apply nth_range; lia).
destruct (N j _ Rj) as [d [D O]]; rewrite Z.add_0_l in D.
apply bind_ok in D; destruct D as [bs' [B D]]; apply py_get_ok in B; rewrite E in B; injection B as <-.
apply bind_ok in D; destruct D as [fl [F1 D]]; apply py_get_ok in F1; apply bind_ok in D; destruct D as [fm [F2 D]]; apply py_get_ok in F2.
apply bind_ok in D; destruct D as [k [F3 D]]; apply py_get_ok in F3; apply bind_ok in D; destruct D as [s [F4 D]]; apply py_get_ok in F4.
injection D as <-.
destruct (mapM_ok _ _ _ _ _ K) as [_ NK]; destruct (NK j bs E) as [k' [K1 K2]]; rewrite F3 in K2; injection K2 as <-.
destruct (mapM_ok _ _ _ _ _ S) as [LS NS].
destruct (nth_error (combine bds bss) j) as [[b bs']|] eqn:C.
2:{ apply nth_error_None in C; rewrite <- LS in C; apply nth_error_None in C; congruence. }
destruct (NS j _ C) as [s' [S1 S2]]; rewrite F4 in S2; injection S2 as <-; cbn in S1.
assert (Cb : nth_error bds j = Some b /\ bs' = bs).
{ clear - C E; revert bds bss C E; induction j as [|j IH]; intros [|b0 bds] [|c bss]; simpl; try discriminate; [intros [= <- <-] [= <-]; auto|apply IH]. }
destruct Cb as [Cb ->]; exists k, b, s, fl, fm; auto 10.
Qed.

Lemma boundaries_columns round1 bss rooms bds out f_mrt flr :
  List.length out = List.length bss -> List.length f_mrt = List.length bss -> List.length flr = List.length bss ->
  (forall j bs, nth_error bss j = Some bs -> exists k b s fl fm,
    k_inside round1 bs = Ok k /\ nth_error bds j = Some b /\ get_boundary_spec b (bs_type bs) = Ok s /\
    nth_error flr j = Some fl /\ nth_error f_mrt j = Some fm /\ nth_error out j = Some (entry_of bs k s fl fm)) ->
  map bd_f_mrt_hum out = f_mrt /\ map bd_flr out = flr /\ map bd_connected_space_id out = map bs_connected_room_id bss /\ (rooms = rooms :> list room_in).
Proof.
intros L1 L2 L3 H.
assert (G : forall A B (f : bdry -> B) (g : A -> B) (l : list A), List.length l = List.length bss ->
  (forall j bs d, nth_error bss j = Some bs -> nth_error out j = Some d -> exists a, nth_error l j = Some a /\ g a = f d) -> map f out = map g l).
{ intros A B f g l Ll P; apply nth_error_ext; [rewrite !map_length; lia|]; intros j _; rewrite !nth_error_map.
  destruct (nth_error bss j) as [bs|] eqn:E.
  - destruct (H j bs E) as (k & b & s & fl & fm & _ & _ & _ & _ & _ & O); destruct (P j bs _ E O) as [a [-> Ga]]; rewrite O; simpl; congruence.
  - apply nth_error_None in E.
    assert (nth_error out j = None) as -> by (apply nth_error_None; lia); assert (nth_error l j = None) as -> by (apply nth_error_None; lia); reflexivity. }
split; [|split; [|split; [|reflexivity]]].
- rewrite <- (map_id f_mrt); apply G; [exact L2|]; intros j bs d E O; destruct (H j bs E) as (k & b & s & fl & fm & _ & _ & _ & _ & F & O').
  rewrite O in O'; injection O' as ->; exists fm; auto.
- rewrite <- (map_id flr); apply G; [exact L3|]; intros j bs d E O; destruct (H j bs E) as (k & b & s & fl & fm & _ & _ & _ & F & _ & O').
  rewrite O in O'; injection O' as ->; exists fl; auto.
- apply G; [reflexivity|]; intros j bs d E O; destruct (H j bs E) as (k & b & s & fl & fm & _ & _ & _ & F & _ & O').
  rewrite O in O'; injection O' as ->; exists bs; auto.
Qed.

(* shares *)
Lemma put_put (g1 g2 : R -> option R) a : forall fl z, List.length a = List.length fl -> List.length z = List.length a ->
  put (put z fl (map g1 (select fl a))) (map negb fl) (map g2 (select (map negb fl) a)) =
  map (fun p : R * bool => if snd p then g1 (fst p) else g2 (fst p)) (combine a fl).
Proof.
induction a as [|x a IH]; intros [|b fl] [|y z]; simpl; try discriminate; [reflexivity|].
intros L1 L2; destruct b; simpl.
- f_equal; apply IH; lia.
- destruct (select fl a) eqn:E; simpl.
  + f_equal; rewrite <- IH with (z := z) by lia; rewrite E; reflexivity.
  + f_equal; rewrite <- IH with (z := z) by lia; rewrite E; reflexivity.
Qed.

Lemma adds_up_unique l x y : adds_up_to l x -> adds_up_to l y -> x = y.
Proof.
revert x y; induction l as [|[a|] l IH]; simpl; intros x y; [congruence| |contradiction].
intros [u [U ->]] [v [V ->]]; rewrite (IH u v U V); reflexivity.
Qed.

Lemma div_ok a b : b <> 0 -> div a b = Some (a / b).
Proof. intro N; unfold div; destruct (Req_EM_T b 0); [contradiction|reflexivity]. Qed.

Lemma share_sum (F O : R) (A B : R) (l : list (R * bool)) : F <> 0 \/ (forall p, In p l -> snd p = false) -> O <> 0 \/ (forall p, In p l -> snd p = true) ->
  adds_up_to (map (fun p : R * bool => if snd p then times (div (fst p) F) A else times (div (fst p) O) B) l)
    (total (map fst (filter snd l)) / F * A + total (map fst (filter (fun p => negb (snd p)) l)) / O * B).
Proof.
induction l as [|[a []] l IH]; intros HF HO; cbn [map filter snd fst negb].
- simpl; unfold total; simpl; unfold Rdiv; ring.
- destruct HF as [HF|HF]; [|specialize (HF _ (or_introl eq_refl)); discriminate].
  rewrite (div_ok a F HF); cbn [times obind adds_up_to].
  eexists; split; [apply IH; [left; exact HF|destruct HO; [auto|right; intros p I; apply H; right; exact I]]|].
  unfold total; simpl; unfold Rdiv; ring.
- destruct HO as [HO|HO]; [|specialize (HO _ (or_introl eq_refl)); discriminate].
  rewrite (div_ok a O HO); cbn [times obind adds_up_to].
  eexists; split; [apply IH; [destruct HF; [auto|right; intros p I; apply H; right; exact I]|left; exact HO]|].
  unfold total; simpl; unfold Rdiv; ring.
Qed.

Lemma combine_parts (l : list bsimple) (P : bool -> bool) :
  map fst (filter (fun p : R * bool => P (snd p)) (combine (map bs_area l) (map bs_is_floor l))) = map bs_area (filter (fun bs => P (bs_is_floor bs)) l).
Proof. induction l as [|b l IH]; simpl; [reflexivity|]; destruct (P (bs_is_floor b)); simpl; rewrite IH; reflexivity. Qed.

Lemma sum_total l : sum l = total l.
Proof. reflexivity. Qed.


Lemma mrt_values l v : get_f_mrt_hum_is (map bs_area l) (map bs_is_floor l) = Ok v ->
  v = map (fun bs => if bs_is_floor bs then times (div (bs_area bs) (floor_area l)) (45 / 100) else times (div (bs_area bs) (other_area l)) (1 - 45 / 100)) l.
Proof.
unfold get_f_mrt_hum_is; destruct (_ =? 0)%nat; [discriminate|]; intros [= <-].
rewrite put_put by (rewrite ?repeat_length, !map_length; reflexivity).
rewrite map_map, !select_filter.
change (sum (map bs_area (filter bs_is_floor l))) with (floor_area l).
change (sum (map bs_area (filter (fun x => negb (bs_is_floor x)) l))) with (other_area l).
generalize (floor_area l) (other_area l); intros F O; induction l as [|b l IH]; simpl; [reflexivity|]; rewrite IH; reflexivity.
Qed.

Lemma mrt_sum l v : get_f_mrt_hum_is (map bs_area l) (map bs_is_floor l) = Ok v ->
  floor_area l <> 0 \/ (forall bs, In bs l -> bs_is_floor bs = false) -> other_area l <> 0 \/ (forall bs, In bs l -> bs_is_floor bs = true) ->
  adds_up_to v (floor_area l / floor_area l * (45 / 100) + other_area l / other_area l * (55 / 100)).
Proof.
intros E HF HO; rewrite (mrt_values _ _ E).
assert (X := share_sum (floor_area l) (other_area l) (45 / 100) (1 - 45 / 100) (combine (map bs_area l) (map bs_is_floor l))).
assert (In_ : forall p, In p (combine (map bs_area l) (map bs_is_floor l)) -> exists bs, In bs l /\ snd p = bs_is_floor bs).
{ clear; induction l as [|b l IH]; simpl; intros p []; [exists b; subst p; auto|destruct (IH p H) as [bs [A B]]; eauto]. }
assert (Y := combine_parts l (fun b => b)); assert (Z := combine_parts l negb); cbn in Y, Z.
replace (filter snd (combine (map bs_area l) (map bs_is_floor l))) with (filter (fun p : R * bool => snd p) (combine (map bs_area l) (map bs_is_floor l))) in X by reflexivity.
rewrite Y, Z in X; replace (55 / 100) with (1 - 45 / 100) by lra; fold (floor_area l) (other_area l) in X.
replace (filter (fun bs => bs_is_floor bs) l) with (filter bs_is_floor l) in X by reflexivity; fold (floor_area l) in X.
replace (map _ l) with (map (fun p : R * bool => if snd p then times (div (fst p) (floor_area l)) (45 / 100) else times (div (fst p) (other_area l)) (1 - 45 / 100)) (combine (map bs_area l) (map bs_is_floor l))).
- apply X.
  + destruct HF as [HF|HF]; [left; exact HF|right; intros p I; destruct (In_ p I) as [bs [A ->]]; exact (HF bs A)].
  + destruct HO as [HO|HO]; [left; exact HO|right; intros p I; destruct (In_ p I) as [bs [A ->]]; exact (HO bs A)].
- generalize (floor_area l) (other_area l); clear; intros F O; induction l as [|b l IH]; simpl; [reflexivity|]; rewrite IH; reflexivity.
Qed.

Lemma flr_values l r v : get_flr_i_js (map bs_area l) r (map bs_is_floor l) = Ok v ->
  v = map (fun bs => times (times (div (bs_area bs) (floor_area l)) (if r then 1 else 0)) (if bs_is_floor bs then 1 else 0)) l.
Proof.
unfold get_flr_i_js; destruct (_ =? 0)%nat; [discriminate|]; intros [= <-]; rewrite !select_filter; change (sum (map bs_area (filter bs_is_floor l))) with (floor_area l).
generalize (floor_area l); intro F; induction l as [|b l IH]; simpl; [reflexivity|]; rewrite IH; reflexivity.
Qed.

Lemma flr_sum l (r : bool) v : get_flr_i_js (map bs_area l) r (map bs_is_floor l) = Ok v -> floor_area l <> 0 -> adds_up_to v (if r then 1 else 0).
Proof.
intros E N; rewrite (flr_values _ _ _ E).
assert (X : forall F m, F <> 0 ->
  adds_up_to (map (fun bs => times (times (div (bs_area bs) F) (if r then 1 else 0)) (if bs_is_floor bs then 1 else 0)) m) (floor_area m / F * (if r then 1 else 0))).
{ intros F m NF; induction m as [|b m IH]; [simpl; unfold floor_area, total; simpl; unfold Rdiv; ring|].
  cbn [map]; rewrite (div_ok (bs_area b) F NF); cbn [times obind adds_up_to].
  eexists; split; [exact IH|]; unfold floor_area, total; simpl; destruct (bs_is_floor b), r; simpl; field; exact NF. }
specialize (X _ l N); replace (floor_area l / floor_area l) with 1 in X by (field; exact N); rewrite Rmult_1_l in X; exact X.
Qed.

Lemma flr_no_floor l r v : get_flr_i_js (map bs_area l) r (map bs_is_floor l) = Ok v -> floor_area l = 0 -> forall x, In x v -> x = None.
Proof.
intros E Z x I; rewrite (flr_values _ _ _ E) in I; apply in_map_iff in I; destruct I as [b [<- _]].
unfold div; rewrite Z; destruct (Req_EM_T 0 0); [reflexivity|lra].
Qed.


Lemma select_of_room B (f : bdry -> B) i out bss : map bd_connected_space_id out = map bs_connected_room_id bss ->
  select (map (fun bs => (bs_connected_room_id bs =? i)%Z) bss) (map f out) = map f (of_room i out).
Proof.
intro E; unfold of_room; rewrite <- select_filter.
replace (map (fun bs => (bs_connected_room_id bs =? i)%Z) bss) with (map (fun k => (k =? i)%Z) (map bs_connected_room_id bss)) by (rewrite map_map; reflexivity).
rewrite <- E, map_map; reflexivity.
Qed.

Lemma written_shares round1 bss rooms bds out i : make_boundaries round1 bss rooms bds = Ok out -> (0 <= i < Z.of_nat (List.length rooms))%Z ->
  get_f_mrt_hum_is (map bs_area (parts i bss)) (map bs_is_floor (parts i bss)) = Ok (map bd_f_mrt_hum (of_room i out)) /\
  exists rad r, mapM is_radiative rooms = Ok rad /\ nth_error rad (Z.to_nat i) = Some r /\
  get_flr_i_js (map bs_area (parts i bss)) r (map bs_is_floor (parts i bss)) = Ok (map bd_flr (of_room i out)).
Proof.
intros H Hi; destruct (boundaries_ok _ _ _ _ _ H) as (f_mrt & rad & flr & M & Rd & Fl & L & E).
destruct (per_room_ok _ _ mrt_size _ _ M) as [L1 P1]; destruct (per_room_ok _ _ (flr_size rad) _ _ Fl) as [L2 P2].
destruct (boundaries_columns round1 bss rooms bds out f_mrt flr L L1 L2 E) as (C1 & C2 & C3 & _).
specialize (P1 i Hi); specialize (P2 i Hi); cbn zeta in P1, P2.
rewrite <- C1, (select_of_room _ _ _ _ _ C3) in P1; rewrite <- C2, (select_of_room _ _ _ _ _ C3) in P2.
split; [exact P1|]; apply bind_ok in P2; destruct P2 as [r [G P2]]; exists rad, r; split; [exact Rd|split; [|exact P2]].
rewrite <- (Z2Nat.id i) in G by lia; exact (py_get_ok _ _ _ _ G).
Qed.
