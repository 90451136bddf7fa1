(* Tables by orientation. *)
From Coq Require Import Reals ZArith List String Bool Lra Lia.
From Verif Require Import Model.Py Model.FactorH Model.FactorNu Model.Trig Model.Inclined Model.Orientation Spec.OrientationSpec Lemmas.WindowEtaL.
Import ListNotations.
Local Open Scope R_scope.

Lemma angles_agree d name : capital d = Some name ->
  exists a i w_alpha w_beta, get_directionangle name = Ok a /\ get_inclinationangle name = Ok (Some i) /\
    get_w_alpha_j_w_beta_j (direction_value d) = Ok (w_alpha, w_beta) /\ radians i = w_beta /\
    (a = None <-> ~ upright d) /\ forall x, a = Some x -> radians x = w_alpha.
Proof.
destruct d; simpl; intro E; try discriminate E; injection E as <-; do 4 eexists; do 3 (split; [reflexivity|]); (split; [reflexivity|]);
(split; [split; [try discriminate; try (intros _ (A & B); (apply A; reflexivity) || (apply B; reflexivity))|intro H; try reflexivity; exfalso; apply H; split; discriminate]
        |intros x X; try discriminate X; injection X as <-; reflexivity]).
Qed.

Lemma factor_error region row er : (if (region <=? 0)%Z then Err KeyError else match nth_error row (Z.to_nat (region - 1)) with Some z => Ok (IZR z / 100) | None => Err KeyError end) = Err er -> er = KeyError.
Proof. destruct (region <=? 0)%Z; [congruence|destruct (nth_error _ _); congruence]. Qed.

Lemma region_cases (region : Z) : ((1 <= region <= 3) \/ (4 <= region <= 8) \/ region <= 0 \/ 9 <= region)%Z.
Proof. lia. Qed.

Lemma factor_agree place n region :
  (exists d, capital d = Some place) /\ n = OUTDOOR \/ place_name n = Some place -> get_tempdifferentfactor region place = get_h n region.
Proof.
assert (HIGH : forall row : list Z, List.length row = 8%nat -> (9 <= region)%Z -> nth_error row (Z.to_nat (region - 1)) = None)
  by (intros row L H; apply nth_error_None; rewrite L; lia).
assert (K : forall row h, List.length row = 8%nat ->
  (forall k, (k < 8)%nat -> exists z, nth_error row k = Some z /\ IZR z / 100 = h (Z.of_nat k + 1)%Z) ->
  (if (region <=? 0)%Z then Err KeyError else match nth_error row (Z.to_nat (region - 1)) with Some z => Ok (IZR z / 100) | None => Err KeyError end) =
  bind (by_region region) (fun _ => Ok (h region))).
{ intros row h L T; unfold by_region; destruct (Z.leb_spec region 0) as [Q|Q].
  - destruct (Z.leb_spec 1 region); [lia|]; destruct (Z.leb_spec 4 region); [lia|]; reflexivity.
  - destruct (Z.leb_spec 9 region) as [W|W].
    + rewrite HIGH by assumption; destruct (Z.leb_spec region 3); [lia|]; destruct (Z.leb_spec region 8); [lia|]; rewrite !andb_false_r; reflexivity.
    + destruct (T (Z.to_nat (region - 1)) ltac:(lia)) as (z & N & V); rewrite N, V, Z2Nat.id by lia; replace (region - 1 + 1)%Z with region by lia.
      destruct (Z.leb_spec 1 region); [|lia]; destruct (Z.leb_spec region 3); simpl; [reflexivity|].
      destruct (Z.leb_spec 4 region); [|lia]; destruct (Z.leb_spec region 8); [|lia]; reflexivity. }
assert (B : forall (f : R -> R), (forall region, bind (by_region region) (fun h => Ok (f h)) =
   bind (by_region region) (fun _ => Ok (f (if (region <=? 3)%Z then 5 / 100 else 15 / 100))))).
{ intros f r; unfold by_region; destruct (Z.leb_spec 1 r), (Z.leb_spec r 3); simpl; try reflexivity;
  destruct ((4 <=? r)%Z && (r <=? 8)%Z) eqn:E; simpl; try reflexivity; apply andb_true_iff in E; destruct E as (E1 & E2); apply Z.leb_le in E1, E2; lia. }
unfold get_h.
intros [((d & D) & ->)|P].
- assert (E : get_tempdifferentfactor region place = (if (region <=? 0)%Z then Err KeyError else match nth_error [100; 100; 100; 100; 100; 100; 100; 100]%Z (Z.to_nat (region - 1)) with Some z => Ok (IZR z / 100) | None => Err KeyError end))
    by (destruct d; simpl in D; try discriminate D; injection D as <-; reflexivity).
  rewrite E; apply (K _ (fun _ => 1)); [reflexivity|]; intros k L; do 8 (destruct k; [eexists; split; [reflexivity|lra]|]); lia.
- destruct n; simpl in P; try discriminate P; injection P as <-.
  + apply (K [70; 70; 70; 70; 70; 70; 70; 70]%Z (fun _ => 7 / 10)); [reflexivity|]; intros k L; do 8 (destruct k; [eexists; split; [reflexivity|lra]|]); lia.
  + rewrite (B (fun h => h)); apply (K [5; 5; 5; 15; 15; 15; 15; 15]%Z (fun r => if (r <=? 3)%Z then 5 / 100 else 15 / 100)); [reflexivity|];
    intros k L; do 8 (destruct k; [eexists; split; [reflexivity|simpl; lra]|]); lia.
  + apply (K [70; 70; 70; 70; 70; 70; 70; 70]%Z (fun _ => 7 / 10)); [reflexivity|]; intros k L; do 8 (destruct k; [eexists; split; [reflexivity|lra]|]); lia.
  + rewrite (B (fun h => h)); apply (K [5; 5; 5; 15; 15; 15; 15; 15]%Z (fun r => if (r <=? 3)%Z then 5 / 100 else 15 / 100)); [reflexivity|];
    intros k L; do 8 (destruct k; [eexists; split; [reflexivity|simpl; lra]|]); lia.
Qed.

(* what is written for a part of the envelope *)
Lemma skin_outdoor region d name : (1 <= region <= 8)%Z -> capital d = Some name ->
  exists a i, get_directionangle name = Ok a /\ get_inclinationangle name = Ok (Some i) /\
    get_boundary_for_outer_skin region "Outdoor" name = Ok (SkinOutdoor name a (Some i) (1 / 10)).
Proof.
intros R C; assert (H : exists h, get_tempdifferentfactor region name = Ok h).
{ rewrite (factor_agree name OUTDOOR region) by (left; split; [exists d; exact C|reflexivity]); unfold get_h, by_region.
  destruct (Z.leb_spec 1 region); [|lia]; destruct (Z.leb_spec region 3); simpl; [eexists; reflexivity|].
  destruct (Z.leb_spec 4 region); [|lia]; destruct (Z.leb_spec region 8); [|lia]; simpl; eexists; reflexivity. }
destruct H as (h & H); unfold get_boundary_for_outer_skin; simpl ((_ =? _)%string); cbv iota zeta.
destruct d; simpl in C; try discriminate C; injection C as <-; do 2 eexists; do 2 (split; [reflexivity|]); rewrite H; reflexivity.
Qed.

Lemma skin_space region n name face : place_name n = Some name ->
  get_boundary_for_outer_skin region name face = bind (get_h n region) (fun h => Ok (SkinDelta face h)).
Proof.
intro P; rewrite <- (factor_agree name n region) by (right; exact P); unfold get_boundary_for_outer_skin.
destruct n; simpl in P; try discriminate P; injection P as <-; simpl ((_ =? _)%string); cbv iota zeta; simpl (get_directionangle _); simpl (get_inclinationangle _); simpl (skin_type _); reflexivity.
Qed.

Lemma skin_region region next face : ~ (1 <= region <= 8)%Z -> exists er, get_boundary_for_outer_skin region next face = Err er /\ er = KeyError.
Proof.
intro R; exists KeyError; split; [|reflexivity].
assert (KE : forall A k (d : list (string * A)), (exists v, entry k d = Ok v) \/ entry k d = Err KeyError)
  by (intros A k d; unfold entry; destruct (find _ d); [left; eexists; reflexivity|right; reflexivity]).
unfold get_boundary_for_outer_skin, get_directionangle, get_inclinationangle, get_tempdifferentfactor; set (p := if (next =? "Outdoor")%string then face else next).
destruct (KE _ p [("Top", None); ("N", Some 180); ("NE", Some (-135)); ("E", Some (-90)); ("SE", Some (-45)); ("S", Some 0);
           ("SW", Some 45); ("W", Some 90); ("NW", Some 135); ("Bottom", None); ("ClosedSpace", None);
           ("OpenBackFloor", None); ("ResidenceSpace", None); ("ClosedBackFloor", None)]%string) as [(v & ->)| ->]; [|reflexivity]; simpl bind.
match goal with |- bind ?e _ = _ => destruct (KE _ p [("Top", Some 0); ("N", Some 90); ("NE", Some 90); ("E", Some 90); ("SE", Some 90); ("S", Some 90);
           ("SW", Some 90); ("W", Some 90); ("NW", Some 90); ("Bottom", Some 180); ("ClosedSpace", None);
           ("OpenBackFloor", None); ("ResidenceSpace", None); ("ClosedBackFloor", None)]%string) as [(w & ->)| ->] end; [|reflexivity]; simpl bind.
destruct (entry p _) as [nx|er] eqn:NX; simpl bind.
2: { unfold entry in NX; destruct (find _ _); [discriminate NX|injection NX as <-; reflexivity]. }
unfold factor_row; destruct (entry nx _) as [row|er] eqn:ROW; simpl bind.
2: { unfold entry in ROW; destruct (find _ _); [discriminate ROW|injection ROW as <-; reflexivity]. }
destruct (Z.leb_spec region 0) as [Q|Q]; [reflexivity|].
assert (L : List.length row = 8%nat) by (apply entry_in in ROW; simpl in ROW; repeat (destruct ROW as [ROW|ROW]; [injection ROW as <- <-; reflexivity|]); contradiction).
assert (NN : nth_error row (Z.to_nat (region - 1)) = None) by (apply nth_error_None; rewrite L; lia).
rewrite NN; reflexivity.
Qed.
