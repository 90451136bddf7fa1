From Coq Require Import Reals ZArith List String Bool Permutation Lra Lia.
From Verif Require Import Model.Py Model.FactorH Model.FactorNu Model.FactorF Model.EesHouse Model.CheckUa Model.Lv3 Model.PartSpec Spec.EnvelopeSpec Spec.IndexSpec
  Lemmas.PyL Lemmas.Lv3L Lemmas.CheckUaL Lemmas.Lv4L.
Import ListNotations.
Local Open Scope R_scope.

Lemma part_eqb_eq a b : part_eqb a b = true <-> a = b.
Proof. destruct a, b; simpl; split; intro H; try reflexivity; discriminate. Qed.

Lemma min_of_le x l y : In y (x :: l) -> min_of x l <= y.
Proof.
revert x y; induction l as [|z l IH]; intros x y; simpl.
- intros [<- |[]]; lra.
- intros [<- |H]; [apply Rmin_l|]; eapply Rle_trans; [apply Rmin_r|]; apply IH; exact H.
Qed.
Lemma min_of_in x l : In (min_of x l) (x :: l).
Proof.
revert x; induction l as [|z l IH]; intro x; simpl; [left; reflexivity|].
unfold Rmin; destruct (Rle_dec x (min_of z l)); [left; reflexivity|right; apply IH].
Qed.

Lemma eqbR_true a b : eqbR a b = true <-> a = b.
Proof. unfold eqbR; destruct (Req_EM_T a b); split; trivial; [discriminate|contradiction]. Qed.

Lemma filter_perm A (f : A -> bool) l : Permutation (filter f l ++ filter (fun x => negb (f x)) l) l.
Proof.
induction l as [|x l IH]; simpl; [constructor|]; destruct (f x); simpl; [constructor; exact IH|].
etransitivity; [symmetry; apply Permutation_middle|constructor; exact IH].
Qed.

Lemma sum_perm l l' : Permutation l l' -> sum l = sum l'.
Proof. induction 1; simpl; unfold sum in *; simpl; lra. Qed.

Lemma filter_length_lt A (f : A -> bool) l x : In x l -> f x = false -> (List.length (filter f l) < List.length l)%nat.
Proof.
induction l as [|y l IH]; intros I F; [destruct I|]; simpl; destruct I as [->|I].
- rewrite F; assert (L : (List.length (filter f l) <= List.length l)%nat) by (clear; induction l as [|z l IH]; simpl; [lia|]; destruct (f z); simpl; lia); lia.
- specialize (IH I F); destruct (f y); simpl; lia.
Qed.

Lemma sum_map_ext A (f g : A -> R) l : (forall x, In x l -> f x = g x) -> sum (map f l) = sum (map g l).
Proof. intro H; rewrite (map_ext_in _ _ _ H); reflexivity. Qed.
Lemma sum_map_le A (f g : A -> R) l : (forall x, In x l -> f x <= g x) -> sum (map f l) <= sum (map g l).
Proof.
induction l as [|x l IH]; intro H; simpl; [unfold sum; simpl; lra|].
specialize (IH (fun y I => H y (or_intror I))); specialize (H x (or_introl eq_refl)); unfold sum in *; simpl; lra.
Qed.
Lemma sum_map_scal A (f : A -> R) k l : sum (map (fun x => f x * k) l) = sum (map f l) * k.
Proof. induction l as [|x l IH]; simpl; unfold sum in *; simpl; [ring|rewrite IH; ring]. Qed.
Lemma sum_map_plus A (f g : A -> R) l : sum (map (fun x => f x + g x) l) = sum (map f l) + sum (map g l).
Proof. induction l as [|x l IH]; simpl; unfold sum in *; simpl; [ring|rewrite IH; ring]. Qed.
Lemma sum_map_nonneg A (f : A -> R) l : (forall x, In x l -> 0 <= f x) -> 0 <= sum (map f l).
Proof. intro H; apply sum_nonneg; intros a I; apply in_map_iff in I; destruct I as (x & <- & I); auto. Qed.

Section fill.
Variables (q_std f_max : part_type -> R).

Lemma get_remaining_f_ok fuel : forall rq base parts, (List.length parts <= fuel)%nat ->
  (forall p, In p parts -> 0 <= q_std p) -> (forall p, In p parts -> base <= f_max p) -> 0 <= rq ->
  exists d v, get_remaining_f fuel q_std f_max rq base parts = Ok d /\ Permutation (map fst d) parts /\ base <= v /\
    (forall p x, In (p, x) d -> x = Rmin v (f_max p)) /\
    sum (map (fun p => q_std p * (Rmin v (f_max p) - base)) parts) = Rmin rq (sum (map (fun p => q_std p * (f_max p - base)) parts)).
Proof.
induction fuel as [|fuel IH]; intros rq base parts L Q F Hr.
- destruct parts; [|simpl in L; lia]; exists [], base; simpl; repeat split; try constructor; try lra; [intros p x []|unfold sum; simpl; rewrite Rmin_right; lra].
- destruct parts as [|p r]; [exists [], base; simpl; repeat split; try constructor; try lra; [intros p x []|unfold sum; simpl; rewrite Rmin_right; lra]|].
  remember (p :: r) as parts eqn:EP.
  assert (EM : get_remaining_f (S fuel) q_std f_max rq base parts =
     let limit := min_of (f_max p) (map f_max r) in
          let names := filter (fun p => eqbR (f_max p) limit) parts in
          let q_max := py_sum (map q_std parts) * (limit - base) in
          if Rlt_dec rq q_max then
            bind (fdiv rq (py_sum (map q_std parts))) (fun x => Ok (map (fun p => (p, base + x)) parts))
          else
            bind (get_remaining_f fuel q_std f_max (rq - q_max) limit (filter (fun p => negb (eqbR (f_max p) limit)) parts))
                 (fun d => Ok (map (fun p => (p, limit)) names ++ d))) by (rewrite EP; reflexivity).
  rewrite EM; clear EM; cbv zeta.
  set (limit := min_of (f_max p) (map f_max r)); set (Q0 := py_sum (map q_std parts)).
  assert (LM : forall x, In x parts -> limit <= f_max x).
  { intros x I; apply min_of_le; rewrite EP in I; destruct I as [<- |I]; [left; reflexivity|right; apply in_map, I]. }
  assert (LI : exists x, In x parts /\ f_max x = limit).
  { assert (H := min_of_in (f_max p) (map f_max r)); fold limit in H; rewrite EP; destruct H as [H|H]; [exists p; split; [left; reflexivity|exact H]|].
    apply in_map_iff in H; destruct H as (x & E & I); exists x; split; [right; exact I|exact E]. }
  assert (LB : base <= limit) by (destruct LI as (x & I & <-); apply F, I).
  assert (QN : 0 <= Q0) by (apply (sum_map_nonneg _ q_std); exact Q).
  destruct (Rlt_dec rq (Q0 * (limit - base))) as [H|H].
  + assert (QP : 0 < Q0).
    { destruct (Rle_lt_or_eq_dec _ _ QN) as [G|G]; [exact G|rewrite <- G in H; lra]. }
    rewrite fdiv_ok by lra; cbn [bind].
    assert (V : base + rq / Q0 <= limit).
    { assert (rq / Q0 * Q0 = rq) by (field; lra); assert (rq / Q0 * Q0 < (limit - base) * Q0) by lra.
      apply Rmult_lt_reg_r in H1; lra. }
    exists (map (fun p => (p, base + rq / Q0)) parts), (base + rq / Q0); split; [reflexivity|].
    split; [rewrite map_map; simpl; rewrite map_id; apply Permutation_refl|].
    split; [assert (0 <= rq / Q0) by (apply Rmult_le_pos; [exact Hr|left; apply Rinv_0_lt_compat, QP]); lra|].
    split.
    * intros y x I; apply in_map_iff in I; destruct I as (z & E & I); injection E as <- <-; rewrite Rmin_left; [reflexivity|].
      specialize (LM z I); lra.
    * rewrite (sum_map_ext _ _ (fun p => q_std p * (rq / Q0))).
      2:{ intros x I; rewrite Rmin_left by (specialize (LM x I); lra); ring. }
      rewrite sum_map_scal; change (sum (map q_std parts)) with Q0; rewrite Rmin_left; [field; lra|].
      left; eapply Rlt_le_trans; [exact H|]; unfold Q0; change (py_sum (map q_std parts)) with (sum (map q_std parts)); rewrite <- sum_map_scal.
      apply sum_map_le; intros x I; apply Rmult_le_compat_l; [apply Q, I|]; specialize (LM x I); lra.
  + set (rest := filter (fun p => negb (eqbR (f_max p) limit)) parts).
    assert (RI : forall x, In x rest -> In x parts) by (intros x I; apply filter_In in I; apply I).
    destruct (IH (rq - Q0 * (limit - base)) limit rest) as (d & v & E & P & BV & FV & S0); trivial; try lra.
    * destruct LI as (x & I & X); assert (G := filter_length_lt _ (fun p => negb (eqbR (f_max p) limit)) parts x I).
      assert (T : eqbR (f_max x) limit = true) by (apply eqbR_true, X); simpl in G; rewrite T in G; specialize (G eq_refl); unfold rest; lia.
    * intros x I; apply Q, RI, I.
    * intros x I; apply LM, RI, I.
    * rewrite E; cbn [bind]; eexists; exists v; split; [reflexivity|].
      split; [rewrite map_app, map_map; simpl; rewrite map_id|].
      { etransitivity; [apply Permutation_app_head, P|]; apply filter_perm. }
      split; [lra|]; split.
      { intros y x I; apply in_app_or in I; destruct I as [I|I]; [|apply FV, I].
        apply in_map_iff in I; destruct I as (z & Ez & I); injection Ez as <- <-; apply filter_In in I; destruct I as (_ & I); apply eqbR_true in I.
        rewrite I, Rmin_right; [reflexivity|exact BV]. }
      assert (SP : forall f : part_type -> R, sum (map f parts) =
         sum (map f (filter (fun p => eqbR (f_max p) limit) parts)) + sum (map f rest)).
      { intro f; rewrite <- sum_app, <- map_app; apply sum_perm, Permutation_map, Permutation_sym, filter_perm. }
      assert (SV : sum (map (fun p => q_std p * (Rmin v (f_max p) - base)) parts) = Q0 * (limit - base) + sum (map (fun p => q_std p * (Rmin v (f_max p) - limit)) rest)).
      { rewrite (sum_map_ext _ _ (fun p => q_std p * (limit - base) + q_std p * (Rmin v (f_max p) - limit))) by (intros; ring).
        rewrite sum_map_plus, sum_map_scal; f_equal; rewrite SP.
        rewrite (sum_map_ext _ _ (fun p => q_std p * 0) (filter _ _)), sum_map_scal; [ring|].
        intros x I; apply filter_In in I; destruct I as (_ & I); apply eqbR_true in I; rewrite I, Rmin_right by exact BV; ring. }
      assert (SF : sum (map (fun p => q_std p * (f_max p - base)) parts) = Q0 * (limit - base) + sum (map (fun p => q_std p * (f_max p - limit)) rest)).
      { rewrite (sum_map_ext _ _ (fun p => q_std p * (limit - base) + q_std p * (f_max p - limit))) by (intros; ring).
        rewrite sum_map_plus, sum_map_scal; f_equal; rewrite SP.
        rewrite (sum_map_ext _ _ (fun p => q_std p * 0) (filter _ _)), sum_map_scal; [ring|].
        intros x I; apply filter_In in I; destruct I as (_ & I); apply eqbR_true in I; rewrite I; ring. }
      rewrite SV, SF, S0; unfold Rmin; destruct (Rle_dec _ _), (Rle_dec _ _); lra.
Qed.

Lemma find_perm d p : Permutation (map fst d) part_types -> exists x, In (p, x) d /\ entry p d = Ok x.
Proof.
intro P; assert (I : In p (map fst d)).
{ apply (Permutation_in p (Permutation_sym P)); destruct p; simpl; tauto. }
clear P; unfold entry; induction d as [|(k & y) d IH]; [destruct I|]; simpl.
destruct (part_eqb k p) eqn:Eq; [apply part_eqb_eq in Eq; subst k; exists y; split; [left; reflexivity|reflexivity]|].
destruct I as [I|I]; [simpl in I; apply part_eqb_eq in I; congruence|].
destruct (IH I) as (x & Ix & X); exists x; split; [right; exact Ix|exact X].
Qed.

Lemma get_f_ok q : (forall p, 0 <= q_std p) -> (forall p, 0 <= f_max p) -> 0 <= q ->
  exists d v, get_f_u_psi q_std f_max q = Ok d /\ 0 <= v /\ (forall p, entry p d = Ok (Rmin v (f_max p))) /\ Permutation (map fst d) part_types /\
    sum (map (fun p => q_std p * Rmin v (f_max p)) part_types) = Rmin q (sum (map (fun p => q_std p * f_max p) part_types)).
Proof.
intros Q F H; destruct (get_remaining_f_ok (List.length part_types) q 0 part_types) as (d & v & E & P & V & FV & S0); trivial; try auto.
exists d, v; split; [exact E|]; split; [exact V|]; split; [|split; [exact P|]].
- intro p; destruct (find_perm d p P) as (x & I & ->); rewrite (FV _ _ I); reflexivity.
- rewrite (sum_map_ext _ (fun p => q_std p * Rmin v (f_max p)) (fun p => q_std p * (Rmin v (f_max p) - 0))) by (intros; ring).
  rewrite S0; f_equal; apply sum_map_ext; intros; ring.
Qed.
End fill.

(* values of the tables *)
Lemma tabulate_ok f F : tabulate f = Ok F -> forall p, f p = Ok (F p).
Proof.
unfold tabulate.
intro H; destruct (f PRoof) eqn:E1; cbn [bind] in H; [|discriminate]; destruct (f PCeiling) eqn:E2; cbn [bind] in H; [|discriminate];
destruct (f PWall) eqn:E3; cbn [bind] in H; [|discriminate]; destruct (f PFloor) eqn:E4; cbn [bind] in H; [|discriminate];
destruct (f PBoundaryCeiling) eqn:E5; cbn [bind] in H; [|discriminate]; destruct (f PBoundaryWall) eqn:E6; cbn [bind] in H; [|discriminate];
destruct (f PBoundaryFloor) eqn:E7; cbn [bind] in H; [|discriminate]; destruct (f PWindow) eqn:E8; cbn [bind] in H; [|discriminate];
destruct (f PDoor) eqn:E9; cbn [bind] in H; [|discriminate]; destruct (f PPerimeter) eqn:E10; cbn [bind] in H; [|discriminate].
apply ok_inj in H; intro p; rewrite <- H; destruct p; assumption.
Qed.

Lemma sumM_ok A (f : A -> res R) F l : (forall x, In x l -> f x = Ok (F x)) -> sumM f l = Ok (sum (map F l)).
Proof.
induction l as [|x l IH]; intro H; [reflexivity|]; rewrite sumM_cons, (H x (or_introl eq_refl)), IH by (intros; apply H; right; assumption); reflexivity.
Qed.

Lemma std_region region F : tabulate (get_u_psi_std region) = Ok F -> (1 <= region <= 8)%Z /\ forall p, 0 < F p.
Proof.
intro H; assert (T := tabulate_ok _ _ H); clear H.
assert (R : (1 <= region <= 8)%Z).
{ specialize (T PRoof); unfold get_u_psi_std in T; destruct (Z.leb_spec region 0); [discriminate|]; split; [lia|].
  destruct (Z_le_gt_dec region 8) as [|G]; [assumption|]; exfalso.
  destruct (nth_error _ _) eqn:Eq in T; [|discriminate]; assert (L : (Z.to_nat (region - 1) < 8)%nat) by (apply (nth_error_Some (std_row PRoof)); congruence); lia. }
split; [exact R|]; intro p; specialize (T p); unfold get_u_psi_std in T.
assert (C : (region = 1 \/ region = 2 \/ region = 3 \/ region = 4 \/ region = 5 \/ region = 6 \/ region = 7 \/ region = 8)%Z) by lia.
destruct p; repeat destruct C as [C|C]; subst region; simpl in T; apply ok_inj in T; rewrite <- T; lra.
Qed.

Definition hh (region : Z) (n : next_space) : R :=
  match n with OUTDOOR | OPEN_SPACE => 1 | CLOSED_SPACE | OPEN_UNDERFLOOR => 7 / 10 | _ => if (region <=? 3)%Z then 5 / 100 else 15 / 100 end.
Lemma hh_ok region n : (1 <= region <= 8)%Z -> get_h n region = Ok (hh region n).
Proof.
intro H; unfold get_h, by_region, hh.
destruct (Z.leb_spec 1 region); [|lia]; destruct (Z.leb_spec region 3); simpl; [destruct n; reflexivity|].
destruct (Z.leb_spec 4 region); [|lia]; destruct (Z.leb_spec region 8); [|lia]; simpl; destruct n; reflexivity.
Qed.
Lemma hh_nonneg region n : 0 <= hh region n.
Proof. unfold hh; destruct n, (region <=? 3)%Z; lra. Qed.

Lemma u_max_pos p : 0 < get_u_psi_max p.
Proof. destruct p; simpl; try lra; apply Rdiv_lt_0_compat; lra. Qed.

(* area (length) times temperature difference coefficient, by type *)
Definition amount (region : Z) (h : parts_ns) (p : part_type) : R :=
  match p with
  | PWindow => sum (map (fun w => e_area (w_env w) * hh region (e_next_space (w_env w))) (n_ws h))
  | PDoor => sum (map (fun d => e_area (d_env d) * hh region (e_next_space (d_env d))) (n_ds h))
  | PPerimeter => sum (map (fun e => ep_length e * hh region (ep_next_space e)) (n_eps h))
  | p => sum (map (fun g => e_area (gp_env g) * hh region (e_next_space (gp_env g))) (filter (fun g => part_eqb (std_part_of_type (gp_kind g)) p) (n_gps h)))
  end.

Lemma q_std_ok region std h p : (1 <= region <= 8)%Z -> get_q_std region std h p = Ok (amount region h p * std p).
Proof.
intro R; unfold get_q_std, std_q, env_h; destruct p; simpl amount; rewrite <- sum_map_scal; apply sumM_ok; intros x _; rewrite hh_ok by exact R; simpl; f_equal; ring.
Qed.

Lemma amount_nonneg region h p : nonneg_house h -> 0 <= amount region h p.
Proof.
intros (G & W & D & E).
destruct p; simpl; apply sum_map_nonneg; intros x I; apply Rmult_le_pos; try apply hh_nonneg; try (apply filter_In in I; apply G, I); auto.
Qed.

Definition loss_amount (u : part_type -> R) (region : Z) (h : parts_ns) : R := sum (map (fun p => amount region h p * u p) part_types).

Lemma by_kind (u a : part_type -> R) l (f : general_part_ns -> R) :
  (forall p, In p [PRoof; PCeiling; PWall; PFloor; PBoundaryCeiling; PBoundaryWall; PBoundaryFloor] ->
     a p = sum (map f (filter (fun g => part_eqb (std_part_of_type (gp_kind g)) p) l))) ->
  sum (map (fun g => f g * u (std_part_of_type (gp_kind g))) l) =
  a PRoof * u PRoof + a PCeiling * u PCeiling + a PWall * u PWall + a PFloor * u PFloor + a PBoundaryCeiling * u PBoundaryCeiling +
  a PBoundaryWall * u PBoundaryWall + a PBoundaryFloor * u PBoundaryFloor.
Proof.
intro H; rewrite !H by (simpl; tauto); clear H a; induction l as [|g l IH]; [unfold sum; simpl; ring|].
simpl map; change (sum (?x :: ?y)) with (x + sum y); simpl filter.
change (sum (f g * u (std_part_of_type (gp_kind g)) :: map (fun g0 => f g0 * u (std_part_of_type (gp_kind g0))) l)) with
  (f g * u (std_part_of_type (gp_kind g)) + sum (map (fun g0 => f g0 * u (std_part_of_type (gp_kind g0))) l)).
rewrite IH; clear IH.
destruct (gp_kind g); cbn [std_part_of_type part_eqb filter map]; unfold sum; cbn [fold_right]; ring.
Qed.

Lemma loss_gps u region h : sum (map (fun g => e_area (gp_env g) * u (std_part_of_type (gp_kind g)) * hh region (e_next_space (gp_env g))) (n_gps h)) =
  amount region h PRoof * u PRoof + amount region h PCeiling * u PCeiling + amount region h PWall * u PWall + amount region h PFloor * u PFloor +
  amount region h PBoundaryCeiling * u PBoundaryCeiling + amount region h PBoundaryWall * u PBoundaryWall + amount region h PBoundaryFloor * u PBoundaryFloor.
Proof.
rewrite (sum_map_ext _ _ (fun g => e_area (gp_env g) * hh region (e_next_space (gp_env g)) * u (std_part_of_type (gp_kind g)))) by (intros; ring).
apply by_kind; intros p I; repeat destruct I as [<- |I]; try destruct I; reflexivity.
Qed.
Lemma loss_ws u region h : sum (map (fun w => e_area (w_env w) * u PWindow * hh region (e_next_space (w_env w))) (n_ws h)) = amount region h PWindow * u PWindow.
Proof. simpl amount; rewrite <- sum_map_scal; apply sum_map_ext; intros; ring. Qed.
Lemma loss_ds u region h : sum (map (fun w => e_area (d_env w) * u PDoor * hh region (e_next_space (d_env w))) (n_ds h)) = amount region h PDoor * u PDoor.
Proof. simpl amount; rewrite <- sum_map_scal; apply sum_map_ext; intros; ring. Qed.
Lemma loss_eps u region h : sum (map (fun e => ep_length e * u PPerimeter * hh region (ep_next_space e)) (n_eps h)) = amount region h PPerimeter * u PPerimeter.
Proof. simpl amount; rewrite <- sum_map_scal; apply sum_map_ext; intros; ring. Qed.

Lemma loss_amount_eq u region h : loss_amount u region h =
  sum (map (fun g => e_area (gp_env g) * u (std_part_of_type (gp_kind g)) * hh region (e_next_space (gp_env g))) (n_gps h)) +
  sum (map (fun w => e_area (w_env w) * u PWindow * hh region (e_next_space (w_env w))) (n_ws h)) +
  sum (map (fun w => e_area (d_env w) * u PDoor * hh region (e_next_space (d_env w))) (n_ds h)) +
  sum (map (fun e => ep_length e * u PPerimeter * hh region (ep_next_space e)) (n_eps h)).
Proof.
rewrite loss_gps, loss_ws, loss_ds, loss_eps; unfold loss_amount; cbn [map part_types]; unfold sum at 1; cbn [fold_right]; ring.
Qed.

Lemma loss_with_ok u region h : (1 <= region <= 8)%Z -> forall q, loss_with u region h q <-> q = loss_amount u region h.
Proof.
intros RG q; rewrite loss_amount_eq; unfold loss_with; split.
- assert (M : forall A (n : A -> next_space) (c : A -> R) l r,
    Forall2 (fun x q => exists k, get_h (n x) region = Ok k /\ q = c x * k) l r -> sum r = sum (map (fun x => c x * hh region (n x)) l)).
  { intros A n c l r F; induction F as [|x y l r (k & K & ->) F IH]; [reflexivity|]; simpl; rewrite (hh_ok _ _ RG) in K; apply ok_inj in K; rewrite <- K.
    unfold sum in *; simpl; rewrite IH; reflexivity. }
  intros (g & w & d & e & G & W & D & E & ->).
  rewrite (M _ (fun x => e_next_space (gp_env x)) (fun x => e_area (gp_env x) * u (std_part_of_type (gp_kind x))) _ _ G).
  rewrite (M _ (fun x => e_next_space (w_env x)) (fun x => e_area (w_env x) * u PWindow) _ _ W).
  rewrite (M _ (fun x => e_next_space (d_env x)) (fun x => e_area (d_env x) * u PDoor) _ _ D).
  rewrite (M _ ep_next_space (fun x => ep_length x * u PPerimeter) _ _ E); reflexivity.
- assert (M : forall A (n : A -> next_space) (c : A -> R) l,
    Forall2 (fun x q => exists k, get_h (n x) region = Ok k /\ q = c x * k) l (map (fun x => c x * hh region (n x)) l)).
  { intros A n c l; induction l as [|x l IH]; simpl; constructor; trivial; exists (hh region (n x)); split; [apply hh_ok, RG|reflexivity]. }
  intros ->; do 4 eexists; split; [apply M|]; split; [apply M|]; split; [apply M|]; split; [apply M|]; reflexivity.
Qed.

(* the multipliers and the U values *)
Definition u_level (std : part_type -> R) (v : R) (p : part_type) : R := std p * Rmin v (get_f_max std p).

Lemma u_level_min std v p : 0 < std p -> u_level std v p = Rmin (std p * v) (get_u_psi_max p).
Proof.
intro H; unfold u_level, get_f_max.
assert (E : std p * (get_u_psi_max p / std p) = get_u_psi_max p) by (field; lra).
unfold Rmin; destruct (Rle_dec v (get_u_psi_max p / std p)) as [L|L], (Rle_dec (std p * v) (get_u_psi_max p)) as [M|M]; try lra.
- exfalso; apply M; rewrite <- E; apply Rmult_le_compat_l; lra.
- exfalso; apply L; apply Rmult_le_reg_l with (std p); [exact H|lra].
Qed.

Lemma u_values std f g : (forall p, entry p f = Ok (g p)) -> exists u, get_u_psi_value std f = Ok u /\ forall p, entry p u = Ok (std p * g p).
Proof.
intro H; unfold get_u_psi_value; cbn [mapM part_types]; rewrite !H; cbn [bind]; eexists; split; [reflexivity|].
intro p; destruct p; reflexivity.
Qed.

Lemma ns_area_eq h : ns_area h = house_area h.
Proof. unfold ns_area, house_area; change py_sum with sum; rewrite !sum_app; ring. Qed.

Record solved (region : Z) (u_a eta_h eta_c : R) (h : parts_ns) (u : list (part_type * R)) (e_h e_c : R) : Prop := {
  so_region : (1 <= region <= 8)%Z;
  so_u : exists std v, (forall p, get_u_psi_std region p = Ok (std p)) /\ (forall p, 0 < std p) /\ 0 <= v /\ (forall p, entry p u = Ok (u_level std v p)) /\
         loss_amount (u_level std v) region h = Rmin (house_area h * u_a) (loss_amount get_u_psi_max region h);
  so_eta : exists mo_h mo_c s_h s_c, m_opq region Heating u h = Ok mo_h /\ m_opq region Cooling u h = Ok mo_c /\
         sum_a_f_nu region Heating (n_ws h) = Ok s_h /\ sum_a_f_nu region Cooling (n_ws h) = Ok s_c /\ s_h <> 0 /\ s_c <> 0 /\
         e_h = clip ((eta_h / 100 * house_area h - mo_h) / s_h) 0 (88 / 100) /\ e_c = clip ((eta_c / 100 * house_area h - mo_c) / s_c) 0 (88 / 100)
}.

Lemma calc_ok region u_a eta_h eta_c h u e_h e_c : nonneg_house h -> 0 <= house_area h * u_a ->
  calc_parts_spec region u_a eta_h eta_c h = Ok (u, e_h, e_c) -> solved region u_a eta_h eta_c h u e_h e_c.
Proof.
intros NN UA; unfold calc_parts_spec; rewrite ns_area_eq.
destruct (tabulate (get_u_psi_std region)) as [std|] eqn:T; cbn [bind]; [|discriminate].
destruct (std_region _ _ T) as (RG & SP).
destruct (tabulate (get_q_std region std h)) as [q_std|] eqn:TQ; cbn [bind]; [|discriminate].
assert (Q : forall p, q_std p = amount region h p * std p).
{ intro p; assert (E := tabulate_ok _ _ TQ p); rewrite q_std_ok in E by exact RG; apply ok_inj in E; symmetry; exact E. }
destruct (get_f_ok q_std (get_f_max std) (house_area h * u_a)) as (d & v & E & V & EN & _ & S0).
{ intro p; rewrite Q; apply Rmult_le_pos; [apply amount_nonneg, NN|left; apply SP]. }
{ intro p; left; apply Rdiv_lt_0_compat; [apply u_max_pos|apply SP]. }
{ exact UA. }
rewrite E; cbn [bind]; destruct (u_values std _ _ EN) as (u' & U1 & U2); rewrite U1; cbn [bind].
destruct (m_opq region Heating u' h) as [mo_h|] eqn:MH; cbn [bind]; [|discriminate].
destruct (m_opq region Cooling u' h) as [mo_c|] eqn:MC; cbn [bind]; [|discriminate].
destruct (sum_a_f_nu region Heating (n_ws h)) as [s_h|] eqn:SH; cbn [bind]; [|discriminate].
destruct (sum_a_f_nu region Cooling (n_ws h)) as [s_c|] eqn:SC; cbn [bind]; [|discriminate].
unfold get_eta_d_each.
destruct (fdiv _ s_h) as [x|] eqn:FH; cbn [bind]; [|discriminate]; apply fdiv_inv in FH; destruct FH as (NH & ->).
destruct (fdiv _ s_c) as [x|] eqn:FC; cbn [bind]; [|discriminate]; apply fdiv_inv in FC; destruct FC as (NC & ->).
intro X; apply ok_inj in X; assert (X1 : u' = u) by congruence; subst u'; split.
- exact RG.
- exists std, v; split; [apply tabulate_ok, T|]; split; [exact SP|]; split; [exact V|]; split; [exact U2|].
  unfold loss_amount; rewrite (sum_map_ext _ _ (fun p => q_std p * Rmin v (get_f_max std p))).
  + rewrite S0; f_equal; apply sum_map_ext; intros p _; rewrite Q; unfold get_f_max; specialize (SP p); field; lra.
  + intros p _; rewrite Q; unfold u_level; ring.
- exists mo_h, mo_c, s_h, s_c; repeat (split; [assumption|]); split; congruence.
Qed.

Lemma mapM_rel A B (f : A -> res B) l r : mapM f l = Ok r -> Forall2 (fun x y => f x = Ok y) l r.
Proof.
revert r; induction l as [|x l IH]; intros r; simpl; [intro E; apply ok_inj in E; subst r; constructor|].
destruct (f x) as [y|] eqn:Fx; cbn [bind]; [|discriminate]; destruct (mapM f l) as [ys|]; cbn [bind]; [|discriminate].
intro E; apply ok_inj in E; subst r; constructor; auto.
Qed.

Lemma sumM_rel A B (P : A -> B -> Prop) (f : B -> res R) F l r : Forall2 P l r -> (forall x y, In x l -> P x y -> f y = Ok (F x)) -> sumM f r = Ok (sum (map F l)).
Proof.
induction 1 as [|x y l r Pxy H IH]; intro Hf; [reflexivity|].
rewrite sumM_cons, (Hf x y (or_introl eq_refl) Pxy), IH by (intros; eapply Hf; [right|]; eassumption); reflexivity.
Qed.

Lemma part_of_type_std t p : part_of_type t = Ok p -> p = std_part_of_type t /\ match p with PBoundaryFloor => PBoundaryWall | q => q end = p.
Proof. destruct t; simpl; intro H; try discriminate; apply ok_inj in H; subst p; split; reflexivity. Qed.

Section result.
Variables (region : Z) (u_a eta_h eta_c : R) (h : parts_ns) (gps : list general_part) (ws : list window) (ds : list door) (eps : list perimeter) (ecs : list center).
Hypothesis NN : nonneg_house h.
Hypothesis UA : 0 <= house_area h * u_a.
Hypothesis OK : spec_from_indices region u_a eta_h eta_c h = Ok (gps, ws, ds, eps, ecs).

Lemma result_parts : exists u e_h e_c, solved region u_a eta_h eta_c h u e_h e_c /\
  Forall2 (fun x y => add_spec_gp u x = Ok y) (n_gps h) gps /\ Forall2 (fun x y => add_spec_w u e_h e_c x = Ok y) (n_ws h) ws /\
  Forall2 (fun x y => add_spec_d u x = Ok y) (n_ds h) ds /\ Forall2 (fun x y => add_spec_ep u x = Ok y) (n_eps h) eps /\ ecs = map add_spec_ec (n_ecs h).
Proof.
revert OK; unfold spec_from_indices; destruct (calc_parts_spec _ _ _ _ _) as [((u & e_h) & e_c)|] eqn:C; cbn [bind]; [|discriminate].
destruct (mapM (add_spec_gp u) _) as [g|] eqn:G; cbn [bind]; [|discriminate].
destruct (mapM (add_spec_w u e_h e_c) _) as [w|] eqn:W; cbn [bind]; [|discriminate].
destruct (mapM (add_spec_d u) _) as [d|] eqn:D; cbn [bind]; [|discriminate].
destruct (mapM (add_spec_ep u) _) as [e|] eqn:E; cbn [bind]; [|discriminate].
intro X; apply ok_inj in X; injection X as <- <- <- <- <-.
exists u, e_h, e_c; split; [apply calc_ok; assumption|]; repeat (split; [apply mapM_rel; assumption|]); reflexivity.
Qed.

(* the parts keep their areas *)
Lemma result_area : envelope_total_area gps ws ds ecs = house_area h.
Proof.
destruct result_parts as (u & e_h & e_c & _ & G & W & D & _ & ->).
unfold envelope_total_area; change py_sum with sum; rewrite !sum_app; unfold house_area.
assert (M : forall A B (P : A -> B -> Prop) a b l r, (forall x y, P x y -> b y = a x) -> Forall2 P l r -> map (b : B -> R) r = map (a : A -> R) l).
{ intros A B P a b l r H F; induction F; simpl; [reflexivity|]; rewrite IHF, (H _ _ H0); reflexivity. }
rewrite (M _ _ _ (fun g => e_area (gp_env g)) gp_area _ _ ) with (2 := G).
2:{ intros x y; unfold add_spec_gp; destruct (bind (part_of_type (gp_kind x)) (get_u_psi u)); cbn [bind]; [|discriminate]; intro X; apply ok_inj in X; subst y; reflexivity. }
rewrite (M _ _ _ (fun g => e_area (w_env g)) w_area _ _ ) with (2 := W).
2:{ intros x y; unfold add_spec_w; destruct (get_u_psi _ _); cbn [bind]; [|discriminate]; intro X; apply ok_inj in X; subst y; reflexivity. }
rewrite (M _ _ _ (fun g => e_area (d_env g)) d_area _ _ ) with (2 := D).
2:{ intros x y; unfold add_spec_d; destruct (get_u_psi _ _); cbn [bind]; [|discriminate]; intro X; apply ok_inj in X; subst y; reflexivity. }
rewrite map_map; cbn [add_spec_ec ec_ns]; change (map (fun x => ec_area x) (n_ecs h)) with (map ec_area (n_ecs h)); ring.
Qed.

Lemma result_loss : exists std v, (forall p, get_u_psi_std region p = Ok (std p)) /\ 0 <= v /\
  (forall g, In g gps -> exists t, spec_u (gp_spec_of g) = Ok (u_level std v t) /\ std_part_of_type (gp_kind (gp_ns g)) = t) /\
  (forall w, In w ws -> ws_u (w_spec w) = u_level std v PWindow) /\ (forall d, In d ds -> d_u d = u_level std v PDoor) /\
  (forall e, In e eps -> ep_psi e = u_level std v PPerimeter) /\
  total_q region gps ws ds eps = Ok (Rmin (house_area h * u_a) (loss_amount get_u_psi_max region h)).
Proof.
destruct result_parts as (u & e_h & e_c & SO & G & W & D & E & _).
destruct SO as [RG (std & v & ST & SP & V & EU & LA) _]; exists std, v; split; [exact ST|]; split; [exact V|].
assert (IN : forall A B (P : A -> B -> Prop) l r y, Forall2 P l r -> In y r -> exists x, In x l /\ P x y).
{ intros A B P l r y F; induction F as [|x z l r H F IH]; intros I; [destruct I|]; destruct I as [<- |I]; [exists x; split; [left; reflexivity|exact H]|].
  destruct (IH I) as (x' & I' & H'); exists x'; split; [right; exact I'|exact H']. }
assert (GP : forall x y, add_spec_gp u x = Ok y -> gp_ns y = x /\ spec_u (gp_spec_of y) = Ok (u_level std v (std_part_of_type (gp_kind x)))).
{ intros x y; unfold add_spec_gp; destruct (part_of_type (gp_kind x)) as [p|] eqn:PT; cbn [bind]; [|discriminate].
  apply part_of_type_std in PT; destruct PT as (-> & PB); unfold get_u_psi; rewrite PB, EU; cbn [bind].
  intro X; apply ok_inj in X; subst y; split; reflexivity. }
assert (WI : forall x y, add_spec_w u e_h e_c x = Ok y -> ws_u (w_spec y) = u_level std v PWindow /\ e_area (w_env (w_ns y)) = e_area (w_env x) /\
   e_next_space (w_env (w_ns y)) = e_next_space (w_env x)).
{ intros x y; unfold add_spec_w, get_u_psi; rewrite EU; cbn [bind]; intro X; apply ok_inj in X; subst y; repeat split. }
assert (DO : forall x y, add_spec_d u x = Ok y -> d_ns y = x /\ d_u y = u_level std v PDoor).
{ intros x y; unfold add_spec_d, get_u_psi; rewrite EU; cbn [bind]; intro X; apply ok_inj in X; subst y; repeat split. }
assert (EP : forall x y, add_spec_ep u x = Ok y -> ep_ns y = x /\ ep_psi y = u_level std v PPerimeter).
{ intros x y; unfold add_spec_ep, get_u_psi; rewrite EU; cbn [bind]; intro X; apply ok_inj in X; subst y; repeat split. }
split; [intros g I; destruct (IN _ _ _ _ _ _ G I) as (x & _ & H); apply GP in H; destruct H as (E1 & E2); eexists; split; [exact E2|rewrite E1; reflexivity]|].
split; [intros g I; destruct (IN _ _ _ _ _ _ W I) as (x & _ & H); apply WI in H; apply H|].
split; [intros g I; destruct (IN _ _ _ _ _ _ D I) as (x & _ & H); apply DO in H; apply H|].
split; [intros g I; destruct (IN _ _ _ _ _ _ E I) as (x & _ & H); apply EP in H; apply H|].
rewrite <- LA, loss_amount_eq; unfold total_q.
rewrite (sumM_rel _ _ _ _ (fun g => e_area (gp_env g) * u_level std v (std_part_of_type (gp_kind g)) * hh region (e_next_space (gp_env g))) _ _ G).
2:{ intros x y _ H; apply GP in H; destruct H as (E1 & E2); unfold gp_q, gp_area, env_h; rewrite E2, E1; cbn [bind]; rewrite hh_ok by exact RG; reflexivity. }
cbn [bind].
rewrite (sumM_rel _ _ _ _ (fun w => e_area (w_env w) * u_level std v PWindow * hh region (e_next_space (w_env w))) _ _ W).
2:{ intros x y _ H; apply WI in H; destruct H as (E1 & E2 & E3); unfold w_q, w_area, env_h; rewrite E1, E2, E3, hh_ok by exact RG; reflexivity. }
cbn [bind].
rewrite (sumM_rel _ _ _ _ (fun w => e_area (d_env w) * u_level std v PDoor * hh region (e_next_space (d_env w))) _ _ D).
2:{ intros x y _ H; apply DO in H; destruct H as (E1 & E2); unfold d_q, d_area, env_h; rewrite E1, E2, hh_ok by exact RG; reflexivity. }
cbn [bind].
rewrite (sumM_rel _ _ _ _ (fun e => ep_length e * u_level std v PPerimeter * hh region (ep_next_space e)) _ _ E).
2:{ intros x y _ H; apply EP in H; destruct H as (E1 & E2); unfold ep_q; rewrite E1, E2, hh_ok by exact RG; reflexivity. }
reflexivity.
Qed.
End result.

(* the uninsulated parts *)
Lemma uninsulated_values : let plaster := 95 / 10000 / (22 / 100) in let plywood := 12 / 1000 / (16 / 100) in
  1 / get_u_psi_max PRoof = 9 / 100 + plaster + 4 / 100 /\ 1 / get_u_psi_max PCeiling = 9 / 100 + plaster + 9 / 100 /\
  1 / get_u_psi_max PBoundaryCeiling = 9 / 100 + plaster + 9 / 100 /\ 1 / get_u_psi_max PWall = 11 / 100 + plaster + 4 / 100 /\
  1 / get_u_psi_max PBoundaryWall = 11 / 100 + plaster + 11 / 100 /\ 1 / get_u_psi_max PFloor = 15 / 100 + plywood + 4 / 100 /\
  1 / get_u_psi_max PBoundaryFloor = 15 / 100 + plywood + 15 / 100 /\
  get_u_psi_std 8 PWindow = Ok (get_u_psi_max PWindow) /\ get_u_psi_std 8 PDoor = Ok (get_u_psi_max PDoor) /\ get_u_psi_max PPerimeter = 100.
Proof. cbv zeta; unfold get_u_psi_max; repeat split; try reflexivity; field. Qed.

Lemma below_inv u r : 0 < r -> u * r < 1 -> u < 1 / r.
Proof. intros P H; apply (Rmult_lt_reg_r r); [exact P|]; replace (1 / r * r) with 1 by (field; lra); exact H. Qed.

Lemma above_inv u r : 0 < r -> 1 < u * r -> 1 / r < u.
Proof. intros P H; apply (Rmult_lt_reg_r r); [exact P|]; replace (1 / r * r) with 1 by (field; lra); exact H. Qed.

Lemma standard_below region p u : (1 <= region <= 7)%Z -> get_u_psi_std region p = Ok u -> 0 < u < get_u_psi_max p.
Proof.
intros R H; assert (K : region = 1%Z \/ region = 2%Z \/ region = 3%Z \/ region = 4%Z \/ region = 5%Z \/ region = 6%Z \/ region = 7%Z) by lia; clear R.
destruct K as [K|[K|[K|[K|[K|[K|K]]]]]]; subst region; destruct p; injection H as <-; unfold get_u_psi_max; (split; [lra|]); try lra; apply below_inv; lra.
Qed.

Lemma standard_above : exists u v, get_u_psi_std 8 PBoundaryWall = Ok u /\ get_u_psi_max PBoundaryWall < u /\
  get_u_psi_std 8 PBoundaryFloor = Ok v /\ get_u_psi_max PBoundaryFloor < v.
Proof. do 2 eexists; split; [reflexivity|split; [unfold get_u_psi_max; apply above_inv; lra|split; [reflexivity|unfold get_u_psi_max; apply above_inv; lra]]]. Qed.
