From Coq Require Import Reals List String ZArith Bool Lra Lia.
From Verif Require Import Model.Py Model.Trig Model.BoundaryDict Model.BoundarySimple Model.HouseDict Model.Initializer Model.ReadHouse
  Model.FactorH Model.SolarShading Spec.HouseSpec Lemmas.PyL Lemmas.VentL Lemmas.RoomsL Lemmas.BoundariesL.
Import ListNotations.
Local Open Scope R_scope.

Lemma key_ok A (o : option A) a : key o = Ok a -> o = Some a.
Proof. destruct o; simpl; intro H; [injection H as ->; reflexivity|discriminate]. Qed.

(* the description of a boundary contains what the dictionary says *)
Lemma simple_fields ws b bs : get_boundary_simple ws b = Ok bs ->
  BoundaryDict.b_id b = Some (bs_id bs) /\ BoundaryDict.connected_room_id b = Some (bs_connected_room_id bs) /\
  BoundaryDict.area b = Some (bs_area bs) /\ BoundaryDict.is_floor b = Some (bs_is_floor bs) /\
  BoundaryDict.is_solar_absorbed_inside b = Some (bs_is_solar_absorbed_inside bs) /\ BoundaryDict.h_c b = Some (bs_h_c bs) /\
  exists t, BoundaryDict.boundary_type b = Some t /\ BoundaryType t = Ok (bs_type bs) /\
  (if is_external t then temp_dif_coef b = Some (bs_h_td bs) else bs_h_td bs = 0) /\
  (if (t =? "internal")%string then BoundaryDict.rear_surface_boundary_id b = bs_rear_surface_boundary_id bs /\ given (bs_rear_surface_boundary_id bs)
   else bs_rear_surface_boundary_id bs = None).
Proof.
unfold get_boundary_simple; intro H.
apply bind_ok in H; destruct H as [id [E1 H]]; apply key_ok in E1.
apply bind_ok in H; destruct H as [nm [E2 H]].
apply bind_ok in H; destruct H as [cn [E3 H]]; apply key_ok in E3.
apply bind_ok in H; destruct H as [t [E4 H]]; apply key_ok in E4.
apply bind_ok in H; destruct H as [bt [E5 H]].
apply bind_ok in H; destruct H as [ar [E6 H]]; apply key_ok in E6.
apply bind_ok in H; destruct H as [sun [E7 H]].
apply bind_ok in H; destruct H as [h [E8 H]].
apply bind_ok in H; destruct H as [nx [E9 H]].
apply bind_ok in H; destruct H as [re [E10 H]].
apply bind_ok in H; destruct H as [ab [E11 H]]; apply key_ok in E11.
apply bind_ok in H; destruct H as [fl [E12 H]]; apply key_ok in E12.
apply bind_ok in H; destruct H as [di [E13 H]].
apply bind_ok in H; destruct H as [ri [E14 H]].
destruct (Req_EM_T ri 0); [discriminate|].
apply bind_ok in H; destruct H as [hc [E15 H]]; apply key_ok in E15.
apply bind_ok in H; destruct H as [s [E16 H]].
apply bind_ok in H; destruct H as [oet [E17 H]].
apply bind_ok in H; destruct H as [th [E18 H]].
apply bind_ok in H; destruct H as [ts [E19 H]].
apply bind_ok in H; destruct H as [q [E20 H]].
injection H as <-; cbn [bs_id bs_connected_room_id bs_area bs_is_floor bs_is_solar_absorbed_inside bs_h_c bs_type bs_h_td bs_rear_surface_boundary_id].
repeat (split; [assumption|]); exists t; split; [assumption|]; split; [assumption|]; split.
- destruct (is_external t); [apply key_ok in E8; exact E8|injection E8 as <-; reflexivity].
- destruct (t =? "internal")%string; [|injection E10 as <-; reflexivity].
  apply bind_ok in E10; destruct E10 as [k [A B]]; apply key_ok in A; injection B as <-; split; [exact A|exists k; reflexivity].
Qed.

Lemma boundary_type_ok t k : BoundaryType t = Ok k ->
  t = match k with Internal => "internal" | ExternalGeneralPart => "external_general_part"
      | ExternalTransparentPart => "external_transparent_part" | ExternalOpaquePart => "external_opaque_part" | Ground => "ground" end%string.
Proof.
unfold BoundaryType; intro H.
repeat match type of H with (if ?c then _ else _) = _ => let E := fresh in destruct c eqn:E; [apply String.eqb_eq in E; injection H as <-; exact E|clear E] end; discriminate.
Qed.

(* rounding *)
Lemma round_sum round1 x : to_nearest_tenth round1 -> (x + round1 (1 - x) = 1 <-> tenths x).
Proof.
intro N; destruct (N (1 - x)) as [z [E D]]; rewrite E; split.
- intro H; exists (10 - z)%Z; rewrite minus_IZR; lra.
- intros [y ->]; assert (Q : z = (10 - y)%Z); [|subst z; rewrite minus_IZR; lra].
  assert (A : Rabs (IZR (10 - y - z)) < 1).
  { rewrite !minus_IZR; replace (10 - IZR y - IZR z) with (10 * (1 - IZR y / 10 - IZR z / 10)) by field.
    rewrite Rabs_mult, (Rabs_right 10) by lra; lra. }
  rewrite <- abs_IZR in A; apply lt_IZR in A; lia.
Qed.

Lemma written_entry round1 bss rooms bds out j bs d : make_boundaries round1 bss rooms bds = Ok out ->
  nth_error bss j = Some bs -> nth_error out j = Some d ->
  k_inside round1 bs = Ok (bd_k_inside d) /\ bd_k_outside d = bs_h_td bs /\
  exists b, nth_error bds j = Some b /\ get_boundary_spec b (bs_type bs) = Ok (bd_spec d) /\
  bd_id d = bs_id bs /\ bd_name d = bs_name bs /\ bd_connected_space_id d = bs_connected_room_id bs /\ bd_area d = bs_area bs /\
  bd_h_c d = bs_h_c bs /\ bd_h_i d = bs_h_i bs /\
  bd_is_ground d = match bs_type bs with Ground => "true" | _ => "false" end%string /\ bd_is_solar_absorbed d = bool_string (bs_is_solar_absorbed_inside bs).
Proof.
intros H Hb Hd; destruct (boundaries_ok _ _ _ _ _ H) as [f_mrt [rad [flr [_ [_ [_ [_ G]]]]]]].
destruct (G _ _ Hb) as [k [b [s [fl [fm [K [B [S [_ [_ O]]]]]]]]]].
rewrite Hd in O; injection O as ->; cbn; repeat split; try assumption; exists b; repeat split; assumption.
Qed.

Lemma simple_of ws bds bss j b : mapM (get_boundary_simple ws) bds = Ok bss -> nth_error bds j = Some b ->
  exists bs, nth_error bss j = Some bs /\ get_boundary_simple ws b = Ok bs.
Proof. intros M E; exact (forall2_nth _ _ _ _ _ _ _ (mapM_forall2 _ _ _ _ _ M) E). Qed.

(* the four kinds of boundaries with an outside *)
Lemma external_weights round1 ws bds bss rooms out j b d t :
  mapM (get_boundary_simple ws) bds = Ok bss -> make_boundaries round1 bss rooms bds = Ok out ->
  nth_error bds j = Some b -> nth_error out j = Some d ->
  BoundaryDict.boundary_type b = Some t -> is_external t = true ->
  exists h, temp_dif_coef b = Some h /\ bd_k_outside d = h /\
  bd_k_inside d = if Rlt_dec h 1 then match BoundaryDict.b_id b with Some i => Some (i, round1 (1 - h)) | None => None end else None.
Proof.
intros M H Eb Ed Et X.
destruct (simple_of _ _ _ _ _ M Eb) as [bs [Hs S]].
destruct (written_entry _ _ _ _ _ _ _ _ H Hs Ed) as [K [O _]].
destruct (simple_fields _ _ _ S) as [I [_ [_ [_ [_ [_ [t' [Et' [Ty [Td _]]]]]]]]]].
rewrite Et in Et'; injection Et' as <-; rewrite X in Td; exists (bs_h_td bs); split; [exact Td|split; [exact O|]].
rewrite I; apply boundary_type_ok in Ty.
unfold k_inside in K; destruct (bs_type bs); subst t; try discriminate X; destruct (Rlt_dec (bs_h_td bs) 1); injection K as <-; reflexivity.
Qed.

Lemma external_sum round1 ws bds bss rooms out j b d t h : to_nearest_tenth round1 ->
  mapM (get_boundary_simple ws) bds = Ok bss -> make_boundaries round1 bss rooms bds = Ok out ->
  nth_error bds j = Some b -> nth_error out j = Some d ->
  BoundaryDict.boundary_type b = Some t -> is_external t = true -> temp_dif_coef b = Some h -> h <= 1 ->
  (bd_k_outside d + rear_weight (bd_k_inside d) = 1 <-> tenths h).
Proof.
intros N M H Eb Ed Et X Eh L.
destruct (external_weights _ _ _ _ _ _ _ _ _ _ M H Eb Ed Et X) as [h' [Eh' [O K]]]; rewrite Eh in Eh'; injection Eh' as <-.
destruct (simple_of _ _ _ _ _ M Eb) as [bs [_ S]]; destruct (simple_fields _ _ _ S) as [I _]; rewrite I in K.
rewrite O, K; destruct (Rlt_dec h 1) as [P|P]; simpl; [apply round_sum, N|].
assert (h = 1) by lra; subst h; split; [intros _; exists 10%Z; lra|lra].
Qed.

(* at most 0.05 off *)
Lemma external_near round1 ws bds bss rooms out j b d t h : to_nearest_tenth round1 ->
  mapM (get_boundary_simple ws) bds = Ok bss -> make_boundaries round1 bss rooms bds = Ok out ->
  nth_error bds j = Some b -> nth_error out j = Some d ->
  BoundaryDict.boundary_type b = Some t -> is_external t = true -> temp_dif_coef b = Some h -> h <= 1 ->
  Rabs (1 - (bd_k_outside d + rear_weight (bd_k_inside d))) <= 1 / 20.
Proof.
intros N M H Eb Ed Et X Eh L.
destruct (external_weights _ _ _ _ _ _ _ _ _ _ M H Eb Ed Et X) as [h' [Eh' [O K]]]; rewrite Eh in Eh'; injection Eh' as <-.
destruct (simple_of _ _ _ _ _ M Eb) as [bs [_ S]]; destruct (simple_fields _ _ _ S) as [I _]; rewrite I in K.
rewrite O, K; destruct (Rlt_dec h 1) as [P|P]; simpl.
- destruct (N (1 - h)) as [z [E D]]; rewrite E; replace (1 - (h + IZR z / 10)) with (1 - h - IZR z / 10) by ring; exact D.
- replace h with 1 by lra; replace (1 - (1 + 0)) with 0 by ring; rewrite Rabs_R0; lra.
Qed.

Lemma internal_weights round1 ws bds bss rooms out j b d :
  mapM (get_boundary_simple ws) bds = Ok bss -> make_boundaries round1 bss rooms bds = Ok out ->
  nth_error bds j = Some b -> nth_error out j = Some d ->
  BoundaryDict.boundary_type b = Some "internal"%string ->
  bd_k_outside d = 0 /\ exists k, BoundaryDict.rear_surface_boundary_id b = Some k /\ bd_k_inside d = Some (k, 1).
Proof.
intros M H Eb Ed Et.
destruct (simple_of _ _ _ _ _ M Eb) as [bs [Hs S]].
destruct (written_entry _ _ _ _ _ _ _ _ H Hs Ed) as [K [O _]].
destruct (simple_fields _ _ _ S) as [_ [_ [_ [_ [_ [_ [t' [Et' [Ty [Td Re]]]]]]]]]].
rewrite Et in Et'; injection Et' as <-; cbn in Ty, Td, Re; injection Ty as Ty; destruct Re as [R1 [k R2]].
split; [congruence|]; exists k; split; [congruence|].
unfold k_inside in K; rewrite <- Ty, R2 in K; injection K as <-; reflexivity.
Qed.

Lemma ground_weights round1 ws bds bss rooms out j b d :
  mapM (get_boundary_simple ws) bds = Ok bss -> make_boundaries round1 bss rooms bds = Ok out ->
  nth_error bds j = Some b -> nth_error out j = Some d ->
  BoundaryDict.boundary_type b = Some "ground"%string ->
  bd_k_outside d = 0 /\ bd_k_inside d = None.
Proof.
intros M H Eb Ed Et.
destruct (simple_of _ _ _ _ _ M Eb) as [bs [Hs S]].
destruct (written_entry _ _ _ _ _ _ _ _ H Hs Ed) as [K [O _]].
destruct (simple_fields _ _ _ S) as [_ [_ [_ [_ [_ [_ [t' [Et' [Ty [Td Re]]]]]]]]]].
rewrite Et in Et'; injection Et' as <-; cbn in Ty, Td; injection Ty as Ty.
split; [congruence|]; unfold k_inside in K; rewrite <- Ty in K; injection K as <-; reflexivity.
Qed.

(* the core puts the weight at the rear surface's place in the row *)
Lemma row_total n d row : k_ei_row n d = Ok row -> total row = rear_weight (bd_k_inside d).
Proof.
unfold k_ei_row; destruct (bd_k_inside d) as [[k c]|]; simpl; intro H.
- unfold py_set in H; apply bind_ok in H; destruct H as [p [E H]]; injection H as <-.
  apply py_index_nat in E; rewrite repeat_length in E; destruct E as [L _].
  rewrite total_set_nth, total_zeros, nth_zeros by (rewrite repeat_length; exact L); ring.
- injection H as <-; apply total_zeros.
Qed.

Lemma row_place n d row k c : k_ei_row n d = Ok row -> bd_k_inside d = Some (k, c) -> (0 <= k)%Z ->
  forall i, (i < n)%nat -> nth i row 0 = if (Z.of_nat i =? k)%Z then c else 0.
Proof.
unfold k_ei_row; intros H E P i L; rewrite E in H; unfold py_set in H; apply bind_ok in H; destruct H as [p [Ep H]]; injection H as <-.
apply py_index_nat in Ep; rewrite repeat_length in Ep; destruct Ep as [Lp [->| ->]]; [|lia].
rewrite nth_set_nth by (rewrite repeat_length; exact Lp); rewrite nth_zeros.
destruct (Nat.eqb_spec i p) as [->|]; [rewrite Z.eqb_refl; reflexivity|]; destruct (Z.eqb_spec (Z.of_nat i) (Z.of_nat p)); [lia|reflexivity].
Qed.

Lemma rows_read inv n bs cb : read_boundaries inv n bs = Ok cb ->
  cb_k_eo cb = map bd_k_outside bs /\ Forall2 (fun b row => k_ei_row (List.length bs) b = Ok row) bs (cb_k_ei cb) /\
  Forall2 (fun b x => read_flag "true" "false" (bd_is_ground b) = Ok x) bs (cb_is_ground cb) /\
  Forall2 (fun b x => read_flag "True" "False" (bd_is_solar_absorbed b) = Ok x) bs (cb_is_solar_abs cb).
Proof.
unfold read_boundaries; intro H.
apply bind_ok in H; destruct H as [g [Eg H]]; apply bind_ok in H; destruct H as [r [Er H]].
apply bind_ok in H; destruct H as [a [Ea H]]; apply bind_ok in H; destruct H as [k [Ek H]]; injection H as <-; cbn.
apply mapM_forall2 in Eg, Ea, Ek; repeat split; assumption.
Qed.

Lemma core_row inv n bs cb j d : read_boundaries inv n bs = Ok cb -> nth_error bs j = Some d ->
  exists row, nth_error (cb_k_ei cb) j = Some row /\ nth_error (cb_k_eo cb) j = Some (bd_k_outside d) /\ List.length row = List.length bs /\
  total row = rear_weight (bd_k_inside d) /\
  (forall k c, bd_k_inside d = Some (k, c) -> (0 <= k)%Z -> forall i, (i < List.length bs)%nat -> nth i row 0 = if (Z.of_nat i =? k)%Z then c else 0).
Proof.
intros H E; destruct (rows_read _ _ _ _ H) as [O [F _]]; destruct (forall2_nth _ _ _ _ _ _ _ F E) as [row [R1 R2]].
exists row; rewrite O, nth_error_map, E; split; [exact R1|split; [reflexivity|split; [|split; [apply (row_total _ _ _ R2)|intros k c; apply (row_place _ _ _ _ _ R2)]]]].
unfold k_ei_row in R2; destruct (bd_k_inside d) as [[k c]|]; [|injection R2 as <-; apply repeat_length].
unfold py_set in R2; apply bind_ok in R2; destruct R2 as [p [_ R2]]; injection R2 as <-; rewrite set_nth_length, repeat_length; reflexivity.
Qed.

(* the coefficients the program itself assigns *)
Lemma tenths_get_h s region h : get_h s region = Ok h -> (tenths h <-> s <> AIR_CONDITIONED /\ s <> CLOSED_UNDERFLOOR).
Proof.
assert (T1 : tenths 1) by (exists 10%Z; lra). assert (T7 : tenths (7 / 10)) by (exists 7%Z; lra).
assert (N : forall x, by_region region = Ok x -> ~ tenths x).
{ unfold by_region; intros x Hx [z Ez].
  destruct ((1 <=? region)%Z && (region <=? 3)%Z); [|destruct ((4 <=? region)%Z && (region <=? 8)%Z); [|discriminate]];
  injection Hx as <-; [assert (Q : IZR (2 * z) = IZR 1)|assert (Q : IZR (2 * z) = IZR 3)]; try (rewrite mult_IZR; lra); apply eq_IZR in Q; lia. }
unfold get_h; intro H; apply bind_ok in H; destruct H as [x [E H]]; specialize (N x E); injection H as <-.
destruct s; split; intro Q; try (split; discriminate); try assumption; try (exfalso; apply N, Q); destruct Q; congruence.
Qed.

Lemma get_h_range s region h : get_h s region = Ok h -> 0 < h <= 1.
Proof.
unfold get_h, by_region; intro H; destruct ((1 <=? region)%Z && (region <=? 3)%Z); [|destruct ((4 <=? region)%Z && (region <=? 8)%Z); [|discriminate]];
 cbn in H; injection H as <-; destruct s; lra.
Qed.
