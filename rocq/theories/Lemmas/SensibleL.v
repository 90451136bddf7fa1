From Coq Require Import Reals List String ZArith Bool Lra Lia Psatz.
From Verif Require Import Model.Py Model.Trig Model.BoundaryDict Model.BoundarySimple Model.ResponseFactor Model.HouseDict Model.Residents Model.Schedule
  Model.Initializer Model.ReadHouse Model.SolarShading Spec.HouseholdSpec Spec.HouseSpec Spec.GroupingSpec Spec.CompleteSpec Spec.SensibleSpec Spec.ViewFactor
  Lemmas.PyL Lemmas.ScheduleL Lemmas.VentL Lemmas.RoomsL Lemmas.BoundariesL Lemmas.WeightsL Lemmas.ReadBackL Lemmas.SharesL.
Import ListNotations.
Local Open Scope R_scope.

Lemma forall2_intro A B (P : A -> B -> Prop) l l' : List.length l = List.length l' ->
  (forall j a b, nth_error l j = Some a -> nth_error l' j = Some b -> P a b) -> Forall2 P l l'.
Proof.
revert l'; induction l as [|a l IH]; intros [|b l'] E H; try discriminate; constructor; [exact (H 0%nat a b eq_refl eq_refl)|].
apply IH; [injection E as E; exact E|intros j; exact (H (Datatypes.S j))].
Qed.

(* air paths *)
Lemma volume_ge0 k l : (forall p, In p l -> 0 <= snd p) -> 0 <= volume_from k l.
Proof.
unfold volume_from; induction l as [|p l IH]; simpl; intro H; [lra|].
assert (0 <= volume_from k l) by (apply IH; intros q Q; apply H; right; exact Q).
destruct (fst p =? k)%Z; simpl; [assert (0 <= snd p) by (apply H; left; reflexivity)|]; unfold volume_from in *; lra.
Qed.

Lemma paths_given r l0 l : r_next_vent r = Some l0 -> read_paths r = Ok l ->
  HouseSpec.total (map snd l) = inflow l0 /\ forall p, In p l -> exists q, In q l0 /\ upstream_room_id q = Some (fst p) /\ v_volume q = Some (snd p).
Proof.
unfold read_paths, inflow; intros -> H; cbn in H; apply mapM_forall2 in H; induction H as [|q p l0 l E F IH]; simpl.
- split; [reflexivity|intros p []].
- apply bind_ok in E; destruct E as [k [K E]]; apply key_ok in K; apply bind_ok in E; destruct E as [v [V E]]; apply key_ok in V; injection E as <-.
  destruct IH as [S I]; rewrite V; simpl; split; [lra|]; intros p [<-|J]; [exists q; auto|destruct (I p J) as [q' [A B]]; eauto].
Qed.

(* the rooms as the core reads them *)
Record sensible_row (cr : core_rooms) (n i : nat) : Prop := {
  row_volume : exists v, nth_error (cr_volume cr) i = Some v /\ 0 < v /\
    nth_error (cr_c_sh cr) i = Some (12600 * v) /\ nth_error (cr_g_sh cr) i = Some (22 / 100000 * (12600 * v)) /\
    nth_error (cr_c_lh cr) i = Some (168 / 10 * v) /\ nth_error (cr_g_lh cr) i = Some (18 / 10000 * (168 / 10 * v)) /\
    exists row, nth_error (cr_v_int_vent cr) i = Some row /\ List.length row = n /\ (forall k, 0 <= nth k row 0) /\ HouseSpec.total row < v / 900;
  row_vent : exists u, nth_error (cr_v_vent_ex cr) i = Some u /\ 0 <= u;
  row_natural : exists u, nth_error (cr_v_ntrl cr) i = Some u /\ 0 <= u;
  row_beta : nth_error (cr_beta cr) i = Some 0;
  row_heating : exists x m, nth_error (cr_is_radiative_heating cr) i = Some x /\ nth_error (cr_lr_h_max cr) i = Some m /\ 0 <= m;
  row_cooling : nth_error (cr_is_radiative_cooling cr) i = Some false /\ nth_error (cr_lr_c_max cr) i = Some 0;
  row_coil : exists q1 q2 v1 v2, nth_error (cr_q_min cr) i = Some q1 /\ nth_error (cr_q_max cr) i = Some q2 /\
    nth_error (cr_v_min cr) i = Some v1 /\ nth_error (cr_v_max cr) i = Some v2 /\
    0 <= q1 < q2 /\ 0 <= v1 <= v2 /\ q1 * (v2 - v1) <= v1 * (q2 - q1)
}.

Lemma rooms_sensible rooms ss : make_spaces_dict rooms = Ok ss -> Forall (complete_room (List.length rooms)) rooms -> Forall sensible_room rooms ->
  List.length ss = List.length rooms /\
  exists cr, read_spaces ss = Ok cr /\ forall i r, nth_error rooms i = Some r -> sensible_row cr (List.length rooms) i /\
  (forall h, r_heating r = Some h -> e_type h <> Some "radiative"%string -> nth_error (cr_is_radiative_heating cr) i = Some false).
Proof.
intros H C S; split; [exact (proj1 (spaces_row _ _ H))|].
rewrite Forall_forall in C, S.
destruct (proj2 (proj1 (spaces_readable _ _ H))) as [cr Cr].
{ intros r I; destruct (sr_cooling _ (S r I)) as (e & q1 & q2 & v1 & v2 & E & [T _] & _); eauto. }
exists cr; split; [exact Cr|]; intros i r E.
assert (Ir := nth_error_In _ _ E); specialize (S r Ir); specialize (C r Ir).
destruct (spaces_values _ _ _ H Cr i r E) as (w & M & Id & _ & _ & V3 & V4 & V5 & V6 & V7 & V8 & V9 & V10).
destruct (spaces_furniture _ _ _ _ _ H Cr E) as (v & s & Rv & Ns & F1 & F2 & F3 & F4 & F5 & F6).
destruct (spaces_row _ _ H) as [_ N]; destruct (N i r E) as (s' & w' & S1 & S2 & M' & Id').
destruct M as (M1 & M2 & M3 & M4 & (l & P1 & P2) & M6 & (h & Hh & Rh) & (c & Hc & Rc)).
rewrite M3 in Rv; injection Rv as <-.
split.
- constructor.
  + exists (rr_volume w); split; [exact V3|]; split; [exact (sr_volume _ S _ M3)|]; do 4 (split; [assumption|]).
    exists (rr_paths w); split; [exact V5|].
    destruct C as (_ & _ & _ & _ & _ & _ & (l0 & L0 & P0) & _).
    destruct (paths_given r l0 l L0 P1) as [T I].
    assert (Nn : forall p, In p l -> (0 <= fst p)%Z /\ 0 <= snd p).
    { intros p J; destruct (I p J) as [q [Q1 [Q2 Q3]]]; destruct (P0 q Q1) as [k [x [K [_ B]]]]; split; [rewrite K in Q2; injection Q2 as <-; lia|].
      exact (sr_paths _ S _ _ _ L0 Q1 Q3). }
    destruct (paths_entries l (repeat 0 (List.length rooms)) (rr_paths w) (fun p J => proj1 (Nn p J)) P2) as [Lr En]; rewrite repeat_length in Lr, En.
    split; [exact Lr|]; split.
    * intro k; destruct (Nat.lt_ge_cases k (List.length rooms)) as [B|B]; [|rewrite nth_overflow by lia; lra].
      rewrite En by exact B; rewrite nth_zeros; assert (Q := volume_ge0 (Z.of_nat k) l (fun p J => proj2 (Nn p J))); lra.
    * rewrite (paths_total _ _ _ P2), total_zeros, T; assert (Q := sr_inflow _ S _ _ L0 M3); lra.
  + exists (rr_vent w / 3600); split; [exact V4|]; assert (Q := sr_vent _ S _ M4); lra.
  + exists (rr_volume w * rr_natural w / 3600); split; [exact V6|]; assert (Q := sr_natural _ S _ M6); assert (Q' := sr_volume _ S _ M3); nra.
  + rewrite F6, S1 in *; injection Ns as <-; subst s'; cbn; destruct (rr_heating w'); reflexivity.
  + destruct (rr_heating w) as [|q1 q2 v1 v2|m a] eqn:Eh.
    * destruct V9; exists false, 0; repeat split; auto; lra.
    * destruct V9; exists false, 0; repeat split; auto; lra.
    * destruct V9; exists true, (m * a); repeat split; auto; apply read_kind in Rh; destruct Rh as [T [x [X1 [X2 X3]]]].
      destruct (sr_heating _ S h m a Hh) as [A B]; [|nra].
      split; [exact T|]; rewrite X1; destruct x; cbn in *; subst; reflexivity.
  + split; assumption.
  + destruct (sr_cooling _ S) as (e & q1 & q2 & v1 & v2 & Ec & [T Cv] & I1 & I2 & I3); rewrite Hc in Ec; injection Ec as <-.
    apply read_kind in Rc; destruct (rr_cooling w); try contradiction.
    destruct Rc as [_ [x [X1 [X2 [X3 [X4 X5]]]]]]; rewrite Cv in X1; injection X1 as <-; cbn in *.
    injection X2 as <-; injection X3 as <-; injection X4 as <-; injection X5 as <-.
    destruct V10 as (Y1 & Y2 & Y3 & Y4); exists q1, q2, v1, v2; repeat split; try assumption; lra.
- intros h' Hh' Nh; rewrite Hh in Hh'; injection Hh' as <-; apply read_kind in Rh; destruct (rr_heating w); [apply V9|apply V9|destruct Rh; contradiction].
Qed.

(* the weight of the rear surface *)
Lemma round_unit round1 x : to_nearest_tenth round1 -> 0 <= x <= 1 -> 0 <= round1 (1 - x) <= 1.
Proof.
intros N B; destruct (N (1 - x)) as [z [E D]]; rewrite E; apply Rabs_def2b in D || (unfold Rabs in D; destruct Rcase_abs in D).
all: assert (Z1 : IZR (-1) < IZR z) by lra; assert (Z2 : IZR z < IZR 11) by lra; apply lt_IZR in Z1, Z2;
  assert (Z3 : IZR 0 <= IZR z) by (apply IZR_le; lia); assert (Z4 : IZR z <= IZR 10) by (apply IZR_le; lia); lra.
Qed.

(* the response of the wall of a boundary *)
Lemma wall_responds inv ws b bs s : get_boundary_simple ws b = Ok bs -> get_boundary_spec b (bs_type bs) = Ok s -> sensible_wall inv b ->
  exists rf f, bind (create_factory s) (get_response_factors inv) = Ok (rf, f) /\ 0 < rfa0 rf /\ 0 <= rft0 rf <= 1.
Proof.
intros B S W; destruct (simple_fields _ _ _ B) as (_ & _ & _ & _ & _ & _ & t & T & K & _); apply boundary_type_ok in K.
destruct (spec_factory _ _ _ S) as [f [F Q]]; rewrite F; cbn [bind].
destruct (W t T) as [W1 [W2 W3]]; destruct (bs_type bs).
- destruct Q as (l & r & L & Ro & ->); exact (W1 (or_introl K) l r L Ro).
- destruct Q as (l & r & L & Ro & ->); exact (W1 (or_intror K) l r L Ro).
- destruct Q as (u & r & U & Ri & ->); destruct (W3 (or_introl K) u r U Ri) as [P L]; cbn [get_response_factors].
  destruct (Req_EM_T u 0) as [Z|_]; [lra|]; destruct (Req_EM_T (1 / u - r) 0) as [Z|_]; [lra|].
  eexists; eexists; split; [reflexivity|]; cbn; split; [|lra].
  apply Rdiv_lt_0_compat; [lra|apply Rdiv_lt_0_compat; lra].
- destruct Q as (u & r & U & Ri & ->); destruct (W3 (or_intror K) u r U Ri) as [P L]; cbn [get_response_factors].
  destruct (Req_EM_T u 0) as [Z|_]; [lra|]; destruct (Req_EM_T (1 / u - r) 0) as [Z|_]; [lra|].
  eexists; eexists; split; [reflexivity|]; cbn; split; [|lra].
  apply Rdiv_lt_0_compat; [lra|apply Rdiv_lt_0_compat; lra].
- destruct Q as (l & L & ->); exact (W2 K l L).
Qed.

Lemma total_pos l : (forall x, In x l -> 0 < x) -> l <> [] -> 0 < HouseSpec.total l.
Proof.
induction l as [|x l IH]; intros P N; [congruence|]; simpl; assert (0 < x) by (apply P; left; reflexivity).
destruct l as [|y l]; [simpl; lra|]; assert (0 < HouseSpec.total (y :: l)) by (apply IH; [intros z J; apply P; right; exact J|discriminate]); unfold HouseSpec.total in *; lra.
Qed.

Record sensible_column (cb : core_boundaries) (n nb j : nat) (d : bdry) : Prop := {
  col_room : (0 <= bd_connected_space_id d < Z.of_nat n)%Z;
  col_area : 0 < bd_area d;
  col_h_c : 0 < bd_h_c d;
  col_response : exists rf, nth_error (cb_response cb) j = Some rf /\ 0 < rfa0 rf /\ 0 <= rft0 rf <= 1;
  col_rear : forall k c, bd_k_inside d = Some (k, c) -> (0 <= k < Z.of_nat nb)%Z /\ 0 <= c <= 1;
  col_mrt : exists f, bd_f_mrt_hum d = Some f /\ 0 <= f;
  col_flr : exists f, bd_flr d = Some f /\ 0 <= f
}.

Section Boundaries.
Variables (round1 : R -> R) (inv : list (list R) -> res (list (list R))) (ws : list wstep) (bds : list bdict) (bss : list bsimple)
  (rooms : list room_in) (out : list bdry).
Hypothesis N : to_nearest_tenth round1.
Hypothesis M : mapM (get_boundary_simple ws) bds = Ok bss.
Hypothesis B : make_boundaries round1 bss rooms bds = Ok out.
Hypothesis S : forall j b, nth_error bds j = Some b -> sensible_boundary inv (List.length rooms) (List.length bds) j b.
Hypothesis Fl : forall i fl, (0 <= i < Z.of_nat (List.length rooms))%Z -> exists b, In b bds /\ connected_room_id b = Some i /\ is_floor b = Some fl.

Lemma out_length : List.length out = List.length bds.
Proof.
destruct (boundaries_ok _ _ _ _ _ B) as (_ & _ & _ & _ & _ & _ & L & _); rewrite L; destruct (mapM_ok _ _ _ _ _ M) as [L' _]; exact L'.
Qed.

Lemma out_at j d : nth_error out j = Some d -> exists b bs, nth_error bds j = Some b /\ nth_error bss j = Some bs /\ get_boundary_simple ws b = Ok bs.
Proof.
intro E; assert (Lj : (j < List.length out)%nat) by (apply nth_error_Some; congruence); rewrite out_length in Lj.
destruct (nth_error bds j) as [b|] eqn:Eb; [|apply nth_error_None in Eb; lia].
destruct (simple_of _ _ _ _ _ M Eb) as [bs [A G]]; eauto.
Qed.

Lemma simple_area bs : In bs bss -> 0 < bs_area bs.
Proof.
intro I; apply In_nth_error in I; destruct I as [j J]; destruct (mapM_ok _ _ _ _ _ M) as [L _].
destruct (nth_error bds j) as [b|] eqn:Eb.
- destruct (simple_of _ _ _ _ _ M Eb) as [bs' [A G]]; rewrite J in A; injection A as <-.
  destruct (simple_fields _ _ _ G) as (_ & _ & Ar & _); exact (sb_area _ _ _ _ _ (S j b Eb) _ Ar).
- apply nth_error_None in Eb; assert (j < List.length bss)%nat by (apply nth_error_Some; congruence); lia.
Qed.

Lemma some_part i fl : (0 <= i < Z.of_nat (List.length rooms))%Z -> exists bs, In bs (parts i bss) /\ bs_is_floor bs = fl.
Proof.
intro I; destruct (Fl i fl I) as [b [Ib [Cb Fb]]]; apply In_nth_error in Ib; destruct Ib as [j J].
destruct (simple_of _ _ _ _ _ M J) as [bs [A G]]; destruct (simple_fields _ _ _ G) as (_ & Cn & _ & Ff & _).
exists bs; split; [|congruence]; apply filter_In; split; [exact (nth_error_In _ _ A)|apply Z.eqb_eq; congruence].
Qed.

Lemma areas_pos i : (0 <= i < Z.of_nat (List.length rooms))%Z -> 0 < floor_area (parts i bss) /\ 0 < other_area (parts i bss).
Proof.
intro I; split; apply total_pos.
- intros x J; apply in_map_iff in J; destruct J as [bs [<- J]]; apply filter_In in J; destruct J as [J _]; apply filter_In in J; apply simple_area, J.
- destruct (some_part i true I) as [bs [A Bf]]; intro E; apply map_eq_nil in E.
  assert (K : In bs (filter bs_is_floor (parts i bss))) by (apply filter_In; auto); rewrite E in K; destruct K.
- intros x J; apply in_map_iff in J; destruct J as [bs [<- J]]; apply filter_In in J; destruct J as [J _]; apply filter_In in J; apply simple_area, J.
- destruct (some_part i false I) as [bs [A Bf]]; intro E; apply map_eq_nil in E.
  assert (K : In bs (filter (fun bs => negb (bs_is_floor bs)) (parts i bss))) by (apply filter_In; rewrite Bf; auto); rewrite E in K; destruct K.
Qed.

Lemma room_of_out j d : nth_error out j = Some d -> (0 <= bd_connected_space_id d < Z.of_nat (List.length rooms))%Z.
Proof.
intro E; destruct (out_at j d E) as (b & bs & Eb & Es & G); destruct (written_entry _ _ _ _ _ _ _ _ B Es E) as (_ & _ & b' & _ & _ & _ & _ & W & _).
destruct (simple_fields _ _ _ G) as (_ & Cn & _); rewrite W; exact (sb_room _ _ _ _ _ (S j b Eb) _ Cn).
Qed.

Lemma mrt_out j d : nth_error out j = Some d -> exists f, bd_f_mrt_hum d = Some f /\ 0 <= f.
Proof.
intro E; assert (I := room_of_out j d E); destruct (written_shares _ _ _ _ _ _ B I) as [Q _]; apply mrt_values in Q.
assert (J : In (bd_f_mrt_hum d) (map bd_f_mrt_hum (of_room (bd_connected_space_id d) out)))
  by (apply in_map, filter_In; split; [exact (nth_error_In _ _ E)|apply Z.eqb_refl]).
rewrite Q in J; apply in_map_iff in J; destruct J as [bs [<- J]]; destruct (areas_pos _ I) as [P1 P2].
assert (P3 : 0 < bs_area bs) by (apply filter_In in J; apply simple_area, J).
destruct (bs_is_floor bs); rewrite div_ok by lra; cbn; eexists; (split; [reflexivity|]);
  [assert (0 < bs_area bs / floor_area (parts (bd_connected_space_id d) bss)) by (apply Rdiv_lt_0_compat; assumption)
  |assert (0 < bs_area bs / other_area (parts (bd_connected_space_id d) bss)) by (apply Rdiv_lt_0_compat; assumption)]; lra.
Qed.

Lemma flr_out j d : nth_error out j = Some d -> exists f, bd_flr d = Some f /\ 0 <= f.
Proof.
intro E; assert (I := room_of_out j d E); destruct (written_shares _ _ _ _ _ _ B I) as [_ (rad & r & _ & _ & Q)]; apply flr_values in Q.
assert (J : In (bd_flr d) (map bd_flr (of_room (bd_connected_space_id d) out)))
  by (apply in_map, filter_In; split; [exact (nth_error_In _ _ E)|apply Z.eqb_refl]).
rewrite Q in J; apply in_map_iff in J; destruct J as [bs [<- J]]; destruct (areas_pos _ I) as [P1 _].
assert (P3 : 0 < bs_area bs) by (apply filter_In in J; apply simple_area, J).
rewrite div_ok by lra; cbn; eexists; (split; [reflexivity|]).
assert (0 < bs_area bs / floor_area (parts (bd_connected_space_id d) bss)) by (apply Rdiv_lt_0_compat; assumption).
destruct r, (bs_is_floor bs); lra.
Qed.

Lemma mrt_room i : (0 <= i < Z.of_nat (List.length rooms))%Z -> adds_up_to (map bd_f_mrt_hum (of_room i out)) 1.
Proof.
intro I; destruct (areas_pos _ I); apply (view_factors _ _ _ _ _ _ B I); lra.
Qed.

(* a room with radiant heating has a heated floor *)
Lemma flr_room i r e : nth_error rooms i = Some r -> r_heating r = Some e -> e_type e = Some "radiative"%string ->
  exists j d f, nth_error out j = Some d /\ bd_connected_space_id d = Z.of_nat i /\ bd_flr d = Some f /\ 0 < f.
Proof.
intros E H T; assert (I : (0 <= Z.of_nat i < Z.of_nat (List.length rooms))%Z) by (assert (i < List.length rooms)%nat by (apply nth_error_Some; congruence); lia).
destruct (areas_pos _ I) as [P1 _]; assert (Q := radiant_each _ _ _ _ _ _ _ _ _ B E H T ltac:(lra)).
destruct (some_part _ true I) as [bs [A F]]; assert (P3 : 0 < bs_area bs) by (apply filter_In in A; apply simple_area, A).
assert (J := in_map (fun bs => Some (if bs_is_floor bs then if ("radiative" =? "radiative")%string then bs_area bs / floor_area (parts (Z.of_nat i) bss) else 0 else 0)) _ _ A).
rewrite <- Q in J; apply in_map_iff in J; destruct J as [d [D J]]; apply filter_In in J; destruct J as [J1 J2]; apply Z.eqb_eq in J2.
apply In_nth_error in J1; destruct J1 as [j J1]; rewrite F in D; cbn in D; exists j, d; eexists; split; [exact J1|split; [exact J2|split; [exact D|]]].
apply Rdiv_lt_0_compat; assumption.
Qed.

Lemma rear_out j d k c : nth_error out j = Some d -> bd_k_inside d = Some (k, c) -> (0 <= k < Z.of_nat (List.length out))%Z /\ 0 <= c <= 1.
Proof.
intros E K; destruct (out_at j d E) as (b & bs & Eb & Es & G); destruct (written_entry _ _ _ _ _ _ _ _ B Es E) as (W & _); rewrite K in W.
assert (Lj : (j < List.length out)%nat) by (apply nth_error_Some; congruence); rewrite out_length in *.
destruct (simple_fields _ _ _ G) as (Id & _ & _ & _ & _ & _ & t & T & Kt & Td & Rr); apply boundary_type_ok in Kt.
assert (Sb := S j b Eb).
assert (X : is_external t = true -> (if Rlt_dec (bs_h_td bs) 1 then Ok (Some (bs_id bs, round1 (1 - bs_h_td bs))) else Ok None) = Ok (Some (k, c)) ->
  (0 <= k < Z.of_nat (List.length bds))%Z /\ 0 <= c <= 1).
{ intros Ex Q; rewrite Ex in Td; destruct (Rlt_dec _ _); [|discriminate]; injection Q as <- <-.
  rewrite (sb_id _ _ _ _ _ Sb) in Id; injection Id as Id; split; [lia|]; apply round_unit; [exact N|exact (sb_coef _ _ _ _ _ Sb _ Td)]. }
unfold k_inside in W; destruct (bs_type bs); try (apply X; [rewrite Kt; reflexivity|exact W]).
- rewrite Kt in Rr; cbn in Rr; destruct Rr as [Rr _]; destruct (bs_rear_surface_boundary_id bs) as [k'|]; [|discriminate]; injection W as <- <-.
  split; [exact (sb_rear _ _ _ _ _ Sb _ Rr)|lra].
- discriminate.
Qed.

Lemma boundaries_sensible : exists cb, read_boundaries inv (List.length rooms) out = Ok cb /\
  cb_connected cb = map bd_connected_space_id out /\ cb_area cb = map bd_area out /\ cb_h_c cb = map bd_h_c out /\
  forall j d, nth_error out j = Some d -> sensible_column cb (List.length rooms) (List.length out) j d.
Proof.
assert (Fg : forall d, In d out -> exists bs, bd_is_ground d = match bs_type bs with Ground => "true" | _ => "false" end%string /\ bd_is_solar_absorbed d = bool_string (bs_is_solar_absorbed_inside bs)).
{ intros d I; apply In_nth_error in I; destruct I as [j J]; destruct (out_at j d J) as (b & bs & Eb & Es & G).
  destruct (written_entry _ _ _ _ _ _ _ _ B Es J) as (_ & _ & b' & _ & _ & _ & _ & _ & _ & _ & _ & A1 & A2); eauto. }
assert (Wl : forall j d, nth_error out j = Some d -> exists rf f, bind (create_factory (bd_spec d)) (get_response_factors inv) = Ok (rf, f) /\ 0 < rfa0 rf /\ 0 <= rft0 rf <= 1).
{ intros j d J; destruct (out_at j d J) as (b & bs & Eb & Es & G); destruct (written_entry _ _ _ _ _ _ _ _ B Es J) as (_ & _ & b' & Eb' & Sp & _).
  rewrite Eb in Eb'; injection Eb' as <-; exact (wall_responds inv ws b bs _ G Sp (sb_wall _ _ _ _ _ (S j b Eb))). }
unfold read_boundaries.
destruct (mapM_total _ _ (fun b => read_flag "true" "false" (bd_is_ground b)) out) as [g ->].
{ intros d I; destruct (Fg d I) as [bs [G1 G2]]; destruct (flags_read d bs G1 G2) as [-> _]; eauto. }
destruct (mapM _ out) as [rfs|] eqn:R.
2:{ destruct (mapM_total _ _ (fun b => bind (create_factory (bd_spec b)) (get_response_factors inv)) out) as [x X]; [|rewrite R in X; discriminate].
    intros d I; apply In_nth_error in I; destruct I as [j J]; destruct (Wl j d J) as (rf & f & -> & _); eauto. }
destruct (mapM_total _ _ (fun b => read_flag "True" "False" (bd_is_solar_absorbed b)) out) as [a ->].
{ intros d I; destruct (Fg d I) as [bs [G1 G2]]; destruct (flags_read d bs G1 G2) as [_ ->]; eauto. }
destruct (mapM_total _ _ (k_ei_row (List.length out)) out) as [k ->].
{ intros d I; apply In_nth_error in I; destruct I as [j J]; unfold k_ei_row; destruct (bd_k_inside d) as [[q c]|] eqn:K; [|eauto].
  destruct (rear_out j d q c J K) as [P _]; unfold py_set; rewrite repeat_length, py_index_in by exact P; cbn; eauto. }
cbn [bind]; eexists; split; [reflexivity|]; cbn; do 3 (split; [reflexivity|]); intros j d J.
destruct (out_at j d J) as (b & bs & Eb & Es & G); destruct (written_entry _ _ _ _ _ _ _ _ B Es J) as (_ & _ & b' & _ & _ & _ & _ & _ & Wa & Wh & _).
destruct (simple_fields _ _ _ G) as (_ & _ & Ar & _ & _ & Hc & _).
constructor.
- exact (room_of_out j d J).
- rewrite Wa; exact (sb_area _ _ _ _ _ (S j b Eb) _ Ar).
- rewrite Wh; exact (sb_h_c _ _ _ _ _ (S j b Eb) _ Hc).
- destruct (Wl j d J) as (rf & f & X & P); destruct (mapM_ok _ _ _ _ _ R) as [_ Q]; destruct (Q j d J) as [y [Y1 Y2]].
  exists rf; cbn; rewrite nth_error_map, Y2; cbn; split; [|exact P]; cbv beta in Y1; rewrite X in Y1; injection Y1 as <-; reflexivity.
- intros q c; exact (rear_out j d q c J).
- exact (mrt_out j d J).
- exact (flr_out j d J).
Qed.

Lemma out_fields : Forall2 (fun b d => connected_room_id b = Some (bd_connected_space_id d) /\ BoundaryDict.area b = Some (bd_area d)) bds out.
Proof.
apply forall2_intro; [symmetry; exact out_length|]; intros j b d Eb Ed; destruct (out_at j d Ed) as (b' & bs & Eb' & Es & G).
rewrite Eb in Eb'; injection Eb' as <-; destruct (written_entry _ _ _ _ _ _ _ _ B Es Ed) as (_ & _ & b'' & _ & _ & _ & _ & -> & -> & _).
destruct (simple_fields _ _ _ G) as (_ & Cn & Ar & _); auto.
Qed.
End Boundaries.

(* the areas of a room, as read and as given *)
Lemma surfaces_read (f : Z -> nat) bds out i : (forall d, In d out -> f (bd_connected_space_id d) = Z.to_nat (bd_connected_space_id d) /\ (0 <= bd_connected_space_id d)%Z) ->
  Forall2 (fun b d => connected_room_id b = Some (bd_connected_space_id d) /\ BoundaryDict.area b = Some (bd_area d)) bds out ->
  ViewFactor.room_areas i (map f (map bd_connected_space_id out)) (map bd_area out) = surfaces (Z.of_nat i) bds.
Proof.
intros P F; induction F as [|b d bds out [E1 E2] F IH]; [reflexivity|].
unfold ViewFactor.room_areas in *; cbn [map combine filter fst surfaces flat_map]; rewrite E1, E2; fold (surfaces (Z.of_nat i) bds); rewrite <- IH by (intros; apply P; right; assumption).
destruct (P d (or_introl eq_refl)) as [-> Q].
destruct (Nat.eqb_spec (Z.to_nat (bd_connected_space_id d)) i) as [E|E]; destruct (Z.eqb_spec (bd_connected_space_id d) (Z.of_nat i)); try lia; reflexivity.
Qed.

(* the schedules *)
Lemma local_vent_ge0 tbl cal n_p names a c i n x : sensible_tables tbl cal -> List.length cal = 365%nat ->
  get_compiled_schedules tbl cal n_p names a = Ok c -> List.length a = List.length names -> (i < List.length names)%nat -> (n < 365 * 96)%nat ->
  at2 (v_local c) i n x -> 0 <= x.
Proof.
intros [K Nn] Lc E La Hi Hn X.
destruct (nth_error names i) as [room|] eqn:Er; [|apply nth_error_None in Er; lia].
destruct (nth_error a i) as [area|] eqn:Ea; [|apply nth_error_None in Ea; lia].
destruct (compiled_ok _ _ _ _ _ _ _ _ _ _ E Er Ea Hn) as (app & heat & vap & light & vent & people & ac & _ & _ & _ & _ & S & _ & _ & _ & _ & V & _).
rewrite (at2_fun _ _ _ _ _ X V); destruct S as [s [Gs Ns]].
assert (D : n = (n / 96 * 96 + n mod 96)%nat) by (rewrite Nat.mul_comm; apply Nat.div_mod; discriminate).
assert (T : (n mod 96 < 96)%nat) by (apply Nat.mod_upper_bound; discriminate).
assert (Kd : (n / 96 < 365)%nat) by (apply Nat.div_lt_upper_bound; [discriminate|rewrite Nat.mul_comm; exact Hn]).
destruct (nth_error cal (n / 96)) as [day|] eqn:Ec; [|apply nth_error_None in Ec; lia].
rewrite Forall_forall in K; assert (Kn := K day (nth_error_In _ _ Ec)).
destruct (get_schedule_entry _ _ _ _ _ _ _ _ _ Gs Ec Kn T) as (m & u & v & w & _ & Eu & Ev & Ew & [Bn Bv]).
rewrite D in Ns; rewrite Ns in Ew; injection Ew as <-.
assert (0 <= u) by exact (Nn _ _ _ _ _ Eu); assert (0 <= v) by exact (Nn _ _ _ _ _ Ev); nra.
Qed.

(* what a written house consists of *)
Lemma house_components round1 tbl cal ws d m : make_house round1 tbl cal ws d = Ok m ->
  exists rooms bds bss names a bd, h_rooms d = Some rooms /\ h_boundaries d = Some bds /\ h_building d = Some bd /\
  mapM (fun r => key (r_name r)) rooms = Ok names /\ mapM (fun r => key (r_floor_area r)) rooms = Ok a /\
  mapM (get_boundary_simple ws) bds = Ok bss /\ make_spaces_dict rooms = Ok (m_spaces m) /\
  make_boundaries round1 bss rooms bds = Ok (m_boundaries m) /\ make_building_dict bd = Ok (m_building m) /\
  get_compiled_schedules tbl cal (get_total_number_of_residents (sum a)) names a = Ok (m_schedules m).
Proof.
unfold make_house; intro H.
apply bind_ok in H; destruct H as [rooms [H1 H]]; apply key_ok in H1; apply bind_ok in H; destruct H as [names [H2 H]].
apply bind_ok in H; destruct H as [bds [H3 H]]; apply key_ok in H3; apply bind_ok in H; destruct H as [bss [H4 H]].
apply bind_ok in H; destruct H as [q [H5 H]]; apply bind_ok in H; destruct H as [a [H6 H]].
apply bind_ok in H; destruct H as [sch [H7 H]]; apply bind_ok in H; destruct H as [bd [H8 H]]; apply key_ok in H8.
apply bind_ok in H; destruct H as [bld [H9 H]]; apply bind_ok in H; destruct H as [ss [H10 H]].
apply bind_ok in H; destruct H as [out [H11 H]]; apply bind_ok in H; destruct H as [q' [H12 H]]; apply bind_ok in H; destruct H as [th [H13 H]].
injection H as <-; exists rooms, bds, bss, names, a, bd; cbn; auto 12.
Qed.
