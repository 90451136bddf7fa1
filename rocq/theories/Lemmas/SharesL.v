From Coq Require Import Reals List String ZArith Bool Lra Lia.
From Verif Require Import Model.Py Model.Trig Model.BoundaryDict Model.BoundarySimple Model.ResponseFactor Model.HouseDict Model.Schedule Model.Initializer
  Spec.HouseSpec Spec.CompleteSpec Lemmas.PyL Lemmas.CoreLoopL Lemmas.ScheduleL Lemmas.VentL Lemmas.RoomsL Lemmas.BoundariesL Lemmas.WeightsL Lemmas.MakeHouseL Lemmas.SolarSumL Examples.MakeHouseEx.
Import ListNotations.
Local Open Scope R_scope.

Lemma adds_eq l x y : adds_up_to l x -> x = y -> adds_up_to l y.
Proof. congruence. Qed.

Lemma view_factors round1 bss rooms bds out i : make_boundaries round1 bss rooms bds = Ok out -> (0 <= i < Z.of_nat (List.length rooms))%Z ->
  floor_area (parts i bss) <> 0 -> other_area (parts i bss) <> 0 -> adds_up_to (map bd_f_mrt_hum (of_room i out)) 1.
Proof.
intros H I F O; destruct (written_shares _ _ _ _ _ _ H I) as [S _].
eapply adds_eq; [apply (mrt_sum _ _ S); left; assumption|]; field; split; assumption.
Qed.

Lemma filter_none A (P : A -> bool) l : (forall x, In x l -> P x = false) -> filter P l = [].
Proof. induction l as [|x l IH]; intro H; simpl; [reflexivity|]; rewrite (H x (or_introl eq_refl)); apply IH; intros y I; apply H; right; exact I. Qed.

Lemma view_factors_no_floor round1 bss rooms bds out i : make_boundaries round1 bss rooms bds = Ok out -> (0 <= i < Z.of_nat (List.length rooms))%Z ->
  (forall bs, In bs (parts i bss) -> bs_is_floor bs = false) -> other_area (parts i bss) <> 0 -> adds_up_to (map bd_f_mrt_hum (of_room i out)) (55 / 100).
Proof.
intros H I F O; destruct (written_shares _ _ _ _ _ _ H I) as [S _].
eapply adds_eq; [apply (mrt_sum _ _ S); [right; exact F|left; exact O]|].
assert (Z : floor_area (parts i bss) = 0) by (unfold floor_area; rewrite filter_none by exact F; reflexivity).
rewrite Z; replace (0 / 0) with 0 by (unfold Rdiv; ring); field; exact O.
Qed.

Lemma view_factors_only_floor round1 bss rooms bds out i : make_boundaries round1 bss rooms bds = Ok out -> (0 <= i < Z.of_nat (List.length rooms))%Z ->
  (forall bs, In bs (parts i bss) -> bs_is_floor bs = true) -> floor_area (parts i bss) <> 0 -> adds_up_to (map bd_f_mrt_hum (of_room i out)) (45 / 100).
Proof.
intros H I F O; destruct (written_shares _ _ _ _ _ _ H I) as [S _].
eapply adds_eq; [apply (mrt_sum _ _ S); [left; exact O|right; exact F]|].
assert (Z : other_area (parts i bss) = 0).
{ unfold other_area; rewrite filter_none; [reflexivity|]; intros x Ix; rewrite (F x Ix); reflexivity. }
rewrite Z; replace (0 / 0) with 0 by (unfold Rdiv; ring); field; exact O.
Qed.

Lemma radiative_read rooms rad i r e t : mapM is_radiative rooms = Ok rad -> nth_error rooms i = Some r -> r_heating r = Some e -> e_type e = Some t ->
  nth_error rad i = Some (t =? "radiative")%string.
Proof.
intros M E H T; destruct (mapM_ok _ _ _ _ _ M) as [_ N]; destruct (N i r E) as [y [Y J]].
unfold is_radiative in Y; rewrite H in Y; cbn in Y; rewrite T in Y; cbn in Y; injection Y as <-; exact J.
Qed.

Lemma room_shares round1 bss rooms bds out i r e t : make_boundaries round1 bss rooms bds = Ok out ->
  nth_error rooms i = Some r -> r_heating r = Some e -> e_type e = Some t ->
  get_flr_i_js (map bs_area (parts (Z.of_nat i) bss)) (t =? "radiative")%string (map bs_is_floor (parts (Z.of_nat i) bss)) = Ok (map bd_flr (of_room (Z.of_nat i) out)).
Proof.
intros H E Eh Et; assert (L : (i < List.length rooms)%nat) by (apply nth_error_Some; congruence).
destruct (written_shares _ _ _ _ _ (Z.of_nat i) H ltac:(lia)) as [_ [rad [b [M [N G]]]]].
rewrite Nat2Z.id, (radiative_read _ _ _ _ _ _ M E Eh Et) in N; injection N as <-; exact G.
Qed.

Lemma radiant_shares round1 bss rooms bds out i r e t : make_boundaries round1 bss rooms bds = Ok out ->
  nth_error rooms i = Some r -> r_heating r = Some e -> e_type e = Some t -> floor_area (parts (Z.of_nat i) bss) <> 0 ->
  adds_up_to (map bd_flr (of_room (Z.of_nat i) out)) (if (t =? "radiative")%string then 1 else 0).
Proof. intros H E Eh Et F; apply (flr_sum _ _ _ (room_shares _ _ _ _ _ _ _ _ _ H E Eh Et) F). Qed.

Lemma radiant_each round1 bss rooms bds out i r e t : make_boundaries round1 bss rooms bds = Ok out ->
  nth_error rooms i = Some r -> r_heating r = Some e -> e_type e = Some t -> floor_area (parts (Z.of_nat i) bss) <> 0 ->
  map bd_flr (of_room (Z.of_nat i) out) =
  map (fun bs => Some (if bs_is_floor bs then (if (t =? "radiative")%string then bs_area bs / floor_area (parts (Z.of_nat i) bss) else 0) else 0)) (parts (Z.of_nat i) bss).
Proof.
intros H E Eh Et F; rewrite (flr_values _ _ _ (room_shares _ _ _ _ _ _ _ _ _ H E Eh Et)).
apply map_ext; intro bs; rewrite div_ok by exact F; cbn; f_equal; destruct (bs_is_floor bs), (t =? "radiative")%string; ring.
Qed.

Lemma radiant_undefined round1 bss rooms bds out i d : make_boundaries round1 bss rooms bds = Ok out -> (0 <= i < Z.of_nat (List.length rooms))%Z ->
  floor_area (parts i bss) = 0 -> In d (of_room i out) -> bd_flr d = None.
Proof.
intros H I F D; destruct (written_shares _ _ _ _ _ _ H I) as [_ [rad [r [_ [_ G]]]]].
apply (flr_no_floor _ _ _ G F), in_map, D.
Qed.

(* a room without floor *)
Definition nf_bds : list bdict := [ex_wall 1; ex_window 0].

Lemma nf_bss : exists bss, mapM (get_boundary_simple ex_weather) nf_bds = Ok bss /\
  map bs_is_floor bss = [false; false] /\ map bs_area bss = [30; 2] /\ map bs_connected_room_id bss = [0%Z; 0%Z].
Proof.
assert (C := ex_boundaries_complete 1 0); inversion C as [|x l _ C']; subst; inversion C' as [|x l C1 C'']; subst; inversion C'' as [|x l C2 _]; subst.
destruct (boundary_total ex_weather (ex_wall 1) (repeat_length _ _) C1) as [b1 [B1 _]].
destruct (boundary_total ex_weather (ex_window 0) (repeat_length _ _) C2) as [b2 [B2 _]].
exists [b1; b2]; split; [unfold nf_bds; cbn [mapM]; rewrite B1, B2; reflexivity|].
destruct (simple_fields _ _ _ B1) as [_ [P1 [Q1 [R1 _]]]]; destruct (simple_fields _ _ _ B2) as [_ [P2 [Q2 [R2 _]]]].
cbn in P1, Q1, R1, P2, Q2, R2; cbn [map]; repeat split; congruence.
Qed.

Lemma no_floor_house : exists bss rooms bds, forall round1, exists out,
  make_boundaries round1 bss rooms bds = Ok out /\ (List.length rooms = 1)%nat /\
  adds_up_to (map bd_f_mrt_hum (of_room 0 out)) (55 / 100) /\ exists d, In d (of_room 0 out) /\ bd_flr d = None.
Proof.
destruct nf_bss as [bss [M [F [A Cn]]]]; exists bss, [ex_room ex_cooling], nf_bds; intro round1.
destruct (boundaries_total round1 ex_weather bss [ex_room ex_cooling] nf_bds M) as [out O].
- assert (C := ex_boundaries_complete 1 0); inversion C; subst; assumption.
- intros r [<-|[]]; exists ex_floor_heating, "radiative"%string; split; reflexivity.
- cbn; intros i Hi; exists (ex_wall 1); split; [left; reflexivity|]; replace i with 0%Z by lia; reflexivity.
- exists out; split; [exact O|]; split; [reflexivity|].
  destruct bss as [|b1 [|b2 [|]]]; try discriminate F.
  cbn in F, A, Cn; injection F as F1 F2; injection A as A1 A2; injection Cn as C1 C2.
  assert (P : parts 0 [b1; b2] = [b1; b2]) by (unfold parts; cbn; rewrite C1, C2; reflexivity).
  assert (NF : forall bs, In bs (parts 0 [b1; b2]) -> bs_is_floor bs = false) by (rewrite P; intros bs [<-|[<-|[]]]; assumption).
  split.
  + apply (view_factors_no_floor round1 [b1; b2] [ex_room ex_cooling] nf_bds out 0 O); [cbn; lia|exact NF|].
    rewrite P; unfold other_area; cbn; rewrite F1, F2; cbn; rewrite A1, A2; unfold total; cbn; lra.
  + destruct (boundaries_ok _ _ _ _ _ O) as [f1 [f2 [f3 [_ [_ [_ [L G]]]]]]].
    destruct (G 0%nat b1 eq_refl) as [k [b [s [fl [fm [_ [_ [_ [_ [_ E]]]]]]]]]].
    exists (entry_of b1 k s fl fm); assert (I : In (entry_of b1 k s fl fm) (of_room 0 out)).
    { unfold of_room; apply filter_In; split; [apply (nth_error_In _ _ E)|cbn; rewrite C1; reflexivity]. }
    split; [exact I|].
    apply (radiant_undefined round1 [b1; b2] [ex_room ex_cooling] nf_bds out 0 _ O); [cbn; lia| |exact I].
    unfold floor_area; rewrite filter_none by exact NF; reflexivity.
Qed.

Lemma example_shares round1 : exists m, make_house round1 cook_tables cook_calendar ex_weather (ex_house ex_cooling 1 0) = Ok m /\
  adds_up_to (map bd_f_mrt_hum (of_room 0 (m_boundaries m))) 1 /\ adds_up_to (map bd_flr (of_room 0 (m_boundaries m))) 1.
Proof.
destruct (ex_house_made round1 ex_cooling 1 0 ex_cooling_complete) as [m H]; exists m; split; [exact H|].
destruct (house_parts _ _ _ _ _ _ H) as [rooms [bds [bss [E1 [E2 [M [_ [_ [O _]]]]]]]]]; cbn in E1, E2; injection E1 as <-; injection E2 as <-.
clear H; cbn [mapM] in M.
apply bind_ok in M; destruct M as [b1 [B1 M]]; apply bind_ok in M; destruct M as [l1 [M1 M]]; injection M as <-.
apply bind_ok in M1; destruct M1 as [b2 [B2 M]]; apply bind_ok in M; destruct M as [l2 [M2 M]]; injection M as <-.
apply bind_ok in M2; destruct M2 as [b3 [B3 M]]; apply bind_ok in M; destruct M as [l3 [M3 M]]; injection M as <-; injection M3 as <-.
destruct (simple_fields _ _ _ B1) as [_ [P1 [Q1 [R1 _]]]]; destruct (simple_fields _ _ _ B2) as [_ [P2 [Q2 [R2 _]]]].
destruct (simple_fields _ _ _ B3) as [_ [P3 [Q3 [R3 _]]]]; clear B1 B2 B3.
cbn in P1, Q1, R1, P2, Q2, R2, P3, Q3, R3; injection P1 as P1; injection P2 as P2; injection P3 as P3; injection Q1 as Q1; injection Q2 as Q2; injection Q3 as Q3.
injection R1 as R1; injection R2 as R2; injection R3 as R3.
assert (P : parts 0 [b1; b2; b3] = [b1; b2; b3]) by (unfold parts; cbn [filter]; rewrite <- P1, <- P2, <- P3; reflexivity).
assert (F : floor_area (parts 0 [b1; b2; b3]) <> 0).
{ rewrite P; unfold floor_area; cbn [filter]; rewrite <- R1, <- R2, <- R3; cbn [map]; rewrite <- Q1; unfold total; cbn; lra. }
assert (Ot : other_area (parts 0 [b1; b2; b3]) <> 0).
{ rewrite P; unfold other_area; cbn [filter]; rewrite <- R1, <- R2, <- R3; cbn [map negb]; rewrite <- Q2, <- Q3; unfold total; cbn; lra. }
split; [apply (view_factors _ _ _ _ _ 0 O); [cbn; lia|exact F|exact Ot]|].
exact (radiant_shares _ _ _ _ _ 0%nat (ex_room ex_cooling) ex_floor_heating "radiative" O eq_refl eq_refl eq_refl F).
Qed.
