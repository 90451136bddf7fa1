From Coq Require Import Reals List String ZArith Bool Lra Lia.
From Verif Require Import Model.Py Model.Trig Model.BoundaryDict Model.BoundarySimple Model.ResponseFactor Model.HouseDict Model.Initializer Model.ReadHouse
  Spec.HouseSpec Spec.GroupingSpec Lemmas.PyL Lemmas.VentL Lemmas.RoomsL Lemmas.BoundariesL Lemmas.WeightsL.
Import ListNotations.
Local Open Scope R_scope.

(* the wall described in the written file is the one of the input *)
Lemma spec_factory b t s : get_boundary_spec b t = Ok s ->
  exists f, create_factory s = Ok f /\
  match t with
  | Internal | ExternalGeneralPart => exists l r, BoundaryDict.layers b = Some l /\ BoundaryDict.outside_heat_transfer_resistance b = Some r /\
      f = Envelope (map thermal_capacity l) (map thermal_resistance l) r
  | Ground => exists l, BoundaryDict.layers b = Some l /\ f = GroundF (map thermal_capacity l) (map thermal_resistance l)
  | ExternalTransparentPart | ExternalOpaquePart => exists u r, BoundaryDict.u_value b = Some u /\ BoundaryDict.inside_heat_transfer_resistance b = Some r /\ f = Steady u r
  end.
Proof.
unfold get_boundary_spec; intro H; destruct t; repeat (apply bind_ok in H; destruct H as [? [?E H]]); injection H as <-; cbn;
  repeat match goal with E : key _ = Ok _ |- _ => apply key_ok in E end; eexists; (split; [reflexivity|]); eauto 6.
Qed.

Lemma flags_read d bs : bd_is_ground d = match bs_type bs with Ground => "true" | _ => "false" end%string ->
  bd_is_solar_absorbed d = bool_string (bs_is_solar_absorbed_inside bs) ->
  read_flag "true" "false" (bd_is_ground d) = Ok (match bs_type bs with Ground => true | _ => false end) /\
  read_flag "True" "False" (bd_is_solar_absorbed d) = Ok (bs_is_solar_absorbed_inside bs).
Proof. intros -> ->; destruct (bs_type bs), (bs_is_solar_absorbed_inside bs); split; reflexivity. Qed.

Lemma read_back round1 ws bds bss rooms out inv n cb j b :
  mapM (get_boundary_simple ws) bds = Ok bss -> make_boundaries round1 bss rooms bds = Ok out ->
  read_boundaries inv n out = Ok cb -> nth_error bds j = Some b ->
  exists id room a hc t ab,
  BoundaryDict.b_id b = Some id /\ BoundaryDict.connected_room_id b = Some room /\ BoundaryDict.area b = Some a /\
  BoundaryDict.h_c b = Some hc /\ BoundaryDict.boundary_type b = Some t /\ BoundaryDict.is_solar_absorbed_inside b = Some ab /\
  nth_error (cb_id cb) j = Some id /\ nth_error (cb_connected cb) j = Some room /\ nth_error (cb_area cb) j = Some a /\
  nth_error (cb_h_c cb) j = Some hc /\ nth_error (cb_is_ground cb) j = Some (t =? "ground")%string /\ nth_error (cb_is_solar_abs cb) j = Some ab.
Proof.
intros M H R E; destruct (simple_of _ _ _ _ _ M E) as [bs [Es S]].
assert (Lb : List.length out = List.length bss) by (destruct (boundaries_ok _ _ _ _ _ H) as [_ [_ [_ [_ [_ [_ [L _]]]]]]]; exact L).
destruct (nth_error out j) as [d|] eqn:Ed.
2:{ apply nth_error_None in Ed; assert (j < List.length bss)%nat by (apply nth_error_Some; congruence); lia. }
destruct (written_entry _ _ _ _ _ _ _ _ H Es Ed) as [_ [_ [b' [_ [_ [W1 [_ [W2 [W3 [W4 [_ [W5 W6]]]]]]]]]]]].
destruct (simple_fields _ _ _ S) as [F1 [F2 [F3 [_ [F5 [F6 [t [F7 [F8 _]]]]]]]]].
exists (bs_id bs), (bs_connected_room_id bs), (bs_area bs), (bs_h_c bs), t, (bs_is_solar_absorbed_inside bs).
do 6 (split; [assumption|]).
destruct (flags_read d bs W5 W6) as [G1 G2].
destruct (rows_read _ _ _ _ R) as [_ [_ [FG FA]]].
destruct (forall2_nth _ _ _ _ _ _ _ FG Ed) as [x1 [X1 Y1]]; destruct (forall2_nth _ _ _ _ _ _ _ FA Ed) as [x2 [X2 Y2]].
rewrite G1 in Y1; injection Y1 as <-; rewrite G2 in Y2; injection Y2 as <-.
assert (Cols : cb_id cb = map bd_id out /\ cb_connected cb = map bd_connected_space_id out /\ cb_area cb = map bd_area out /\ cb_h_c cb = map bd_h_c out).
{ unfold read_boundaries in R; apply bind_ok in R; destruct R as [? [_ R]]; apply bind_ok in R; destruct R as [? [_ R]].
  apply bind_ok in R; destruct R as [? [_ R]]; apply bind_ok in R; destruct R as [? [_ R]]; injection R as <-; auto. }
destruct Cols as [-> [-> [-> ->]]]; rewrite !nth_error_map, Ed; cbn; rewrite W1, W2, W3, W4.
do 4 (split; [reflexivity|]); split; [|exact X2].
rewrite X1; f_equal; apply boundary_type_ok in F8; rewrite F8; destruct (bs_type bs); reflexivity.
Qed.

(* furniture, air paths and the convective part of radiant heating *)
Lemma spaces_furniture rooms ss cr i r : make_spaces_dict rooms = Ok ss -> read_spaces ss = Ok cr -> nth_error rooms i = Some r ->
  exists v s, r_volume r = Some v /\ nth_error ss i = Some s /\
  nth_error (cr_c_sh cr) i = Some (12600 * v) /\ nth_error (cr_g_sh cr) i = Some (22 / 100000 * (12600 * v)) /\
  nth_error (cr_c_lh cr) i = Some (168 / 10 * v) /\ nth_error (cr_g_lh cr) i = Some (18 / 10000 * (168 / 10 * v)) /\
  nth_error (cr_v_int_vent cr) i = Some (sp_next_spaces s) /\ nth_error (cr_beta cr) i = Some (sp_beta s).
Proof.
intros H C E; destruct (spaces_row _ _ H) as [_ N]; destruct (N i r E) as (s & w & S & Es & M & _).
exists (rr_volume w), s; destruct M as (_ & _ & M3 & _); split; [exact M3|]; split; [exact S|].
unfold read_spaces in C; repeat (apply bind_ok in C; destruct C as [? [_ C]]); injection C as <-; cbn.
rewrite !nth_error_map, S, Es; cbn; unfold get_c_cap_frt, get_g_sh_frt, get_c_lh_frt, get_g_lh_frt.
repeat split; f_equal; field.
Qed.

(* the entry of an incidence matrix *)
Lemma nth_range k n : (k < n)%nat -> nth_error (range 0 (Z.of_nat n)) k = Some (Z.of_nat k).
Proof.
intro H; unfold range; rewrite nth_error_map, Z.sub_0_r, Nat2Z.id.
rewrite (nth_error_nth' _ 0%nat) by (rewrite seq_length; exact H); rewrite seq_nth by exact H; reflexivity.
Qed.

Lemma matrices_read inv n out cb i j d : read_boundaries inv n out = Ok cb -> nth_error out j = Some d -> (i < n)%nat ->
  let here := (bd_connected_space_id d =? Z.of_nat i)%Z in
  (exists row, nth_error (cb_p_is_js cb) i = Some row /\ nth_error row j = Some (if here then 1 else 0)) /\
  (exists row, nth_error (cb_flr_js_is cb) j = Some row /\ forall x, bd_flr d = Some x -> nth_error row i = Some (Some (if here then x else 0))) /\
  (exists row, nth_error (cb_f_mrt_hum_is_js cb) i = Some row /\ forall x, bd_f_mrt_hum d = Some x -> nth_error row j = Some (Some (if here then x else 0))).
Proof.
intros R E L here; unfold read_boundaries in R; repeat (apply bind_ok in R; destruct R as [? [_ R]]); injection R as <-; cbn.
rewrite !nth_error_map, E, (nth_range _ _ L); cbn.
assert (P : forall x, p_times (p_entry (Z.of_nat i) d) (Some x) = Some (if here then x else 0)).
{ intro y; unfold p_times, p_entry; fold here; destruct here; cbn; f_equal; ring. }
split; [|split]; eexists; (split; [reflexivity|]).
- rewrite nth_error_map, E; cbn; unfold p_entry; fold here; reflexivity.
- intros y Ex; rewrite nth_error_map, (nth_range _ _ L); cbn [option_map]; rewrite Ex, P; reflexivity.
- intros y Ex; rewrite nth_error_map, E; cbn [option_map]; rewrite Ex, P; reflexivity.
Qed.

(* the capacity of radiative cooling is written, but looked for elsewhere *)
Lemma radiative_cooling_unread rooms ss i r e m a : make_spaces_dict rooms = Ok ss -> nth_error rooms i = Some r ->
  r_cooling r = Some e -> radiative_equipment e m a ->
  exists s, nth_error ss i = Some s /\ ro_installed (o_radiative (sp_cooling s)) = true /\
  ro_max_capacity (o_radiative (sp_cooling s)) = Some (m * a) /\ radiative_cooling s = Err KeyError.
Proof.
intros H E Ec [T Q]; destruct (spaces_row _ _ H) as [_ N]; destruct (N i r E) as (s & w & S & -> & M & _).
destruct M as (_ & _ & _ & _ & _ & _ & _ & [c [Hc Rc]]); rewrite Ec in Hc; injection Hc as <-.
apply read_kind in Rc; exists (make_space w); split; [exact S|]; cbn; unfold radiative_cooling; cbn.
destruct (rr_cooling w) as [|? ? ? ?|m' a'].
- congruence.
- destruct Rc; congruence.
- destruct Rc as [_ [x [X1 [X2 X3]]]]; rewrite Q in X1; injection X1 as <-; cbn in X2, X3; injection X2 as <-; injection X3 as <-; cbn; auto.
Qed.

(* similar inner walls lead to rooms of the same type *)
Lemma next_room_inj s t z : next_room_index s = Ok z -> next_room_index t = Ok z -> s = t.
Proof.
assert (K : forall s z, next_room_index s = Ok z -> s = nth (Z.to_nat z) room_types ""%string).
{ intros s' z'; unfold next_room_index; intro H.
  repeat match type of H with context [if (?a =? ?b)%string then _ else _] =>
    destruct (String.eqb_spec a b) as [->|]; [injection H as <-; reflexivity|] end; discriminate. }
intros A B; rewrite (K _ _ A), (K _ _ B); reflexivity.
Qed.

Lemma internal_neighbour ws b bs : get_boundary_simple ws b = Ok bs -> bs_type bs = Internal ->
  exists s, BoundaryDict.next_room_type b = Some s /\ next_room_index s = Ok (bs_next_room_type bs).
Proof.
unfold get_boundary_simple; intros H T.
apply bind_ok in H; destruct H as [id [_ H]].
apply bind_ok in H; destruct H as [nm [_ H]].
apply bind_ok in H; destruct H as [cn [_ H]].
apply bind_ok in H; destruct H as [t [_ H]].
apply bind_ok in H; destruct H as [bt [Ty H]].
apply bind_ok in H; destruct H as [ar [_ H]].
apply bind_ok in H; destruct H as [sun [_ H]].
apply bind_ok in H; destruct H as [td [_ H]].
apply bind_ok in H; destruct H as [nx [Nx H]].
assert (B : bs_type bs = bt /\ bs_next_room_type bs = nx).
{ repeat (first [apply bind_ok in H; destruct H as [? [_ H]] | destruct (Req_EM_T _ _) in H; [discriminate|]]).
  injection H as <-; split; reflexivity. }
destruct B as [B1 B2]; rewrite B1 in T; subst bt; rewrite B2; apply boundary_type_ok in Ty; subst t; cbn in Nx.
apply bind_ok in Nx; destruct Nx as [s [K Nx]]; apply key_ok in K; exists s; split; assumption.
Qed.

Lemma similar_neighbours ws b1 b2 s1 s2 : get_boundary_simple ws b1 = Ok s1 -> get_boundary_simple ws b2 = Ok s2 ->
  similar s1 s2 -> bs_type s1 = Internal ->
  exists room, BoundaryDict.next_room_type b1 = Some room /\ BoundaryDict.next_room_type b2 = Some room.
Proof.
intros H1 H2 (_ & T & _ & _ & _ & _ & N) I.
destruct (internal_neighbour _ _ _ H1 I) as [r1 [E1 K1]].
rewrite T in I; destruct (internal_neighbour _ _ _ H2 I) as [r2 [E2 K2]].
rewrite (N (eq_trans T I)) in K1; rewrite <- (next_room_inj _ _ _ K1 K2) in E2; eauto.
Qed.

Lemma spaces_beta rooms ss s : make_spaces_dict rooms = Ok ss -> In s ss -> sp_beta s = 0.
Proof.
unfold make_spaces_dict; intros H I; repeat (apply bind_ok in H; destruct H as [? [_ H]]).
injection H as <-; apply in_map_iff in I; destruct I as [r [<- _]]; simpl; destruct (rr_heating r); reflexivity.
Qed.
