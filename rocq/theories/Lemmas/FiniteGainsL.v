(* the solar gains and the outside temperatures are numbers *)
From Coq Require Import Reals List String ZArith Bool Lra Lia.
From Verif Require Import Model.Py Model.Trig Model.BoundaryDict Model.Inclined Model.SolarShading Model.Transmission Model.OutsideEqvTemp
  Model.BoundarySimple Model.HouseDict Model.Initializer Spec.HouseSpec Spec.CompleteSpec Spec.SensibleSpec
  Lemmas.PyL Lemmas.CoreLoopL Lemmas.VentL Lemmas.RoomsL Lemmas.BoundariesL Lemmas.WeightsL Lemmas.MakeHouseL Lemmas.SolarSumL Lemmas.SolarL.
Import ListNotations.
Local Open Scope R_scope.

Lemma ok_inj A (a b : A) : Ok a = Ok b -> a = b.
Proof. congruence. Qed.

Notation all_numbers := (Forall (fun x : option R => x <> None)).

Lemma mapM_numbers A (f : A -> res (option R)) l ys : mapM f l = Ok ys -> (forall x y, In x l -> f x = Ok y -> y <> None) -> all_numbers ys.
Proof.
intros H P; apply mapM_forall2 in H; induction H as [|x y l ys E F IH]; constructor; [apply (P x); [left; reflexivity|exact E]|].
apply IH; intros x' y' I; apply P; right; exact I.
Qed.

Lemma repeat_numbers x n : all_numbers (repeat (Some x) n).
Proof. apply Forall_forall; intros y I; apply repeat_spec in I; subst; discriminate. Qed.

Lemma theta_numbers o ws th : (forall w, In w ws -> exists a, a_sun w = Some a) -> ws <> [] -> get_theta_o_sol o ws = Ok th -> all_numbers th.
Proof.
intros Az NE; destruct o; cbn [get_theta_o_sol]; intro H.
- apply ok_inj in H; subst th; apply repeat_numbers.
- apply (mapM_numbers _ _ _ _ H); intros w y I E; unfold theta_opaque in E; apply bind_ok in E; destruct E as [ab [_ E]].
  unfold get_i_is_j_n in E; destruct (Az w I) as [a Ea]; rewrite Ea in E.
  destruct (aoi_ok (h_sun w) a (fst ab) (snd ab)) as [t [T _]]; rewrite T in E; cbn in E; injection E as <-; discriminate.
- apply ok_inj in H; subst th; apply Forall_forall; intros y I; apply in_map_iff in I; destruct I as [w [<- _]]; discriminate.
- apply (mapM_numbers _ _ _ _ H); intros w y I E; unfold theta_transparent in E; apply bind_ok in E; destruct E as [ab [_ E]]; injection E as <-; discriminate.
- apply ok_inj in H; subst th; unfold div; destruct (Req_EM_T _ _) as [Z|_]; [|apply repeat_numbers].
  exfalso; destruct ws as [|w ws]; [congruence|]; cbn [List.length] in Z; rewrite S_INR in Z; assert (0 <= INR (List.length ws)) by apply pos_INR; lra.
Qed.

(* the direct radiation that passes a sunshade *)
Lemma shade_number b s w a f : create_shading b = Ok s -> a_sun w = Some a ->
  (forall p dir al be, solar_shading_part b = Some p -> existence p = true -> BoundaryDict.direction b = Some dir ->
     get_w_alpha_j_w_beta_j dir = Ok (al, be) -> 0 < h_sun w -> cos (a - al) <> 0) ->
  (forall p h, solar_shading_part b = Some p -> existence p = true -> d_h p = Some h -> h <> 0) ->
  get_f_ss_d_j_n s (h_sun w) (a_sun w) = Ok f -> f <> None.
Proof.
unfold create_shading; intros C Ea Pl Dh F.
apply bind_ok in C; destruct C as [p [P C]]; apply key_ok in P; apply bind_ok in C; destruct C as [t [_ C]]; apply bind_ok in C; destruct C as [sun [_ C]].
destruct (existence p) eqn:X; [|injection C as <-; cbn in F; injection F as <-; discriminate].
destruct sun; cbn [andb] in C; [|injection C as <-; cbn in F; injection F as <-; discriminate].
apply bind_ok in C; destruct C as [mth [_ C]]; apply bind_ok in C; destruct C as [dir [D C]]; apply key_ok in D.
apply bind_ok in C; destruct C as [[al be] [W C]].
destruct (mth =? "simple")%string; [|destruct (mth =? "detail")%string; [injection C as <-; discriminate F|discriminate C]].
apply bind_ok in C; destruct C as [z [_ C]]; apply bind_ok in C; destruct C as [h [H C]]; apply key_ok in H; apply bind_ok in C; destruct C as [e [_ C]].
injection C as <-; cbn [get_f_ss_d_j_n fst] in F; rewrite Ea in F; injection F as <-.
destruct (Rlt_dec 0 (h_sun w)) as [L|L]; destruct (Rle_dec _ 0) as [G|G]; try discriminate; try lra.
cbn [obind]; unfold div; destruct (Req_EM_T (cos (a - al)) 0) as [Z|_]; [exfalso; exact (Pl p dir al be P X D W L Z)|]; cbn [obind].
destruct (Req_EM_T h 0) as [Z|_]; [exfalso; exact (Dh p h P X H Z)|]; cbn; discriminate.
Qed.

Lemma gain_numbers b s tr ws q : create_shading b = Ok s -> create_transmission b s = Ok tr -> get_qgt tr ws = Ok q ->
  (forall w, In w ws -> exists a, a_sun w = Some a /\
     forall p dir al be, solar_shading_part b = Some p -> existence p = true -> BoundaryDict.direction b = Some dir ->
     get_w_alpha_j_w_beta_j dir = Ok (al, be) -> 0 < h_sun w -> cos (a - al) <> 0) ->
  (forall p h, solar_shading_part b = Some p -> existence p = true -> d_h p = Some h -> h <> 0) -> all_numbers q.
Proof.
intros C T Q Az Dh; destruct tr as [dir area s' g eta|]; cbn [get_qgt] in Q; [|apply ok_inj in Q; subst q; apply repeat_numbers].
assert (s' = s).
{ unfold create_transmission in T; apply bind_ok in T; destruct T as [t [_ T]]; destruct (t =? "external_transparent_part")%string; [|discriminate T].
  apply bind_ok in T; destruct T as [sun [_ T]]; destruct sun; [|discriminate T]; do 4 (apply bind_ok in T; destruct T as [? [_ T]]); injection T as <- <- <- <- <-; reflexivity. }
subst s'; apply (mapM_numbers _ _ _ _ Q); intros w y I E; destruct (Az w I) as [a [Ea Pl]].
unfold get_qgt_n in E; apply bind_ok in E; destruct E as [ab [_ E]]; unfold get_i_is_j_n in E.
apply bind_ok in E; destruct E as [f [F E]]; assert (Nf := shade_number b s w a f C Ea Pl Dh F).
apply bind_ok in E; destruct E as [fs [_ E]]; apply bind_ok in E; destruct E as [tau [Tau E]]; apply bind_ok in E; destruct E as [c [_ E]]; injection E as <-.
rewrite Ea in *; destruct (aoi_ok (h_sun w) a (fst ab) (snd ab)) as [t [Tt _]]; rewrite Tt in *.
unfold get_tau_d_j_n in Tau; destruct f as [f|]; [|congruence].
destruct (g =? "single")%string; [injection Tau as <-; cbn; discriminate|]; destruct (g =? "multiple")%string; [injection Tau as <-; cbn; discriminate|discriminate].
Qed.

Lemma sum_numbers l s n : sum_series l = Ok s -> (forall x, In x l -> List.length x = n /\ all_numbers x) -> List.length s = n /\ all_numbers s.
Proof.
intros H P; destruct l as [|a l]; [discriminate|]; cbn [sum_series] in H.
assert (Pa := P a (or_introl eq_refl)); assert (Pl : forall x, In x l -> List.length x = n /\ all_numbers x) by (intros; apply P; right; assumption); clear P.
revert a Pa H; induction l as [|b l IH]; intros a Pa H; [injection H as <-; exact Pa|].
cbn [foldM] in H; apply bind_ok in H; destruct H as [c [C H]]; destruct (add_series_ok _ _ _ C) as (E & Lc & N).
apply (IH ltac:(intros; apply Pl; right; assumption) c); [|exact H].
destruct (Pl b (or_introl eq_refl)) as [Lb Nb]; destruct Pa as [La Na]; split; [congruence|].
apply Forall_forall; intros x I; apply (In_nth _ _ None) in I; destruct I as [t [Lt <-]]; rewrite N.
assert (nth t a None <> None) by (apply (proj1 (Forall_forall _ _) Na), nth_In; congruence).
assert (nth t b None <> None) by (apply (proj1 (Forall_forall _ _) Nb), nth_In; congruence).
destruct (nth t a None); [|congruence]; destruct (nth t b None); [discriminate|congruence].
Qed.

Lemma simple_theta ws b bs : get_boundary_simple ws b = Ok bs -> exists o, create_oet b = Ok o /\ get_theta_o_sol o ws = Ok (bs_theta_o_sol bs).
Proof.
unfold get_boundary_simple; intro H.
do 14 (apply bind_ok in H; destruct H as [? [_ H]]).
match type of H with (if ?c then _ else _) = _ => destruct c; [discriminate|] end.
do 2 (apply bind_ok in H; destruct H as [? [_ H]]); apply bind_ok in H; destruct H as [o [O H]]; apply bind_ok in H; destruct H as [th [T H]].
do 2 (apply bind_ok in H; destruct H as [? [_ H]]); injection H as <-; exists o; split; assumption.
Qed.

Lemma house_numbers round1 tbl cal ws d m : make_house round1 tbl cal ws d = Ok m -> complete_house d -> sensible_weather ws d -> List.length ws = year ->
  (forall r, In r (m_q_trs_sol m) -> List.length r = year /\ all_numbers r) /\
  (forall r, In r (m_theta_o_sol m) -> List.length r = year /\ all_numbers r).
Proof.
intros H C W L; destruct (house_parts _ _ _ _ _ _ H) as (rooms & bds & bss & Hr & Hb & M & Q & _ & _ & T).
destruct C as (rooms' & bds' & _ & _ & _ & _ & Hb' & _ & _ & _ & _ & _ & _ & Cb & _ & _); rewrite Hb in Hb'; injection Hb' as <-.
assert (P : forall bs, In bs bss -> (List.length (bs_q_trs_sol bs) = year /\ all_numbers (bs_q_trs_sol bs)) /\ (List.length (bs_theta_o_sol bs) = year /\ all_numbers (bs_theta_o_sol bs))).
{ intros bs I; apply In_nth_error in I; destruct I as [j J]; assert (Lj := mapM_length _ _ _ _ _ M).
  destruct (nth_error bds j) as [b|] eqn:Eb; [|apply nth_error_None in Eb; assert (j < List.length bss)%nat by (apply nth_error_Some; congruence); lia].
  destruct (simple_of _ _ _ _ _ M Eb) as [bs' [J' G]]; rewrite J in J'; injection J' as <-.
  assert (Ib := nth_error_In _ _ Eb); assert (Cbb := proj1 (Forall_forall _ _) Cb b Ib).
  destruct (boundary_total ws b L Cbb) as (bs2 & G2 & L1 & L2); rewrite G in G2; injection G2 as <-.
  assert (Az : forall w, In w ws -> exists a, a_sun w = Some a /\
     forall p dir al be, solar_shading_part b = Some p -> existence p = true -> BoundaryDict.direction b = Some dir ->
     get_w_alpha_j_w_beta_j dir = Ok (al, be) -> 0 < h_sun w -> cos (a - al) <> 0).
  { intros w Iw; destruct (proj1 (Forall_forall _ _) W w Iw) as [a [Ea Pa]]; exists a; split; [exact Ea|]; intros; eapply Pa; eauto. }
  split; split; [exact L1| |exact L2|].
  - destruct (simple_solar _ _ _ G) as (s & tr & S & Tr & Qq).
    destruct tr as [dir ar s' g eta|]; [|cbn [get_qgt] in Qq; apply ok_inj in Qq; rewrite <- Qq; apply repeat_numbers].
    apply (gain_numbers b s _ ws _ S Tr Qq Az); intros p h Sp Ex Dh Z.
    destruct Cbb as (_ & _ & _ & _ & _ & _ & _ & _ & _ & t & Bt & Cc).
    unfold create_transmission in Tr; rewrite Bt in Tr; cbn [key of_option bind] in Tr; destruct (String.eqb_spec t "external_transparent_part") as [->|]; [|discriminate Tr].
    destruct Cc as [[E _]|[[E _]|[[E _]|[[_ [[_ (sun & Su & Co)] _]]|[E _]]]]]; try discriminate E.
    rewrite Su in Tr; cbn [key of_option bind] in Tr; destruct sun; [|discriminate Tr].
    destruct (Co eq_refl) as (_ & _ & _ & (p' & Sp' & Cs) & _); rewrite Sp in Sp'; injection Sp' as <-.
    destruct (Cs Ex) as (_ & _ & _ & h' & Dh' & Nz); congruence.
  - destruct (simple_theta _ _ _ G) as (o & _ & Th); apply (theta_numbers o ws); [|intros ->; change (0 = year)%nat in L; lia|exact Th].
    intros w Iw; destruct (Az w Iw) as [a [Ea _]]; eauto. }
split.
- intros r I; apply In_nth_error in I; destruct I as [i Hi]; assert (F := mapM_forall2 _ _ _ _ _ Q).
  assert (exists k, room_rows bss k = Ok r) as [k Hk].
  { clear -F Hi; revert i Hi; induction F as [|x y l l' E F IH]; intros [|i] Hi; try discriminate; [injection Hi as <-; eauto|eauto]. }
  apply (sum_numbers _ _ year Hk); intros x Ix; apply in_map_iff in Ix; destruct Ix as [bs [<- Ix]]; apply filter_In in Ix; apply P, Ix.
- intros r I; rewrite T in I; apply in_map_iff in I; destruct I as [bs [<- I]]; apply P, I.
Qed.
