(* The resistances of a glazing are those of Spec/GlassResist.v. *)
From Coq Require Import Reals ZArith List Lia Lra.
From Verif Require Import Model.Py Model.EesHouse Model.GlassBalance Spec.GlassHeat Spec.GlassResist.
From Verif Require Import Lemmas.PyL Lemmas.GlazingL Lemmas.GlassFlowL Lemmas.GlassUL.
Import ListNotations.
Local Open Scope R_scope.

Lemma h_g_exact l delta t h : real_gap l -> mild (t - absolute_zero) -> get_h_g l delta t = Ok h -> gas_gap l delta t h.
Proof.
intros G M; assert (MX := gap_mix l G); assert (S : 0 < al_s l) by (destruct G; tauto).
assert (T : 0 < t) by (unfold mild, absolute_zero in M; lra).
unfold get_h_g, gas_gap, at_rest, rayleigh; fold absolute_zero; cbv zeta; set (th := t - absolute_zero) in *.
set (rho := mixed (al_air l) (gas_rho th)); set (mu := mixed (al_air l) (gas_mu th)).
set (c := mixed (al_air l) gas_c); set (la := mixed (al_air l) (gas_lambda th)).
assert (P : 0 < rho /\ 0 < mu /\ 0 < c /\ 0 < la).
{ repeat split; apply mixed_pos; try exact MX; intro g; apply (gas_pos th g M). }
destruct P as [P1 [P2 [P3 P4]]].
assert (MU2 : 0 < mu ^ 2) by (apply pow_lt, P2).
unfold get_gr, get_pr; rewrite fdiv_ok by lra; cbn [bind]; rewrite fdiv_ok by lra; cbn [bind].
rewrite (fdiv_ok (mu * c)) by lra; cbn [bind].
assert (E : 981 / 100 * al_s l ^ 3 * Rabs delta * rho ^ 2 / t / mu ^ 2 * (mu * c / la) =
  981 / 100 * al_s l ^ 3 * Rabs delta * rho ^ 2 * c / (t * mu * la)) by (field; repeat split; lra).
unfold get_nu; rewrite E; clear E; set (ra := 981 / 100 * al_s l ^ 3 * Rabs delta * rho ^ 2 * c / (t * mu * la)).
assert (K : 0 < 981 / 100 * al_s l ^ 3 * rho ^ 2 * c / (t * mu * la)).
{ apply Rmult_lt_0_compat; [|apply Rinv_0_lt_compat; repeat apply Rmult_lt_0_compat; assumption].
  repeat apply Rmult_lt_0_compat; try assumption; try lra. }
assert (RA : ra = 981 / 100 * al_s l ^ 3 * rho ^ 2 * c / (t * mu * la) * Rabs delta) by (unfold ra; field; repeat split; lra).
assert (R0 : 0 <= ra) by (rewrite RA; apply Rmult_le_pos; [lra|apply Rabs_pos]).
unfold fpow; destruct (Rlt_dec ra 0); [lra|].
destruct (Req_EM_T ra 0) as [Z|Z]; cbn [bind]; rewrite fdiv_ok by lra; intro H; assert (H' := f_equal (fun x => match x with Ok y => y | _ => 0 end) H); cbn in H'; clear H; subst h.
- assert (D : delta = 0).
  { destruct (Req_dec delta 0) as [|N]; [assumption|]; assert (A := Rabs_pos_lt _ N).
    assert (0 < ra) by (rewrite RA; apply Rmult_lt_0_compat; assumption); lra. }
  split; [intros _|intro N; contradiction]; unfold get_cc; rewrite Rmult_0_r, Rmax_left by lra; unfold Rdiv; ring.
- split; [intro D; exfalso; apply Z; rewrite RA, D, Rabs_R0; ring|intros _].
  unfold get_cc, nusselt, get_a, get_n; destruct (al_direction l); unfold Rdiv; ring.
Qed.

Lemma h_s_exact l t_m delta ef eb : real_gap l -> mild (t_m - absolute_zero) -> 0 < ef < 1 -> 0 < eb < 1 ->
  exists h, get_h_s l t_m delta t_m ef eb = Ok (radiant_gap t_m ef eb + h) /\ gas_gap l delta t_m h /\ 0 < radiant_gap t_m ef eb + h.
Proof.
intros G M F B; assert (T : 0 < t_m) by (unfold mild, absolute_zero in M; lra).
destruct (h_r_ok t_m ef eb T F B) as [E P]; destruct (h_g_ok l delta t_m G M) as [h [H [_ PH]]].
assert (Q : 4 * sigma / (1 / ef + 1 / eb - 1) * t_m ^ 3 = radiant_gap t_m ef eb) by (unfold radiant_gap, Rdiv; change stefan_boltzmann with sigma; ring).
rewrite Q in E, P; exists h; split; [unfold get_h_s; rewrite E, H; reflexivity|split; [exact (h_g_exact _ _ _ _ G M H)|lra]].
Qed.

Lemma gas_gap_abs l delta t h : gas_gap l (Rabs delta) t h -> gas_gap l delta t h.
Proof.
unfold gas_gap, rayleigh; rewrite Rabs_Rabsolu; intros [A B]; split; intro D.
- apply A; rewrite D; apply Rabs_R0.
- apply B, Rabs_no_R0, D.
Qed.

Lemma layer_exact l : real_layer l -> layer_res l = Ok (pane_resistance l).
Proof.
intros [_ [H _]]; unfold layer_res, sumM, pane_resistance; revert H; generalize (gl_units l); intros us H.
assert (E : mapM (fun u => fdiv (gu_d u) (gu_lmd u)) us = Ok (map (fun u => gu_d u / gu_lmd u) us)).
{ induction us as [|u us IH]; [reflexivity|]; cbn [mapM map]; destruct (H u (or_introl eq_refl)) as [_ L].
  rewrite fdiv_ok by lra; cbn [bind]; rewrite IH; [reflexivity|intros v V; apply H; right; exact V]. }
rewrite E; reflexivity.
Qed.

Fixpoint chain (t delta : nat -> R) (i : nat) (front : glass_layer) (more : list (air_layer * glass_layer)) (rs : list R) : Prop :=
  match more, rs with
  | [], [] => True
  | (al, gl) :: more, rg :: rp :: rs =>
      (exists ef eb h, has_eps (gl_sfb front) ef /\ has_eps (gl_sff gl) eb /\ gas_gap al (delta i) (t i) h /\
        rg = 1 / (radiant_gap (t i) ef eb + h)) /\ rp = pane_resistance gl /\ chain t delta (S i) gl more rs
  | _, _ => False
  end.

Lemma r_more_chain more : forall i front, real_layer front -> (forall al gl, In (al, gl) more -> real_gap al /\ real_layer gl) ->
  exists rs, r_more front more = Ok rs /\ chain (fun _ => 283) (fun _ => 15) i front more rs.
Proof.
induction more as [|[al gl] more IH]; intros i front F H; cbn [r_more].
- exists []; split; [reflexivity|exact I].
- destruct (H al gl (or_introl eq_refl)) as [G L].
  destruct F as [_ [_ [_ FB]]]; destruct (eps_total _ FB) as [ef E]; rewrite E; cbn [bind].
  assert (LF : real_surface (gl_sff gl)) by (destruct L as [_ [_ [X _]]]; exact X).
  destruct (eps_total _ LF) as [eb E']; rewrite E'; cbn [bind].
  destruct (h_s_exact al 283 15 ef eb G mild_fixed (eps_range _ _ E) (eps_range _ _ E')) as [h [-> [GG P]]]; cbn [bind].
  rewrite fdiv_ok by lra; cbn [bind]; rewrite (layer_exact gl L); cbn [bind].
  destruct (IH (S i) gl L) as [rs [-> C]]; [intros a g I; apply H; right; exact I|]; cbn [bind].
  eexists; split; [reflexivity|]; cbn [chain]; split; [|split; [reflexivity|exact C]].
  exists ef, eb, h; repeat split; try assumption; apply GG.
Qed.

Lemma r_calc_chain more theta : mild_all theta -> forall i front, real_layer front ->
  (forall al gl, In (al, gl) more -> real_gap al /\ real_layer gl) ->
  exists rs, r_more_calc front more theta i = Ok rs /\ chain (mean_of theta) (drop_of theta) i front more rs.
Proof.
intro MT; induction more as [|[al gl] more IH]; intros i front F H; cbn [r_more_calc].
- exists []; split; [reflexivity|exact I].
- destruct (H al gl (or_introl eq_refl)) as [G L].
  destruct F as [_ [_ [_ FB]]]; destruct (eps_total _ FB) as [ef E]; rewrite E; cbn [bind].
  assert (LF : real_surface (gl_sff gl)) by (destruct L as [_ [_ [X _]]]; exact X).
  destruct (eps_total _ LF) as [eb E']; rewrite E'; cbn [bind].
  unfold get_h_s_with_surfaces_temp; cbv zeta; replace (2 * (i + 1))%nat with (2 * i + 2)%nat by lia.
  fold (drop_of theta i); change absolute_zero with (27315 / 100); fold (mean_of theta i).
  assert (M : mild (mean_of theta i - absolute_zero)).
  { assert (A := mild_nth theta (2 * i + 1) MT); assert (B := mild_nth theta (2 * i + 2) MT); unfold mild, mean_of, absolute_zero in *; lra. }
  destruct (h_s_exact al (mean_of theta i) (Rabs (drop_of theta i)) ef eb G M (eps_range _ _ E) (eps_range _ _ E')) as [h [-> [GG P]]]; cbn [bind].
  rewrite fdiv_ok by lra; cbn [bind]; rewrite (layer_exact gl L); cbn [bind].
  replace (i + 1)%nat with (S i) by lia.
  destruct (IH (S i) gl L) as [rs [-> C]]; [intros a g I; apply H; right; exact I|]; cbn [bind].
  eexists; split; [reflexivity|]; cbn [chain]; split; [|split; [reflexivity|exact C]].
  exists ef, eb, h; repeat split; try assumption; apply gas_gap_abs in GG; apply GG.
Qed.

Lemma chain_length t delta more : forall i front rs, chain t delta i front more rs -> length rs = (2 * length more)%nat.
Proof.
induction more as [|[al gl] more IH]; intros i front rs C; destruct rs as [|rg [|rp rs]]; cbn [chain] in C; try contradiction; [reflexivity|].
destruct C as [_ [_ C]]; simpl; rewrite (IH _ _ _ C); lia.
Qed.

Lemma chain_pane t delta more : forall i front rs k p, chain t delta i front more rs ->
  nth_error (map snd more) k = Some p -> nth_error rs (2 * k + 1) = Some (pane_resistance p).
Proof.
induction more as [|[al gl] more IH]; intros i front rs k p C N; [destruct k; discriminate|].
destruct rs as [|rg [|rp rs]]; cbn [chain] in C; try contradiction; destruct C as [_ [-> C]].
destruct k as [|k]; cbn [map snd nth_error] in N; [injection N as <-; reflexivity|].
replace (2 * S k + 1)%nat with (S (S (2 * k + 1))) by lia; exact (IH _ _ _ _ _ C N).
Qed.

Lemma chain_gap t delta more : forall i front rs k p p' al, chain t delta i front more rs ->
  nth_error (front :: map snd more) k = Some p -> nth_error (map snd more) k = Some p' -> nth_error (map fst more) k = Some al ->
  exists ef eb h, has_eps (gl_sfb p) ef /\ has_eps (gl_sff p') eb /\ gas_gap al (delta (i + k)%nat) (t (i + k)%nat) h /\
  nth_error rs (2 * k) = Some (1 / (radiant_gap (t (i + k)%nat) ef eb + h)).
Proof.
induction more as [|[a g] more IH]; intros i front rs k p p' al C N N' A; [destruct k; discriminate|].
destruct rs as [|rg [|rp rs]]; cbn [chain] in C; try contradiction; destruct C as [D [_ C]].
destruct k as [|k]; cbn [map fst snd nth_error] in N, N', A.
- injection N as <-; injection N' as <-; injection A as <-; rewrite Nat.add_0_r; destruct D as (ef & eb & h & D1 & D2 & D3 & ->).
  exists ef, eb, h; repeat split; try assumption; apply D3.
- replace (i + S k)%nat with (S i + k)%nat by lia; replace (2 * S k)%nat with (S (S (2 * k))) by lia.
  exact (IH _ _ _ _ _ _ _ C N N' A).
Qed.

Lemma last_end (l : list R) x d : last (l ++ [x]) d = x.
Proof. apply last_last. Qed.

Lemma nth_last (l : list R) : nth (length l - 1) l 0 = last l 0.
Proof.
induction l as [|x l _] using rev_ind; [reflexivity|]; rewrite last_end, app_length; simpl.
replace (length l + 1 - 1)%nat with (length l) by lia; rewrite app_nth2, Nat.sub_diag by lia; reflexivity.
Qed.

Lemma chain_resistances g he hi t delta rs : chain t delta 0 (g_first g) (g_more g) rs ->
  resistances g he hi t delta (1 / he :: pane_resistance (g_first g) :: rs ++ [1 / hi]).
Proof.
intro C; assert (L := chain_length _ _ _ _ _ _ C); unfold resistances, panes, gaps; split; [|split; [|split; [|split]]].
- simpl; rewrite app_length, map_length, L; simpl; lia.
- reflexivity.
- change (1 / he :: pane_resistance (g_first g) :: rs ++ [1 / hi]) with ((1 / he :: pane_resistance (g_first g) :: rs) ++ [1 / hi]); apply last_end.
- intros [|k] p N; cbn [nth_error] in N; [injection N as <-; reflexivity|].
  replace (2 * S k + 1)%nat with (S (S (2 * k + 1))) by lia; cbn [nth_error].
  assert (X := chain_pane _ _ _ _ _ _ _ _ C N); rewrite nth_error_app1; [exact X|apply nth_error_Some; rewrite X; discriminate].
- intros k p p' al N N' A; cbn [nth_error] in N'.
  destruct (chain_gap _ _ _ _ _ _ _ _ _ _ C N N' A) as (ef & eb & h & X1 & X2 & X3 & X4); exists ef, eb, h.
  split; [exact X1|split; [exact X2|split; [exact X3|]]].
  replace (2 * k + 2)%nat with (S (S (2 * k))) by lia; cbn [nth_error].
  rewrite nth_error_app1; [exact X4|apply nth_error_Some; rewrite X4; discriminate].
Qed.

Lemma g_last_panes g : g_last g = last (panes g) (g_first g).
Proof. unfold g_last, panes; destruct (map snd (g_more g)); reflexivity. Qed.

Lemma fixed_exact g : real_glass g -> exists reg e e', get_r_fixed g = Ok reg /\
  has_eps (gl_sff (g_first g)) e /\ has_eps (gl_sfb (last (panes g) (g_first g))) e' /\
  resistances g (outside JIS_R3107 e 0 0) (inside JIS_R3107 e' 0 0) (fun _ => 283) (fun _ => 15) reg.
Proof.
intro G; assert (LR := last_real g G); destruct G as [F M].
unfold get_r_fixed, get_h_e, get_h_i.
assert (FF : real_surface (gl_sff (g_first g))) by (destruct F as [_ [_ [X _]]]; exact X).
destruct (eps_total _ FF) as [e E]; rewrite E; cbn [bind]; assert (ER := eps_range _ _ E).
rewrite fdiv_ok by lra; cbn [bind]; rewrite (layer_exact _ F); cbn [bind].
destruct (r_more_chain (g_more g) 0%nat (g_first g) F M) as [rs [-> C]]; cbn [bind].
assert (LB : real_surface (gl_sfb (g_last g))) by (destruct LR as [_ [_ [_ X]]]; exact X).
destruct (eps_total _ LB) as [e' E']; rewrite E'; cbn [bind]; assert (ER' := eps_range _ _ E').
rewrite fdiv_ok by lra; cbn [bind].
eexists; exists e, e'; split; [reflexivity|split; [exact E|split; [rewrite <- g_last_panes; exact E'|]]].
exact (chain_resistances g _ _ _ _ _ C).
Qed.

Lemma radiative_exact e a b : radiative e (a + absolute_zero) (b + absolute_zero) = radiant_surface e a b.
Proof. unfold radiative, radiant_surface, absolute_zero; change stefan_boltzmann with sigma; ring. Qed.

Lemma radiant_pos e a b : 0 < e -> mild a -> mild b -> 0 < radiant_surface e a b.
Proof. intros E A B; rewrite <- radiative_exact; apply radiative_pos; unfold mild, absolute_zero in *; lra. Qed.

Lemma calc_exact g m te ti theta : real_glass g -> mild te -> mild ti -> mild_all theta ->
  exists reg e e', get_r_calc g m te ti theta = Ok reg /\ has_eps (gl_sff (g_first g)) e /\
  has_eps (match m with JIS_R3107 => gl_sfb (last (panes g) (g_first g)) | JIS_A2103 _ => gl_sff (g_first g) end) e' /\
  resistances g (outside m e (hd 0 theta) te) (inside m e' (last theta 0) ti) (mean_of theta) (drop_of theta) reg.
Proof.
intros G MTE MTI MT; assert (LR := last_real g G); destruct G as [F M].
assert (FF : real_surface (gl_sff (g_first g))) by (destruct F as [_ [_ [X _]]]; exact X).
assert (LB : real_surface (gl_sfb (g_last g))) by (destruct LR as [_ [_ [_ X]]]; exact X).
destruct (eps_total _ FF) as [e E]; assert (ER := eps_range _ _ E).
destruct (eps_total _ LB) as [b B]; assert (BR := eps_range _ _ B).
assert (H0 : nth 0 theta 0 = hd 0 theta) by (destruct theta; reflexivity).
assert (HL := nth_last theta).
assert (M0 := mild_nth theta 0 MT); assert (ML := mild_nth theta (length theta - 1) MT); rewrite H0 in M0; rewrite HL in ML.
assert (HE : get_h_e g m (nth 0 theta 0) te = Ok (outside m e (hd 0 theta) te) /\ 0 < outside m e (hd 0 theta) te).
{ unfold get_h_e; rewrite E, H0; cbn [bind]; assert (P := radiant_pos e (hd 0 theta) te (proj1 ER) M0 MTE).
  destruct m as [|[]]; cbn [outside]; rewrite ?radiative_exact; (split; [reflexivity|lra]). }
assert (HI : exists e', has_eps (match m with JIS_R3107 => gl_sfb (last (panes g) (g_first g)) | JIS_A2103 _ => gl_sff (g_first g) end) e' /\
  get_h_i g m (nth (length theta - 1) theta 0) ti = Ok (inside m e' (last theta 0) ti) /\ 0 < inside m e' (last theta 0) ti).
{ unfold get_h_i; rewrite HL; rewrite <- g_last_panes; destruct m as [|[]].
  - exists b; split; [exact B|rewrite B; cbn [bind inside]; split; [reflexivity|lra]].
  - exists e; split; [exact E|rewrite E; cbn [bind inside]; rewrite radiative_exact].
    assert (P := radiant_pos e (last theta 0) ti (proj1 ER) ML MTI); split; [reflexivity|lra].
  - exists e; split; [exact E|rewrite E; cbn [bind inside]; rewrite radiative_exact].
    assert (P := radiant_pos e (last theta 0) ti (proj1 ER) ML MTI); split; [reflexivity|lra]. }
destruct HE as [HE PE], HI as [e' [E' [HI PI]]].
unfold get_r_calc; rewrite HE; cbn [bind]; rewrite fdiv_ok by lra; cbn [bind].
rewrite (layer_exact _ F); cbn [bind].
destruct (r_calc_chain (g_more g) theta MT 0%nat (g_first g) F M) as [rs [-> C]]; cbn [bind].
rewrite HI; cbn [bind]; rewrite fdiv_ok by lra; cbn [bind].
eexists; exists e, e'; split; [reflexivity|split; [exact E|split; [exact E'|]]].
exact (chain_resistances g _ _ _ _ _ C).
Qed.

Lemma nusselt_up d a b : 0 < a <= b -> nusselt d a <= nusselt d b.
Proof. intro H; destruct d; cbn [nusselt]; apply Rmult_le_compat_l; try lra; apply Rle_Rpower_l; lra. Qed.

Lemma h_g_up l delta delta' t h h' : real_gap l -> mild (t - absolute_zero) -> Rabs delta <= Rabs delta' ->
  get_h_g l delta t = Ok h -> get_h_g l delta' t = Ok h' -> h <= h'.
Proof.
intros G M D H H'; assert (X := h_g_exact _ _ _ _ G M H); assert (X' := h_g_exact _ _ _ _ G M H').
assert (MX := gap_mix l G); assert (S : 0 < al_s l) by (destruct G; tauto).
assert (T : 0 < t) by (unfold mild, absolute_zero in M; lra).
assert (A : 0 < at_rest l t).
{ apply Rmult_lt_0_compat; [apply mixed_pos; [exact MX|intro g; apply (gas_pos _ g M)]|apply Rinv_0_lt_compat, S]. }
destruct X' as [X0' X1'].
destruct (Req_dec delta 0) as [Z|N]; [destruct X as [X _]; rewrite (X Z)|destruct X as [_ X]; rewrite (X N)].
- destruct (Req_dec delta' 0) as [Z'|N']; [rewrite (X0' Z'); lra|]; rewrite (X1' N').
  assert (C := Rmax_l 1 (nusselt (al_direction l) (rayleigh l delta' t))).
  assert (1 * at_rest l t <= Rmax 1 (nusselt (al_direction l) (rayleigh l delta' t)) * at_rest l t) by (apply Rmult_le_compat_r; lra); lra.
- assert (PN := Rabs_pos_lt _ N).
  assert (N' : delta' <> 0) by (intro Z; rewrite Z, Rabs_R0 in D; lra); rewrite (X1' N').
  apply Rmult_le_compat_r; [lra|]; apply Rle_max_compat_l, nusselt_up.
  unfold rayleigh; cbv zeta; fold absolute_zero; set (th := t - absolute_zero) in *.
  set (rho := mixed (al_air l) (gas_rho th)); set (mu := mixed (al_air l) (gas_mu th)).
  set (c := mixed (al_air l) gas_c); set (la := mixed (al_air l) (gas_lambda th)).
  assert (P : 0 < rho /\ 0 < mu /\ 0 < c /\ 0 < la).
  { repeat split; apply mixed_pos; try exact MX; intro g; apply (gas_pos th g M). }
  destruct P as [P1 [P2 [P3 P4]]].
  assert (K : 0 < 981 / 100 * al_s l ^ 3 * rho ^ 2 * c / (t * mu * la)).
  { apply Rmult_lt_0_compat; [|apply Rinv_0_lt_compat; repeat apply Rmult_lt_0_compat; assumption].
    repeat apply Rmult_lt_0_compat; try assumption; try lra. }
  assert (E : forall x, 981 / 100 * al_s l ^ 3 * x * rho ^ 2 * c / (t * mu * la) =
    981 / 100 * al_s l ^ 3 * rho ^ 2 * c / (t * mu * la) * x) by (intro x; field; repeat split; lra).
  rewrite !E; split; [apply Rmult_lt_0_compat; assumption|apply Rmult_le_compat_l; lra].
Qed.

Lemma lambda_order t : mild t -> gas_lambda t KRYPTON < gas_lambda t SF6 < gas_lambda t ARGON /\ gas_lambda t ARGON < gas_lambda t AIR.
Proof.
unfold mild; intro M; unfold gas_lambda; assert (K : 0 < / 10 ^ 2) by (apply Rinv_0_lt_compat, pow_lt; lra).
rewrite !interpolate_eq; destruct (Rlt_dec t 0); [|destruct (Rlt_dec t 10)]; repeat split; apply Rmult_lt_compat_r; lra.
Qed.
