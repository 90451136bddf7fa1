From Coq Require Import Reals ZArith List String Bool Lra Lia.
From Verif Require Import Model.Py Model.FactorH Model.FactorNu Model.FactorF Model.EesHouse Model.PartSpec Model.ModelHouse
  Spec.EnvelopeSpec Spec.IndexSpec Spec.ShapeSpec Lemmas.Lv3L Lemmas.CheckUaL Lemmas.PartSpecGainL Lemmas.ModelHouseL.
Import ListNotations.
Local Open Scope R_scope.

Lemma known_consts t ins bath ms os ms' os' : known t ins bath -> exists hb ho e b,
  get_h_base_bath t ins bath = Ok hb /\ get_h_base_other t ins = Ok ho /\ 0 <= ho /\ get_entrance t ins ms os = Ok e /\ get_bath t ins bath ms' os' = Ok b.
Proof.
destruct t; simpl known.
- intros [(-> & [-> |[-> | ->]])|(-> & N)]; [| | |destruct bath; try (destruct N; reflexivity)];
    do 4 eexists; (split; [reflexivity|]); (split; [reflexivity|]); (split; [lra|]); split; reflexivity.
- intros ([-> |[-> | ->]] & N); destruct bath; try (destruct N; reflexivity);
    do 4 eexists; (split; [reflexivity|]); (split; [reflexivity|]); (split; [lra|]); split; reflexivity.
Qed.

Lemma prm_ok2 a b f g : 0 <= a -> 0 <= b -> get_l_prm (Two a b) (Two f g) = Ok (Two (4 * sqrt a * f) (4 * sqrt b * g)).
Proof. intros A B; simpl; rewrite !root_ok by assumption; reflexivity. Qed.

Lemma area_total t a r ins bath env : known t ins bath -> 0 < a -> exists s, calc_area t a r ins bath env = Ok s.
Proof.
intros K A; unfold calc_area.
destruct t; cbv beta iota zeta.
- destruct (known_consts Detached ins bath (1365 / 1000) (182 / 100) (182 / 100) (182 / 100) K) as (hb & ho & (((x1 & x2) & x3) & x4) & (((y1 & y2) & y3) & y4) & E1 & E2 & HO & E3 & E4).
  rewrite E1, E2, E3, E4; cbn [bind get_a_f].
  set (a1 := a / (1 + 77 / 100)); set (a2 := a * (77 / 100) / (1 + 77 / 100)).
  assert (P1 : 0 < a1) by (unfold a1; lra); assert (P2 : 0 < a2) by (unfold a2; lra).
  assert (FS : exists f g, match env with None => Ok (Two (108 / 100) (104 / 100))
     | Some e => get_f_s Detached e (Two a1 a2) (Two (29 / 10) (27 / 10)) ho hb (18 / 100) y3 y4 x3 x4 (Two (108 / 100) (104 / 100)) end = Ok (Two f g)).
  { destruct env as [e|]; [|eexists; eexists; reflexivity]; unfold get_f_s; rewrite !root_ok by lra; cbn [bind].
    assert (S1 := sqrt_lt_R0 _ P1); assert (S2 := sqrt_lt_R0 _ P2).
    rewrite fdiv_ok; [cbn [bind]; eexists; eexists; reflexivity|].
    apply Rgt_not_eq, Rplus_lt_0_compat; repeat apply Rmult_lt_0_compat; lra. }
  destruct FS as (f & g & ->); cbn [bind]; rewrite prm_ok2 by lra; cbn [bind].
  destruct (get_l _ _ _); eexists; reflexivity.
- destruct (known_consts Attached ins bath 1 1 (21 / 10) (1365 / 1000) K) as (hb & ho & (((x1 & x2) & x3) & x4) & (((y1 & y2) & y3) & y4) & E1 & E2 & HO & E3 & E4).
  rewrite E1, E2, E3, E4; cbn [bind get_a_f].
  assert (FS : exists f, match env with None => Ok (One (1048215 / 1000000))
     | Some e => get_f_s Attached e (One a) (One (28 / 10)) ho hb 0 y3 y4 x3 x4 (One (1048215 / 1000000)) end = Ok (One f)).
  { destruct env as [e|]; [|eexists; reflexivity]; unfold get_f_s; cbn [ground]; rewrite !root_ok by lra; cbn [bind].
    assert (S1 := sqrt_lt_R0 _ A).
    rewrite fdiv_ok; [cbn [bind]; eexists; reflexivity|].
    apply Rgt_not_eq; repeat apply Rmult_lt_0_compat; lra. }
  destruct FS as (f & ->); cbn [bind get_l_prm]; rewrite root_ok by lra; cbn [bind].
  destruct (get_l _ _ _); eexists; reflexivity.
Qed.

(* bounds for the sides of a rectangle with area s*s and perimeter 4 s f *)
Lemma sides s f l m : 0 < s -> 0 < f -> 0 <= l -> 0 <= m -> l * m = s * s -> l + m = 2 * s * f -> m <= l -> s * f <= l /\ s / (2 * f) <= m.
Proof.
intros S0 F L M E P O; split; [lra|].
assert (LU : l <= 2 * s * f) by lra.
apply Rmult_le_reg_l with (2 * s * f); [repeat apply Rmult_lt_0_compat; lra|].
replace (2 * s * f * (s / (2 * f))) with (s * s) by (field; lra); rewrite <- E; apply Rmult_le_compat_r; assumption.
Qed.

Definition nonneg4 (q : quad) : Prop := 0 <= q000 q /\ 0 <= q090 q /\ 0 <= q180 q /\ 0 <= q270 q.

(* the four fronts of a two-storey house: t is the square root of the ground floor area, r that of the ratio of the areas *)
Lemma fronts_enough t r f l1 m1 l2 m2 : 248 / 100 <= t <= 24 -> 877 / 1000 <= r <= 878 / 1000 -> 108 / 104 <= f <= 2 ->
  t * f <= l1 -> t / (2 * f) <= m1 -> r * t * (f * (104 / 108)) <= l2 -> r * t / (2 * (f * (104 / 108))) <= m2 ->
  l1 + m1 = 2 * t * f -> l2 + m2 = 2 * (r * t) * (f * (104 / 108)) ->
  let w := (2 * (t * t) + 2 * (29 / 10) * (l1 + m1) + 2 * (27 / 10) * (l2 + m2)) / 10 - 189 / 100 - 162 / 100 in
  0 < w /\ w * (6862 / 10000) <= l1 * (29 / 10) + l2 * (27 / 10) /\ w * (721 / 10000) + 189 / 100 <= m1 * (29 / 10) + m2 * (27 / 10) /\
  w * (1097 / 10000) + 162 / 100 <= l1 * (29 / 10) + l2 * (27 / 10) /\ w * (1320 / 10000) <= m1 * (29 / 10) + m2 * (27 / 10).
Proof.
intros T RR F L1 M1 L2 M2 E1 E2 w.
assert (TF : t * (108 / 104) <= t * f) by (apply Rmult_le_compat_l; lra).
assert (TF2 : t * f <= t * 2) by (apply Rmult_le_compat_l; lra).
assert (RT : 877 / 1000 * (t * f) <= r * (t * f) <= 878 / 1000 * (t * f)) by (split; apply Rmult_le_compat_r; lra).
assert (TT : 248 / 100 * t <= t * t <= 24 * t) by (split; apply Rmult_le_compat_r; lra).
assert (W : w = t * t / 5 + 58 / 100 * (2 * (t * f)) + 54 / 100 * (2 * (r * (t * f)) * (104 / 108)) - 351 / 100) by (unfold w; rewrite E1, E2; field).
assert (I1 : t / 4 <= t / (2 * f)).
{ unfold Rdiv; apply Rmult_le_compat_l; [lra|]; apply Rinv_le_contravar; lra. }
assert (I2 : 877 / 1000 * t / (2 * (2 * (104 / 108))) <= r * t / (2 * (f * (104 / 108)))).
{ assert (877 / 1000 * t <= r * t) by (apply Rmult_le_compat_r; lra).
  unfold Rdiv; apply Rmult_le_compat; [lra|left; apply Rinv_0_lt_compat; lra|assumption|]; apply Rinv_le_contravar; lra. }
assert (L2' : r * t * (f * (104 / 108)) = r * (t * f) * (104 / 108)) by ring; rewrite L2' in L2.
set (x := t * f) in *; set (y := r * x) in *; set (z := t * t) in *.
rewrite W; repeat split; try lra.
Qed.

Lemma sqrt_between x lo hi : 0 <= lo -> 0 <= hi -> lo * lo <= x <= hi * hi -> lo <= sqrt x <= hi.
Proof.
intros L H (A & B); split; [rewrite <- (sqrt_square lo L)|rewrite <- (sqrt_square hi H)]; apply sqrt_le_1_alt; assumption.
Qed.

(* not too large an envelope *)
Definition moderate (a : R) (env : option R) : Prop :=
  match env with None => True | Some e => e <= 2 * (a / (177 / 100)) + 41 * sqrt (a / (177 / 100)) end.

Lemma detached_nonneg a bath env s : 11 <= a <= 1000 -> moderate a env -> calc_area Detached a (1 / 10) InsFloor bath env = Ok s ->
  nonneg4 (sh_wall s) /\ nonneg4 (sh_window s) /\ nonneg4 (sh_door s) /\ nonneg4 (sh_base_out s) /\ nonneg4 (sh_l_base_out s) /\
  0 <= sh_f_total s /\ 0 <= sh_ef_total s /\ 0 <= sh_roof s /\ 0 <= sh_base_in s /\ 0 <= sh_l_base_in s /\ 0 < q000 (sh_window s).
Proof.
intros A MO H; assert (K := proj2 (proj2 (proj2 (proj2 (proj2 (proj2 (floors_add _ _ _ _ _ _ _ H))))))); inv_all H; inv_rest H.
destruct K as [(_ & BB)|(D & _)]; [|discriminate].
injection EO as <-; injection EE as <- <- <- <-.
assert (BT : 0 <= h_bath /\ 0 <= ef_bath <= 182 / 100 * (182 / 100) /\ f_bath + ef_bath = 182 / 100 * (182 / 100) /\ nonneg4 bath_out /\ 0 <= bath_in).
{ destruct BB as [-> |[-> | ->]]; injection EB as <-; injection ET as <- <- <- <-; unfold nonneg4; cbn [zero4 q000 q090 q180 q270]; repeat split; lra. }
destruct BT as (HB & EFB & FB & BO & BI).
assert (P1 : 0 < a / (1 + 77 / 100)) by lra; assert (P2 : 0 < a * (77 / 100) / (1 + 77 / 100)) by lra.
set (t := sqrt (a / (1 + 77 / 100))) in *; set (r := sqrt (77 / 100)).
assert (T : 248 / 100 <= t <= 24) by (unfold t; apply sqrt_between; lra).
assert (RB : 877 / 1000 <= r <= 878 / 1000) by (unfold r; apply sqrt_between; lra).
assert (S2 : sqrt (a * (77 / 100) / (1 + 77 / 100)) = r * t).
{ unfold r, t; rewrite <- sqrt_mult_alt by lra; f_equal; field. }
assert (TT : t * t = a / (1 + 77 / 100)) by (unfold t; apply sqrt_sqrt; lra).
assert (FS : exists f, 108 / 104 <= f <= 2 /\ f_s = Two f (f * (104 / 108))).
{ clear EP EL; destruct env as [e|]; cbn [get_a_f] in EF.
  - unfold get_f_s in EF; rewrite !root_ok in EF by lra; cbn [bind] in EF; fold t in EF; rewrite S2 in EF.
    match type of EF with bind (fdiv ?u ?v) _ = _ => set (x := u) in *; set (y := v) in *; destruct (fdiv x y) as [q|] eqn:Q; cbn [bind] in EF; [|discriminate] end.
    apply fdiv_inv in Q; destruct Q as (Y & Q); apply ok_inj in EF.
    assert (X : x <= 41 * t).
    { unfold moderate in MO; replace (a / (177 / 100)) with (a / (1 + 77 / 100)) in MO by lra; fold t in MO; unfold x; cbn [ground].
      destruct BO as (B1 & B2 & B3 & B4).
      assert (0 <= (quad_sum bath_out + bath_in) * h_bath) by (apply Rmult_le_pos; [unfold quad_sum; lra|exact HB]).
      unfold quad_sum at 1; cbn [q000 q090 q180 q270]; lra. }
    assert (RT : 877 / 1000 * t <= r * t) by (apply Rmult_le_compat_r; lra).
    assert (YL : 41 * t / 2 <= y) by (unfold y; lra).
    assert (QL : q <= 2).
    { rewrite Q; apply Rmult_le_reg_r with y; [lra|]; replace (x / y * y) with x by (field; lra); lra. }
    set (g := Rmax (q * (104 / 100) / (108 / 100)) 1) in *.
    assert (G : 1 <= g <= 2 * (104 / 108)) by (split; [apply Rmax_r|apply Rmax_lub; lra]).
    exists (g * (108 / 100) / (104 / 100)); split; [lra|]; rewrite <- EF; f_equal; field.
  - apply ok_inj in EF; exists (108 / 100); split; [lra|]; rewrite <- EF; f_equal; lra. }
destruct FS as (f & F & ->); cbn [get_a_f] in EP.
apply prm_inv in EP; destruct EP as (_ & _ & ->); injection EL as <- <-.
rewrite S2; fold t.
assert (R1 := rectangle (a / (1 + 77 / 100)) f (Rlt_le _ _ P1) ltac:(lra)); fold t in R1.
assert (R2 := rectangle (a * (77 / 100) / (1 + 77 / 100)) (f * (104 / 108)) (Rlt_le _ _ P2) ltac:(lra)); rewrite S2 in R2.
cbv zeta in R1, R2; cbn [pow] in R1, R2; cbn [get_a_f zip_with storey_sum].
set (d1 := sqrt (Rmax (4 * t * f / 2 * (4 * t * f / 2 * 1) - 4 * (a / (1 + 77 / 100))) 0) / 2) in *.
set (d2 := sqrt (Rmax (4 * (r * t) * (f * (104 / 108)) / 2 * (4 * (r * t) * (f * (104 / 108)) / 2 * 1) - 4 * (a * (77 / 100) / (1 + 77 / 100))) 0) / 2) in *.
assert (D1 : 0 <= d1) by (unfold d1; assert (Q := sqrt_pos (Rmax (4 * t * f / 2 * (4 * t * f / 2 * 1) - 4 * (a / (1 + 77 / 100))) 0)); lra).
assert (D2 : 0 <= d2) by (unfold d2; assert (Q := sqrt_pos (Rmax (4 * (r * t) * (f * (104 / 108)) / 2 * (4 * (r * t) * (f * (104 / 108)) / 2 * 1) - 4 * (a * (77 / 100) / (1 + 77 / 100))) 0)); lra).
set (l1 := 4 * t * f / 4 + d1) in *; set (m1 := 4 * t * f / 4 - d1) in *.
set (l2 := 4 * (r * t) * (f * (104 / 108)) / 4 + d2) in *; set (m2 := 4 * (r * t) * (f * (104 / 108)) / 4 - d2) in *.
assert (E1 : l1 + m1 = 2 * t * f) by (unfold l1, m1; field); assert (E2 : l2 + m2 = 2 * (r * t) * (f * (104 / 108))) by (unfold l2, m2; field).
destruct R1 as (N1 & N2 & N3), R2 as (N4 & N5 & N6).
destruct (sides t f l1 m1) as (L1 & M1); [lra|lra|exact N2|exact N1|rewrite N3; symmetry; exact TT|exact E1|unfold l1, m1; lra|].
assert (RT : 0 < r * t) by (apply Rmult_lt_0_compat; lra).
destruct (sides (r * t) (f * (104 / 108)) l2 m2) as (L2 & M2); [exact RT|lra|exact N5|exact N4| |exact E2|unfold l2, m2; lra|].
{ rewrite N6; replace (r * t * (r * t)) with (r * r * (t * t)) by ring; rewrite TT; unfold r; rewrite sqrt_sqrt by lra; field. }
destruct (fronts_enough t r f l1 m1 l2 m2 T RB F L1 M1 L2 M2 E1 E2) as (W0 & W1 & W2 & W3 & W4).
rewrite TT in *.
match type of W0 with 0 < ?z => set (w := z) in * end.
cbn [sh_wall sh_window sh_door sh_base_out sh_l_base_out sh_f_total sh_ef_total sh_roof sh_base_in sh_l_base_in quad_zip quad_map get_l_base_other get_ef_other ground
  q000 q090 q180 q270].
match goal with |- context [(?z * (1 / 10) - 189 / 100 - 162 / 100) * _] => assert (WE : z * (1 / 10) - 189 / 100 - 162 / 100 = w)
   by (unfold w, quad_sum; cbn [q000 q090 q180 q270]; field) end.
rewrite WE; clearbody w d1 d2; destruct BO as (B1 & B2 & B3 & B4); unfold nonneg4, quad_total; cbn [quad_zip quad_map q000 q090 q180 q270 zero4].
assert (0 <= q000 bath_out * h_bath) by (apply Rmult_le_pos; assumption).
assert (0 <= q090 bath_out * h_bath) by (apply Rmult_le_pos; assumption).
assert (0 <= q180 bath_out * h_bath) by (apply Rmult_le_pos; assumption).
assert (0 <= q270 bath_out * h_bath) by (apply Rmult_le_pos; assumption).
assert (0 <= bath_in * h_bath) by (apply Rmult_le_pos; assumption).
clear -W0 W1 W2 W3 W4 HB EFB FB B1 B2 B3 B4 BI H H0 H1 H2 H3 A.
repeat split; try lra.
Qed.

Ltac each := let x := fresh "x" in let I := fresh "I" in intros x I; repeat destruct I as [<- |I]; try destruct I.

Lemma detached_house s h : sh_type s = Detached -> sh_ins s = InsFloor -> get_model_house_no_spec s = Ok h ->
  nonneg4 (sh_wall s) -> nonneg4 (sh_window s) -> nonneg4 (sh_door s) -> nonneg4 (sh_base_out s) -> nonneg4 (sh_l_base_out s) ->
  0 <= sh_f_total s -> 0 <= sh_ef_total s -> 0 <= sh_roof s -> 0 <= sh_base_in s -> 0 <= sh_l_base_in s -> 0 < q000 (sh_window s) ->
  nonneg_house h /\ describable h /\ no_opaque_shade h.
Proof.
intros T I; unfold get_model_house_no_spec; rewrite T, I.
do 3 (destruct (none_of _); cbn [bind]; [|discriminate]).
intro E; apply ok_inj in E; subst h; intros (A1 & A2 & A3 & A4) (B1 & B2 & B3 & B4) (C1 & C2 & C3 & C4) (D1 & D2 & D3 & D4) (E1 & E2 & E3 & E4) F1 F2 F3 F4 F5 W.
split; [|split].
- repeat split; each; assumption.
- split; [each; split; discriminate|]; split; [each; intro Q; try exact Logic.I; discriminate|]; split; [each; intro; exact Logic.I|].
  split.
  + each; (split; [unfold usable_shade; simpl; repeat split; lra|intro; exact Logic.I]).
  + eexists; split; [left; reflexivity|]; split; [exact W|]; split; [reflexivity|discriminate].
- split; each; intro Q; try reflexivity; discriminate.
Qed.

Lemma index_house a env : 11 <= a <= 1000 -> moderate a (Some env) ->
  exists s h, calc_area Detached a (1 / 10) InsFloor InsBase (Some env) = Ok s /\ get_model_house_no_spec s = Ok h /\
    nonneg_house h /\ describable h /\ no_opaque_shade h /\ house_area h = Rmax env (smallest Detached a InsFloor InsBase) /\ 0 < house_area h.
Proof.
intros A M; destruct (area_total Detached a (1 / 10) InsFloor InsBase (Some env)) as (s & S0); [left; split; [reflexivity|right; left; reflexivity]|lra|].
destruct (house_made _ _ _ _ _ _ _ S0) as (h & H & HA & _); exists s, h; split; [exact S0|split; [exact H|]].
destruct (floors_add _ _ _ _ _ _ _ S0) as (T & I & _).
destruct (detached_nonneg _ _ _ _ A M S0) as (N1 & N2 & N3 & N4 & N5 & N6 & N7 & N8 & N9 & N10 & N11).
destruct (detached_house s h T I H N1 N2 N3 N4 N5 N6 N7 N8 N9 N10 N11) as (P1 & P2 & P3).
split; [exact P1|]; split; [exact P2|]; split; [exact P3|]; rewrite HA; split; [exact (prescribed _ _ _ _ _ _ _ S0)|].
rewrite (prescribed _ _ _ _ _ _ _ S0); eapply Rlt_le_trans; [|apply Rmax_r].
assert (S1 : 0 <= sqrt (a / (1 + 77 / 100))) by apply sqrt_pos; assert (S2 : 0 <= sqrt (a * (77 / 100) / (1 + 77 / 100))) by apply sqrt_pos.
unfold smallest; simpl; unfold quad_sum; cbn [q000 q090 q180 q270]; lra.
Qed.

Lemma attached_never region a_f env u_a eta_h eta_c : exists e, indices_to_lv2 Attached region a_f env u_a eta_h eta_c = Err e.
Proof.
unfold indices_to_lv2; destruct (calc_area _ _ _ _ _ _) as [s|e] eqn:S0; cbn [bind]; [|exists e; reflexivity].
destruct (floors_add _ _ _ _ _ _ _ S0) as (T & _).
destruct (get_model_house_no_spec s) as [h|e] eqn:H; cbn [bind]; [|exists e; reflexivity].
unfold get_model_house_no_spec in H; rewrite T in H; do 7 (destruct (none_of _); cbn [bind] in H; [|discriminate]); apply ok_inj in H; subst h.
eapply attached_fails; [left; reflexivity|left; reflexivity].
Qed.

Lemma no_openings a ins bath env s : calc_area Detached a 0 ins bath env = Ok s -> q000 (sh_window s) = - (351 / 100) * (6862 / 10000).
Proof. intro E; inv_all E; inv_rest E; cbn [sh_window quad_map q000]; field. Qed.
