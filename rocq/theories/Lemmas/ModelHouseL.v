From Coq Require Import Reals ZArith List String Bool Lra Lia.
From Verif Require Import Model.Py Model.FactorH Model.FactorNu Model.FactorF Model.EesHouse Model.PartSpec Model.ModelHouse
  Spec.EnvelopeSpec Spec.IndexSpec Spec.ShapeSpec Lemmas.Lv3L Lemmas.CheckUaL.
Import ListNotations.
Local Open Scope R_scope.

Ltac inv_calc H :=
  unfold calc_area in H; cbn [bind get_h_base_bath get_h_base_other get_entrance get_bath get_a_f] in H.

Lemma root_inv a x : root a = Ok x -> 0 <= a /\ x = sqrt a.
Proof. unfold root; destruct (Rlt_dec a 0); [discriminate|]; intro E; apply ok_inj in E; split; [lra|symmetry; exact E]. Qed.
Lemma root_ok a : 0 <= a -> root a = Ok (sqrt a).
Proof. intro H; unfold root; destruct (Rlt_dec a 0); [lra|reflexivity]. Qed.

Definition f_default (t : house_type) : storeys := match t with Detached => Two (108 / 100) (104 / 100) | Attached => One (1048215 / 1000000) end.

(* a side pair of a rectangle with area a and perimeter 4 sqrt a f *)
Lemma rectangle a f : 0 <= a -> 1 <= f ->
  let l := 4 * sqrt a * f in let d := sqrt (Rmax ((l / 2) ^ 2 - 4 * a) 0) / 2 in
  0 <= l / 4 - d /\ 0 <= l / 4 + d /\ (l / 4 + d) * (l / 4 - d) = a.
Proof.
intros A F l d; assert (S0 := sqrt_sqrt a A); assert (P := sqrt_pos a).
assert (E : (l / 2) ^ 2 - 4 * a = 4 * a * (f * f - 1)) by (unfold l; clear -S0; set (r := sqrt a) in *; clearbody r; rewrite <- S0; field).
assert (N : 0 <= 4 * a * (f * f - 1)) by (apply Rmult_le_pos; [lra|nra]).
assert (D : 2 * d = sqrt (4 * a * (f * f - 1))) by (unfold d; rewrite E, Rmax_left by exact N; field).
assert (DD : 2 * d * (2 * d) = 4 * a * (f * f - 1)) by (rewrite D; apply sqrt_sqrt, N).
assert (DP : 0 <= d) by (assert (0 <= 2 * d) by (rewrite D; apply sqrt_pos); lra).
assert (L4 : l / 4 = sqrt a * f) by (unfold l; field).
assert (LP : 0 <= sqrt a * f) by (apply Rmult_le_pos; lra).
assert (LL : sqrt a * f * (sqrt a * f) = a * (f * f)) by (replace (sqrt a * f * (sqrt a * f)) with (sqrt a * sqrt a * (f * f)) by ring; rewrite S0; ring).
assert (LE : d * d <= sqrt a * f * (sqrt a * f)) by (rewrite LL; nra).
rewrite L4; split; [|split; [lra|]].
- assert (d <= sqrt a * f); [|lra]; apply Rsqr_incr_0_var; [exact LE|exact LP].
- replace ((sqrt a * f + d) * (sqrt a * f - d)) with (sqrt a * f * (sqrt a * f) - d * d) by ring; rewrite LL; lra.
Qed.

(* the shape factors *)
Definition at_least_one (f : storeys) : Prop := match f with One x => 1 <= x | Two x y => 1 <= x /\ 1 <= y end.
Definition same_storeys (t : house_type) (f : storeys) : Prop := match t, f with Detached, Two _ _ => True | Attached, One _ => True | _, _ => False end.

Lemma get_f_s_ok t a a_f h h1 h2 h3 bo bi eo ei f : get_f_s t a a_f h h1 h2 h3 bo bi eo ei (f_default t) = Ok f -> at_least_one f /\ same_storeys t f.
Proof.
unfold get_f_s, f_default; destruct t.
- destruct a_f as [|a1 a2]; [discriminate|]; destruct h as [|h0 h0']; [discriminate|].
  destruct (root a1); cbn [bind]; [|discriminate]; destruct (root a2); cbn [bind]; [|discriminate]; destruct (fdiv _ _) as [r|]; cbn [bind]; [|discriminate].
  intro E; apply ok_inj in E; subst f; split; [|exact Logic.I].
  assert (M := Rmax_r (r * (104 / 100) / (108 / 100)) 1); split; lra.
- destruct (root _); cbn [bind]; [|discriminate]; destruct (fdiv _ _) as [r|]; cbn [bind]; [|discriminate].
  intro E; apply ok_inj in E; subst f; split; [|exact Logic.I]; apply Rmax_r.
Qed.

(* what was computed *)
Definition factors (t : house_type) (a_f h : storeys) (a_env : option R) (h_other h_bath h_etrc : R) (bo : quad) (bi : R) (eo : quad) (ei : R) (f : storeys) : Prop :=
  match a_env with None => f = f_default t | Some a => get_f_s t a a_f h h_other h_bath h_etrc bo bi eo ei (f_default t) = Ok f end.

Lemma factors_ok t a_f h a_env h1 h2 h3 bo bi eo ei f : factors t a_f h a_env h1 h2 h3 bo bi eo ei f -> at_least_one f /\ same_storeys t f.
Proof. unfold factors; destruct a_env; [apply get_f_s_ok|]; intros ->; destruct t; simpl; lra. Qed.

Ltac inv_all H :=
  unfold calc_area in H;
  match type of H with bind ?m _ = _ => let E := fresh "EB" in destruct m as [h_bath|] eqn:E; cbn [bind] in H; [|discriminate] end;
  match type of H with bind ?m _ = _ => let E := fresh "EO" in destruct m as [h_other|] eqn:E; cbn [bind] in H; [|discriminate] end.
Ltac inv_rest H :=
  cbv beta iota zeta in H;
  match type of H with bind ?m _ = _ => let E := fresh "EE" in destruct m as [(((ef_etrc & f_etrc) & etrc_out) & etrc_in)|] eqn:E; cbn [bind] in H; [|discriminate] end;
  match type of H with bind ?m _ = _ => let E := fresh "ET" in destruct m as [(((ef_bath & f_bath) & bath_out) & bath_in)|] eqn:E; cbn [bind] in H; [|discriminate] end;
  match type of H with bind ?m _ = _ => let E := fresh "EF" in destruct m as [f_s|] eqn:E; cbn [bind] in H; [|discriminate] end;
  match type of H with bind ?m _ = _ => let E := fresh "EP" in destruct m as [l_prm|] eqn:E; cbn [bind] in H; [|discriminate] end;
  match type of H with context [get_l ?a ?b ?c] => let E := fresh "EL" in destruct (get_l a b c) as (l_ms & l_os) eqn:E end;
  apply ok_inj in H; subst.

Lemma floors_add t a r ins bath env s : calc_area t a r ins bath env = Ok s ->
  sh_type s = t /\ sh_ins s = ins /\
  sh_a_f s = get_a_f t a (77 / 100) /\ sh_f_total s + sh_ef_total s = ground (sh_a_f s) /\ sh_roof s = ground (sh_a_f s) /\
  sum (per_storey (sh_a_f s)) = a /\ known t ins bath.
Proof.
intro H; inv_all H; destruct t; inv_rest H; cbn [sh_type sh_ins sh_a_f sh_f_total sh_ef_total sh_roof];
  (split; [reflexivity|]); (split; [reflexivity|]); (split; [reflexivity|]); (split; [ring|]); (split; [reflexivity|]);
  (split; [unfold sum; cbn [per_storey fold_right get_a_f]; field|]);
  clear -EB EO EE ET; destruct ins, bath; try discriminate; simpl; intuition discriminate.
Qed.

Lemma filled t a r ins bath env s : calc_area t a r ins bath env = Ok s -> fronts_filled s /\
  four (sh_window s) + four (sh_door s) = r * sh_total_not_base s /\
  sh_total_not_base s = sh_f_total s + sh_ef_total s + sh_roof s + 2 * front s (sh_l_ms s) + 2 * front s (sh_l_os s) /\
  sh_total s = sh_total_not_base s + four (sh_base_out s) + sh_base_in s.
Proof.
intro H; inv_all H; destruct t; inv_rest H;
  unfold fronts_filled, front, four, sum;
  cbn [sh_wall sh_window sh_door sh_l_ms sh_l_os sh_h sh_total_not_base sh_total sh_f_total sh_ef_total sh_roof sh_base_out sh_base_in
       quad_zip quad_map q000 q090 q180 q270];
  clear; destruct l_ms, l_os; unfold quad_sum, quad_total;
  cbn [zip_with storey_sum per_storey combine map fold_right fst snd q000 q090 q180 q270 quad_zip quad_map];
  (split; [repeat split; ring|]); (split; [field|]); (split; [ring|ring]).
Qed.

(* the side lengths *)
Lemma prm_inv a b f g l : get_l_prm (Two a b) (Two f g) = Ok l -> 0 <= a /\ 0 <= b /\ l = Two (4 * sqrt a * f) (4 * sqrt b * g).
Proof.
simpl; destruct (root a) as [s|] eqn:A; cbn [bind]; [|discriminate]; destruct (root b) as [u|] eqn:B; cbn [bind]; [|discriminate].
intro E; apply ok_inj in E; destruct (root_inv _ _ A) as (P & ->), (root_inv _ _ B) as (Q & ->); auto.
Qed.
Lemma prm_inv1 a f l : get_l_prm (One a) (One f) = Ok l -> 0 <= a /\ l = One (4 * sqrt a * f).
Proof.
simpl; destruct (root a) as [s|] eqn:A; cbn [bind]; [|discriminate].
intro E; apply ok_inj in E; destruct (root_inv _ _ A) as (P & ->); auto.
Qed.

Lemma env_factors t env a_f h h1 h2 h3 bo bi eo ei f :
  match env with None => Ok (f_default t) | Some a => get_f_s t a a_f h h1 h2 h3 bo bi eo ei (f_default t) end = Ok f -> at_least_one f /\ same_storeys t f.
Proof. destruct env; [apply get_f_s_ok|]; intro E; apply ok_inj in E; subst f; destruct t; simpl; lra. Qed.

Lemma rectangular t a r ins bath env s : calc_area t a r ins bath env = Ok s -> rectangles s.
Proof.
intro H; inv_all H; destruct t; inv_rest H.
- destruct (env_factors Detached _ _ _ _ _ _ _ _ _ _ _ EF) as (F & Q); destruct f_s as [|f g]; [destruct Q|]; destruct F as (F & G).
  apply prm_inv in EP; destruct EP as (A & B & ->); injection EL as <- <-.
  split; [reflexivity|]; split; [reflexivity|].
  destruct (rectangle _ f A F) as (R1 & R2 & R3), (rectangle _ g B G) as (R4 & R5 & R6).
  cbn [sh_a_f sh_l_ms sh_l_os per_storey zip_with]; intros [|[|i]] a' l m HA HL HM; [| |destruct i; discriminate]; injection HA as <-; injection HL as <-; injection HM as <-;
    split; trivial; split; trivial.
- destruct (env_factors Attached _ _ _ _ _ _ _ _ _ _ _ EF) as (F & Q); destruct f_s as [f|]; [|destruct Q].
  apply prm_inv1 in EP; destruct EP as (A & ->); injection EL as <- <-.
  split; [reflexivity|]; split; [reflexivity|].
  destruct (rectangle _ f A F) as (R1 & R2 & R3).
  cbn [sh_a_f sh_l_ms sh_l_os per_storey zip_with]; intros [|i] a' l m HA HL HM; [|destruct i; discriminate]; injection HA as <-; injection HL as <-; injection HM as <-.
  split; trivial; split; trivial; rewrite Rmult_comm; exact R3.
Qed.

Lemma founded t a r ins bath env s : calc_area t a r ins bath env = Ok s -> foundation t ins bath s.
Proof.
intro H; inv_all H; destruct t; inv_rest H; cbn [get_h_base_bath get_h_base_other get_entrance get_bath bind] in EB, EO, EE, ET;
  destruct ins; try discriminate; destruct bath; try discriminate; cbn [bind] in EB, EO; apply ok_inj in EB, EO, EE, ET;
  injection EE as <- <- <- <-; injection ET as <- <- <- <-; subst h_bath h_other;
  unfold foundation, four, sum, entrance_room, bath_room, room_area, half_perimeter, foundation_area, zero4;
  cbn [map fold_right get_l_base_other get_ef_other quad_total quad_zip quad_map q000 q090 q180 q270 sh_ef_total sh_a_f sh_l_base_out sh_l_base_in sh_base_out sh_base_in sh_l_ms sh_l_os];
  repeat split; unfold zero4; cbn [q000 q090 q180 q270]; lra.
Qed.

(* the envelope area if the house is as compact as it can be *)
Definition smallest (t : house_type) (a : R) (ins bath : insulation) : R :=
  let '(etrc_ms, etrc_os) := match t with Detached => (1365 / 1000, 182 / 100) | Attached => (1, 1) end in
  let '(bath_ms, bath_os) := match t with Detached => (182 / 100, 182 / 100) | Attached => (21 / 10, 1365 / 1000) end in
  match get_h_base_bath t ins bath, get_h_base_other t ins, get_entrance t ins etrc_ms etrc_os, get_bath t ins bath bath_ms bath_os with
  | Ok h_bath, Ok h_other, Ok (_, _, eo, ei), Ok (_, _, bo, bi) =>
      let l_e := quad_sum eo + ei in let l_b := quad_sum bo + bi in
      match t, get_a_f t a (77 / 100) with
      | Detached, Two a1 a2 => 2 * a1 + l_e * (18 / 100) + l_b * h_bath - (l_e + l_b) * h_other +
          (4 * sqrt a1 * (29 / 10 + h_other) + 4 * sqrt a2 * (104 / 100) / (108 / 100) * (27 / 10)) * (108 / 104)
      | _, _ => 2 * a + 4 * sqrt a * (28 / 10)
      end
  | _, _, _, _ => 0
  end.

Lemma max_scaled env K r y c : 0 < y -> r = (env - K) / y -> K + Rmax r c * y = Rmax env (K + c * y).
Proof.
intros Y E; assert (EY : r * y = env - K) by (rewrite E; field; lra).
unfold Rmax; destruct (Rle_dec r c) as [L|L], (Rle_dec env (K + c * y)) as [M|M]; try lra.
- exfalso; apply M; assert (r * y <= c * y) by (apply Rmult_le_compat_r; lra); lra.
- assert (c * y < r * y) by (apply Rmult_lt_compat_r; lra); lra.
Qed.

(* either there are no other bases or no inner ones *)
Lemma base_cases ins bath h_other h_bath e1 f1 eo ei b1 f2 bo bi ms os ms' os' :
  get_h_base_other Detached ins = Ok h_other -> get_entrance Detached ins ms os = Ok (e1, f1, eo, ei) -> get_bath Detached ins bath ms' os' = Ok (b1, f2, bo, bi) ->
  get_h_base_bath Detached ins bath = Ok h_bath ->
  (ins = InsBase /\ h_other = 1 / 2 /\ ei = 0 /\ bi = 0) \/ (ins = InsFloor /\ h_other = 0).
Proof.
destruct ins; try discriminate; intros HO HE HB _; apply ok_inj in HO; simpl in HO; subst h_other; [right; auto|left].
simpl in HE, HB; injection HE as <- <- <- <-; injection HB as <- <- <- <-; auto.
Qed.

Lemma prescribed t a r ins bath env s : calc_area t a r ins bath (Some env) = Ok s -> sh_total s = Rmax env (smallest t a ins bath).
Proof.
intro H; inv_all H; destruct t; inv_rest H; unfold smallest; rewrite EB, EO, EE, ET; cbn [sh_total].
- unfold get_f_s in EF; cbn [ground get_a_f] in EF; cbn [get_a_f] in *.
  set (a1 := a / (1 + 77 / 100)) in *; set (a2 := a * (77 / 100) / (1 + 77 / 100)) in *.
  destruct (root a1) as [s1|] eqn:R1; cbn [bind] in EF; [|discriminate]; destruct (root a2) as [s2|] eqn:R2; cbn [bind] in EF; [|discriminate].
  destruct (root_inv _ _ R1) as (P1 & ->), (root_inv _ _ R2) as (P2 & ->).
  match type of EF with bind (fdiv ?u ?v) _ = _ => set (x := u) in *; set (y := v) in *; destruct (fdiv x y) as [q|] eqn:Q; cbn [bind] in EF; [|discriminate] end.
  apply fdiv_inv in Q; destruct Q as (Y & Q); apply ok_inj in EF; subst f_s.
  assert (HO : 0 <= h_other) by (destruct (base_cases _ _ _ _ _ _ _ _ _ _ _ _ _ _ _ _ EO EE ET EB) as [(_ & -> & _)|(_ & ->)]; lra).
  assert (YP : 0 < y).
  { assert (0 <= y); [|lra]; unfold y; apply Rplus_le_le_0_compat; repeat (apply Rmult_le_pos || apply sqrt_pos || lra). }
  apply prm_inv in EP; destruct EP as (_ & _ & ->); injection EL as <- <-.
  set (f2 := Rmax (q * (104 / 100) / (108 / 100)) 1).
  assert (F : f2 * (108 / 100) / (104 / 100) = Rmax q (108 / 104)).
  { unfold f2, Rmax; destruct (Rle_dec _ 1), (Rle_dec q (108 / 104)); lra. }
  assert (F2 : f2 = Rmax q (108 / 104) * (104 / 108)) by (rewrite <- F; field).
  rewrite F, F2; set (f := Rmax q (108 / 104)).
  transitivity ((env - x) + f * y); [|unfold f; rewrite (max_scaled env (env - x) q y) by (trivial; rewrite Q; f_equal; ring); f_equal; unfold x, y; cbn [ground]; field].
  cbn [zip_with ground storey_sum q000 q090 q180 q270 quad_map quad_zip]; unfold quad_total, quad_sum, x, y; cbn [quad_map quad_zip q000 q090 q180 q270 ground].
  destruct (base_cases _ _ _ _ _ _ _ _ _ _ _ _ _ _ _ _ EO EE ET EB) as [(-> & -> & -> & ->)|(-> & ->)];
    cbn [get_l_base_other get_ef_other ground zero4 q000 q090 q180 q270]; unfold quad_sum; field.
- unfold get_f_s in EF; cbn [ground get_a_f] in EF; cbn [get_a_f] in *.
  injection EE as <- <- <- <-; injection ET as <- <- <- <-.
  destruct (root a) as [s1|] eqn:R1; cbn [bind] in EF; [|discriminate]; destruct (root_inv _ _ R1) as (P1 & ->).
  match type of EF with bind (fdiv ?u ?v) _ = _ => set (x := u) in *; set (y := v) in *; destruct (fdiv x y) as [q|] eqn:Q; cbn [bind] in EF; [|discriminate] end.
  apply fdiv_inv in Q; destruct Q as (Y & Q); apply ok_inj in EF; subst f_s.
  assert (YP : 0 < y) by (assert (0 <= y); [|lra]; unfold y; cbn [ground]; repeat (apply Rmult_le_pos || apply sqrt_pos || lra)).
  apply prm_inv1 in EP; destruct EP as (_ & ->); injection EL as <- <-.
  transitivity ((env - x) + Rmax q 1 * y); [|rewrite (max_scaled env (env - x) q y) by (trivial; rewrite Q; f_equal; ring); f_equal; unfold x, y, quad_sum; cbn [ground zero4 q000 q090 q180 q270]].
  + cbn [zip_with ground storey_sum q000 q090 q180 q270 quad_map quad_zip]; unfold quad_total, quad_sum, x, y; cbn [quad_map quad_zip q000 q090 q180 q270 ground get_l_base_other zero4].
    unfold quad_sum; cbn [q000 q090 q180 q270 zero4].
    field.
  + destruct ins; try discriminate; apply ok_inj in EO; cbn [bind] in EO; simpl in EO; subst h_other; field.
Qed.

(* the parts *)
Lemma none_zero l : (forall x, In x l -> x <= 0) -> none_of l = Ok tt.
Proof.
intro H; unfold none_of; assert (E : existsb (fun x => if Rlt_dec 0 x then true else false) l = false); [|rewrite E; reflexivity].
induction l as [|x l IH]; [reflexivity|]; simpl; destruct (Rlt_dec 0 x) as [L|_]; [specialize (H x (or_introl eq_refl)); lra|apply IH; intros; apply H; right; assumption].
Qed.

Ltac nz := rewrite !none_zero by (let x := fresh in let I := fresh in intros x I; repeat destruct I as [<- |I]; try (destruct I); try lra; try (unfold quad_total; cbn [quad_zip quad_map q000 q090 q180 q270 zero4]; lra)).

Lemma house_made t a r ins bath env s : calc_area t a r ins bath env = Ok s ->
  exists h, get_model_house_no_spec s = Ok h /\ house_area h = sh_total s /\
  sum (map ep_length (n_eps h)) = four (sh_l_base_out s) + sh_l_base_in s.
Proof.
intro H; assert (FA := floors_add _ _ _ _ _ _ _ H); destruct FA as (_ & _ & _ & _ & _ & _ & K).
destruct (filled _ _ _ _ _ _ _ H) as (FF & _ & TN & TT).
assert (HA : sh_total s = sh_f_total s + sh_ef_total s + sh_roof s + four (sh_wall s) + four (sh_window s) + four (sh_door s) + four (sh_base_out s) + sh_base_in s).
{ destruct FF as (A1 & A2 & A3 & A4); rewrite TT, TN; unfold four; lra. }
rewrite HA; clear HA FF TN TT; inv_all H; destruct t; inv_rest H; unfold get_model_house_no_spec;
  cbn [sh_wall sh_window sh_door sh_type sh_ins sh_f_total sh_ef_total sh_base_out sh_base_in sh_l_base_out sh_l_base_in sh_roof].
- destruct K as [(-> & BB)|(-> & BB)].
  + injection EO as <-; injection EE as <- <- <- <-.
    assert (Z0 : q000 bath_out = 0 /\ q270 bath_out = 0) by (destruct BB as [-> |[-> | ->]]; injection ET as <- <- <- <-; split; reflexivity).
    destruct Z0 as (Z0 & Z2).
    cbn [q000 q270]; nz; cbn [bind]; unfold quad_total; cbn [get_l_base_other quad_zip quad_map q000 q270 zero4]; rewrite Z0, Z2; nz; cbn [bind].
    eexists; split; [reflexivity|]; unfold house_area, four, sum; cbn [n_gps n_ws n_ds n_ecs n_eps app map fold_right mh_gp mh_w mh_d mh_ep mh_env gp_env w_env d_env e_area ec_area ep_length
      q000 q090 q180 q270 quad_zip quad_map get_l_base_other zero4]; rewrite Z0, Z2; split; ring.
  + injection EE as <- <- <- <-; injection ET as <- <- <- <-.
    cbn [q000 q270]; nz; cbn [bind]; unfold quad_total; cbn [get_l_base_other get_ef_other quad_zip quad_map q000 q090 q180 q270 zero4]; nz; cbn [bind].
    eexists; split; [reflexivity|]; unfold house_area, four, sum; cbn [n_gps n_ws n_ds n_ecs n_eps app map fold_right mh_gp mh_w mh_d mh_ep mh_env gp_env w_env d_env e_area ec_area ep_length
      q000 q090 q180 q270 quad_zip quad_map]; split; ring.
- injection EE as <- <- <- <-; injection ET as <- <- <- <-.
  unfold quad_total; cbn [get_l_base_other get_ef_other quad_zip quad_map q000 q090 q180 q270 zero4]; nz; cbn [bind].
  eexists; split; [reflexivity|]; unfold house_area, four, sum; cbn [n_gps n_ws n_ds n_ecs n_eps app map fold_right mh_gp mh_w mh_d mh_ep mh_env gp_env w_env d_env e_area ec_area ep_length
      q000 q090 q180 q270 quad_zip quad_map]; unfold zero4; cbn [q000 q090 q180 q270]; split; ring.
Qed.

(* every side has its walls, foundation, windows and doors *)
Lemma sides_made t a r ins bath env s h n d side : calc_area t a r ins bath env = Ok s -> get_model_house_no_spec s = Ok h -> In (n, d, side) (house_sides t) ->
  facing n d (map gp_env (n_gps h)) = side (sh_wall s) + side (sh_base_out s) /\
  facing n d (map w_env (n_ws h)) = side (sh_window s) /\ facing n d (map d_env (n_ds h)) = side (sh_door s).
Proof.
intro H; assert (FA := floors_add _ _ _ _ _ _ _ H); destruct FA as (_ & _ & _ & _ & _ & _ & K).
inv_all H; destruct t; inv_rest H; unfold get_model_house_no_spec;
  cbn [sh_wall sh_window sh_door sh_type sh_ins sh_f_total sh_ef_total sh_base_out sh_base_in sh_l_base_out sh_l_base_in sh_roof].
- destruct K as [(-> & BB)|(-> & BB)].
  + injection EO as <-; injection EE as <- <- <- <-.
    assert (Z0 : q000 bath_out = 0 /\ q270 bath_out = 0) by (destruct BB as [-> |[-> | ->]]; injection ET as <- <- <- <-; split; reflexivity).
    destruct Z0 as (Z0 & Z2).
    cbn [q000 q270]; nz; cbn [bind]; unfold quad_total; cbn [get_l_base_other quad_zip quad_map q000 q270 zero4]; rewrite Z0, Z2; nz; cbn [bind].
    intro E; apply ok_inj in E; subst h; intros [I|[I|[I|[I|[]]]]]; injection I as <- <- <-; unfold facing, sum;
      cbn [n_gps n_ws n_ds app map filter fold_right mh_gp mh_w mh_d mh_env gp_env w_env d_env e_area e_direction e_next_space
        same_direction same_space q000 q090 q180 q270 quad_zip quad_map zero4 direction_rect direction_rec next_space_rec next_space_rect sumbool_rec sumbool_rect]; simpl; rewrite ?Z0, ?Z2; repeat split; ring.
  + injection EE as <- <- <- <-; injection ET as <- <- <- <-.
    cbn [q000 q270]; nz; cbn [bind]; unfold quad_total; cbn [get_l_base_other get_ef_other quad_zip quad_map q000 q090 q180 q270 zero4]; nz; cbn [bind].
    intro E; apply ok_inj in E; subst h; intros [I|[I|[I|[I|[]]]]]; injection I as <- <- <-; unfold facing, sum; simpl; repeat split; ring.
- injection EE as <- <- <- <-; injection ET as <- <- <- <-.
  unfold quad_total; cbn [get_l_base_other get_ef_other quad_zip quad_map q000 q090 q180 q270 zero4]; nz; cbn [bind].
  intro E; apply ok_inj in E; subst h; intros [I|[I|[I|[]]]]; injection I as <- <- <-; unfold facing, sum; simpl; unfold zero4; simpl; repeat split; ring.
Qed.
