(* Warmer clothing raises PMV below skin temperature; a room's mode under constant conditions (C17) *)
From mathcomp Require Import all_ssreflect ssralg ssrnum zmodp matrix.
From Coq Require Import ZArith Ring Field.
From Verif Require Import Model.OperationMode Model.Dec Model.OtTarget Spec.Automaton.
From Verif Require Import Lemmas.FieldTac Lemmas.DecL Lemmas.OtTargetL Lemmas.AutomatonL.
Set Implicit Arguments. Unset Strict Implicit. Unset Printing Implicit Defensive.
Import Order.TTheory GRing.Theory Num.Theory.
Local Open Scope ring_scope.

Section Clothing.
Variable F : realFieldType.
Add Field Ffield : (ffield_theory F).
Ltac fring := ffold F; ring.
Ltac ffield := ffold F; field.
Local Notation d := (dec F).
Local Notation i c := (get_i_cl c).
Local Notation f c := (get_f_cl (get_i_cl c)).

(* heat loss per kelvin between skin and operative temperature *)
Definition keff (clo h : F) : F := f clo * h / (1 + i clo * f clo * h).
Definition skin : F := d 357 1 - d 28 3 * get_m F.
Definition rest (p tr : F) : F :=
  get_m F - d 305 2 * d 1 3 * (d 5733 0 - d 699 2 * get_m F - p) - Num.max (d 42 2 * (get_m F - d 5815 2)) 0
  - d 17 1 * d 1 5 * get_m F * (d 5867 0 - p) - d 14 4 * get_m F * (d 34 0 - tr).

Lemma pmvE e0 tr clo p h o : get_pmv e0 tr clo p h o = pmv_gain e0 * (rest p tr - keff clo h * (skin - o)).
Proof.
rewrite /get_pmv /rest /keff /skin; congr (_ * (_ - _)); move: (1 + _ * _ * _) => q.
by rewrite -!mulrA; congr (_ * (_ * _)); rewrite mulrC.
Qed.

Lemma keff_lt (c c' h : F) : 0 <= c -> 0 <= c' -> 4%:R <= h -> i c < i c' ->
  f c' - f c < f c * f c' * 4%:R * (i c' - i c) -> keff c' h < keff c h.
Proof.
move=> c0 c1 h4 ii H; have h0 : 0 < h by apply: lt_le_trans h4; rewrite ltr0n.
have D := den_gt0 c0 h0; have D' := den_gt0 c1 h0.
have f0 : 0 < f c by apply/get_f_cl_gt0/get_i_cl_ge0. have f1 : 0 < f c' by apply/get_f_cl_gt0/get_i_cl_ge0.
rewrite /keff ltr_pdivr_mulr // mulrAC ltr_pdivl_mulr //.
rewrite -subr_gt0; have -> : f c * h * (1 + i c' * f c' * h) - f c' * h * (1 + i c * f c * h) =
  h * (f c * f c' * h * (i c' - i c) - (f c' - f c)) by fring.
rewrite mulr_gt0 // subr_gt0; apply: lt_le_trans H _.
by rewrite ler_pmul2r ?subr_gt0 // ler_pmul2l // mulr_gt0.
Qed.

Lemma f_small a k b l : (a * 10 ^ 3 <=? 78 * 10 ^ Z.of_nat k)%Z = true ->
  dec F 1 0 + d 1290 3 * d a k = d b l -> get_f_cl (d a k) = d b l.
Proof. by move=> H E; rewrite /get_f_cl (dec_le F (a := a) (k := k) (b := 78) (l := 3)) // -E -(dec_nat F 1). Qed.
Lemma f_large a k b l : (78 * 10 ^ Z.of_nat k <? a * 10 ^ 3)%Z = true ->
  d 105 2 + d 645 3 * d a k = d b l -> get_f_cl (d a k) = d b l.
Proof. by move=> H E; rewrite /get_f_cl leNgt (dec_lt F (a := 78) (k := 3) (b := a) (l := k)). Qed.

Lemma i_light : i (clo_light F) = d 465 4.
Proof. by rewrite /get_i_cl dec_mul; apply: dec_eq. Qed.
Lemma i_middle : i (clo_middle F) = d 1085 4.
Proof. by rewrite /get_i_cl dec_mul; apply: dec_eq. Qed.
Lemma i_heavy : i (clo_heavy F) = d 1705 4.
Proof. by rewrite /get_i_cl dec_mul; apply: dec_eq. Qed.
Lemma f_light : f (clo_light F) = d 1059985 6.
Proof. by rewrite i_light; apply: f_small => //; rewrite dec_mul dec_add; apply: dec_eq. Qed.
Lemma f_middle : f (clo_middle F) = d 11199825 7.
Proof. by rewrite i_middle; apply: f_large => //; rewrite dec_mul dec_add; apply: dec_eq. Qed.
Lemma f_heavy : f (clo_heavy F) = d 11599725 7.
Proof. by rewrite i_heavy; apply: f_large => //; rewrite dec_mul dec_add; apply: dec_eq. Qed.

Lemma keff_order (h : F) : 4%:R <= h -> keff (clo_heavy F) h < keff (clo_middle F) h < keff (clo_light F) h.
Proof.
move=> h4; apply/andP; split; apply: keff_lt => //; rewrite ?dec_ge0 //.
- by rewrite i_heavy i_middle; apply: dec_lt.
- rewrite f_heavy f_middle i_heavy i_middle (dec_nat F 4) !dec_opp !dec_add !dec_mul; exact: dec_lt.
- by rewrite i_middle i_light; apply: dec_lt.
- rewrite f_light f_middle i_light i_middle (dec_nat F 4) !dec_opp !dec_add !dec_mul; exact: dec_lt.
Qed.

Definition room_ot (tr mrt : F) : F := (h_hum_r F * mrt + h_hum_c F * tr) / (h_hum_r F + h_hum_c F).
Definition room_pmv (e0 p tr mrt clo : F) : F := get_h_hum_and_pmv e0 p tr mrt clo.

Lemma h4 : 4%:R <= h_hum_r F + h_hum_c F.
Proof.
rewrite -[4%:R]add0r ler_add ?(ltW (h_hum_r_gt0 F)) //.
by rewrite (dec_nat F 4); apply: dec_le.
Qed.

Variable e0 : F.
Hypothesis e0_ge0 : 0 <= e0.

Lemma clothing_sub p tr mrt c c' : room_pmv e0 p tr mrt c' - room_pmv e0 p tr mrt c =
  pmv_gain e0 * (keff c (h_hum_r F + h_hum_c F) - keff c' (h_hum_r F + h_hum_c F)) * (skin - room_ot tr mrt).
Proof.
rewrite /room_pmv /get_h_hum_and_pmv -/(room_ot tr mrt) !pmvE.
move: (pmv_gain e0) (rest p tr) (keff c _) (keff c' _) (skin - _) => g r k k' x; fring.
Qed.

Lemma clothing_cmp p tr mrt c c' : keff c' (h_hum_r F + h_hum_c F) < keff c (h_hum_r F + h_hum_c F) ->
  (room_pmv e0 p tr mrt c <= room_pmv e0 p tr mrt c') = (room_ot tr mrt <= skin).
Proof.
move=> H; rewrite -subr_ge0 clothing_sub pmulr_rge0 ?subr_ge0 //.
by rewrite mulr_gt0 ?subr_gt0 // pmv_gain_gt0.
Qed.

Lemma clothing_order p tr mrt :
  (room_pmv e0 p tr mrt (clo_light F) <= room_pmv e0 p tr mrt (clo_middle F)) = (room_ot tr mrt <= skin) /\
  (room_pmv e0 p tr mrt (clo_middle F) <= room_pmv e0 p tr mrt (clo_heavy F)) = (room_ot tr mrt <= skin).
Proof. by have /andP[A B] := keff_order h4; split; apply: clothing_cmp. Qed.

(* the part of PMV that does not depend on clothing *)
Lemma rest_large p tr : 0 <= p -> - 100%:R <= tr -> d 251 1 < rest p tr.
Proof.
move=> p0 t0; have -> : rest p tr = d 305 2 * d 1 3 * p + d 17 1 * d 1 5 * get_m F * p + d 14 4 * get_m F * (tr + 100%:R)
   + (get_m F - d 305 2 * d 1 3 * (d 5733 0 - d 699 2 * get_m F) - Num.max (d 42 2 * (get_m F - d 5815 2)) 0
      - d 17 1 * d 1 5 * get_m F * d 5867 0 - d 14 4 * get_m F * (d 34 0 + 100%:R)).
  rewrite /rest; move: (Num.max (d 42 2 * (get_m F - d 5815 2)) 0) (get_m F) (d 305 2) (d 1 3) (d 5733 0) (d 699 2) (d 17 1) (d 1 5) (d 5867 0) (d 14 4) (d 34 0) (100%:R).
  by move=> a1 a2 a3 a4 a5 a6 a7 a8 a9 b1 b2 b3; fring.
have Z : Num.max (d 42 2 * (get_m F - d 5815 2)) 0 = 0 by rewrite /get_m subrr mulr0 maxxx.
rewrite Z subr0; apply: (@lt_le_trans _ _ (get_m F - d 305 2 * d 1 3 * (d 5733 0 - d 699 2 * get_m F)
      - d 17 1 * d 1 5 * get_m F * d 5867 0 - d 14 4 * get_m F * (d 34 0 + 100%:R))).
  by rewrite /get_m (dec_nat F 100) !(dec_mul, dec_opp, dec_add); apply: dec_lt.
rewrite -subr_ge0 addrK; have m0 : 0 <= get_m F by apply: dec_ge0.
have t1 : 0 <= tr + 100%:R by rewrite -[100%:R]opprK subr_ge0.
have G a k : (0 <=? a)%Z = true -> 0 <= d a k by exact: dec_ge0.
by repeat first [exact: p0 | exact: t1 | exact: m0 | by apply: G | apply: addr_ge0 | apply: mulr_ge0].
Qed.

Lemma hot_room p tr mrt clo : 0 <= p -> - 100%:R <= tr -> 0 <= clo -> skin <= room_ot tr mrt -> d 7 1 < room_pmv e0 p tr mrt clo.
Proof.
move=> p0 t0 c0 hot; rewrite /room_pmv /get_h_hum_and_pmv -/(room_ot tr mrt) pmvE.
have k0 : 0 <= keff clo (h_hum_r F + h_hum_c F).
  have h0 : 0 < h_hum_r F + h_hum_c F by apply: lt_le_trans h4; rewrite ltr0n.
  have f0 : 0 < f clo by apply/get_f_cl_gt0/get_i_cl_ge0.
  by apply/ltW; rewrite /keff divr_gt0 ?(den_gt0 c0 h0) // mulr_gt0.
apply: (@lt_le_trans _ _ (d 28 3 * d 251 1)); first by rewrite dec_mul; apply: dec_lt.
apply: ler_pmul; rewrite ?dec_ge0 //; first by rewrite /pmv_gain ler_addr mulr_ge0 // dec_ge0.
apply: le_trans (ltW (rest_large p0 t0)) _.
by rewrite ler_addl oppr_ge0 mulr_ge0_le0 // subr_le0.
Qed.

Lemma p_v_r_ge0 (x : F) : 0 <= x -> 0 <= get_p_v_r x.
Proof. by move=> x0; rewrite /get_p_v_r divr_ge0 //; [apply: mulr_ge0 => //|apply: addr_ge0 => //]; exact: dec_ge0. Qed.

Lemma room_constant ac x_r tr mrt (m : mode) (n : nat) (ms : seq mode) : 0 <= x_r -> - 100%:R <= tr ->
  let s := room_situation e0 ac x_r tr mrt in
  pmv_middle s != 0 -> modes m (nseq n s) = Some ms ->
  forall k, (1 <= k)%N -> (k < n)%N -> nth STOP_CLOSE ms k = nth STOP_CLOSE ms 1.
Proof.
move=> x0 t0 s m0 H; have p0 := p_v_r_ge0 x0.
case: (leP (room_ot tr mrt) skin) => [cool|hot].
  apply: constant_conditions H => //; have [A B] := clothing_order (get_p_v_r x_r) tr mrt.
  by rewrite /s /=; apply: (@le_trans _ _ (room_pmv e0 (get_p_v_r x_r) tr mrt (clo_middle F))); rewrite ?A ?B.
have W c : 0 <= c -> d 7 1 < get_h_hum_and_pmv e0 (get_p_v_r x_r) tr mrt c.
  by move=> c0; apply: (hot_room p0 t0 c0 (ltW hot)).
have [sz st] := modes_step H; rewrite size_nseq in sz.
have all k : (k < n)%N -> nth STOP_CLOSE ms k = if 0 < ac then COOLING else STOP_CLOSE.
  move=> hk; have := st k s; rewrite size_nseq nth_nseq hk => /(_ isT).
  rewrite (set_nth_default STOP_CLOSE (s := ms)) ?sz // /get_operation_mode /=.
  case: ifP => _; last by move=> [<-].
  have wh : d 7 1 < get_h_hum_and_pmv e0 (get_p_v_r x_r) tr mrt (clo_heavy F) by apply: W; exact: dec_ge0.
  have wl : d 7 1 < get_h_hum_and_pmv e0 (get_p_v_r x_r) tr mrt (clo_light F) by apply: W; exact: dec_ge0.
  have hf : (get_h_hum_and_pmv e0 (get_p_v_r x_r) tr mrt (clo_heavy F) <= d 7 1) = false by rewrite leNgt wh.
  have lf : - d 7 1 <= get_h_hum_and_pmv e0 (get_p_v_r x_r) tr mrt (clo_light F) by apply: le_trans (ltW wl); rewrite dec_opp; apply: dec_le.
  by rewrite (ltW wl) hf lf; case: nth => //= -[<-].
by move=> k k1 hk; rewrite !all //; apply: leq_ltn_trans k1 hk.
Qed.

Lemma clothing_iff (p tr mrt : F) :
  (get_h_hum_and_pmv e0 p tr mrt (clo_light F) <= get_h_hum_and_pmv e0 p tr mrt (clo_middle F) /\
   get_h_hum_and_pmv e0 p tr mrt (clo_middle F) <= get_h_hum_and_pmv e0 p tr mrt (clo_heavy F)) <->
  (h_hum_r F * mrt + h_hum_c F * tr) / (h_hum_r F + h_hum_c F) <= d 340718 4.
Proof.
have [A B] := clothing_order p tr mrt.
have -> : d 340718 4 = skin by rewrite /skin /get_m !(dec_mul, dec_opp, dec_add); apply: dec_eq.
split=> [[a _]|H]; first by move: a; rewrite -/(room_pmv e0 p tr mrt (clo_light F)) A.
by move: A B; rewrite /room_pmv => -> ->; split.
Qed.

End Clothing.
