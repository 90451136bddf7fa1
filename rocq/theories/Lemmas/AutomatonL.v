From Coq Require Import ZArith.
From mathcomp Require Import all_ssreflect ssralg ssrnum zmodp matrix.
From Coq Require Import Ring Field.
From Verif Require Import Model.OperationMode Model.Dec Model.OtTarget Spec.Automaton Lemmas.DecL Lemmas.OtTargetL
  Model.PreCalc Model.Tick Lemmas.FieldTac.
Set Implicit Arguments. Unset Strict Implicit. Unset Printing Implicit Defensive.
Import Order.TTheory GRing.Theory Num.Theory.
Local Open Scope ring_scope.

Section AutomatonL.
Variable F : realFieldType.
Add Field Ffield : (ffield_theory F).
Ltac fring := ffold F; ring.
Local Notation next s m := (get_operation_mode (demand s) m (pmv_heavy s) (pmv_middle s) (pmv_light s)).
Local Notation lim := (dec F 7%Z 1).

Lemma next_no_demand (s : situation F) m : demand s <= 0 -> next s m = Some STOP_CLOSE.
Proof. by rewrite /get_operation_mode leNgt => /negbTE ->. Qed.

Lemma next_heating (s : situation F) m : next s m = Some HEATING -> 0 < demand s /\ pmv_heavy s <= lim.
Proof.
rewrite /get_operation_mode; case: (ltP 0 (demand s)) => // _.
have w : pmv_heavy s <= - lim -> pmv_heavy s <= lim.
  move=> le; apply: le_trans le _; rewrite ge0_cp //; exact: dec_ge0.
by case: m => //; repeat (case: ifP => //); move=> *; split=> //; auto.
Qed.

Lemma next_cooling (s : situation F) m : next s m = Some COOLING -> 0 < demand s /\ - lim <= pmv_light s.
Proof.
rewrite /get_operation_mode; case: (ltP 0 (demand s)) => // _.
have w : lim <= pmv_light s -> - lim <= pmv_light s.
  by move=> le; apply: le_trans le; rewrite ge0_cp //; exact: dec_ge0.
by case: m => //; repeat (case: ifP => //); move=> *; split=> //; auto.
Qed.

Lemma next_open (s : situation F) m : next s m = Some STOP_OPEN -> 0 < demand s /\ 0 <= pmv_middle s.
Proof.
rewrite /get_operation_mode; case: (ltP 0 (demand s)) => // _.
have w : (pmv_middle s <= 0) = false -> 0 <= pmv_middle s by move=> /negbT; rewrite -ltNge => /ltW.
by case: m => //; repeat (case: ifP => //); move=> *; split=> //; auto.
Qed.

(* the whole history *)
Lemma modes_total (hist : seq (situation F)) : forall m, m <> HEATING_AND_COOLING ->
  exists ms, modes m hist = Some ms.
Proof.
elim: hist => [|s hist IH] m mE /=; first by exists [::].
case E: (get_operation_mode _ _ _ _ _) => [m'|].
  by have [ms ->] := IH m' (op_mode_legal E); eexists.
by case: (iffLR (op_mode_none _ _ _ _ _) E).
Qed.

Lemma modes_step (hist : seq (situation F)) : forall m ms, modes m hist = Some ms ->
  size ms = size hist /\
  forall k s, (k < size hist)%N ->
    let si := nth s hist k in
    next si (nth m (m :: ms) k) = Some (nth m ms k).
Proof.
elim: hist => [|s hist IH] m ms /=; first by case=> <-.
case E: (get_operation_mode _ _ _ _ _) => [m'|//].
case F2: (modes m' hist) => [ms'|//] [<-].
have [sz H] := IH _ _ F2; split=> [/=|]; first by rewrite sz.
case=> [|k] s0 /= hk; first exact: E.
have := H k s0 hk => /=; rewrite (set_nth_default m) /=; last by rewrite ltnS sz ltnW.
by rewrite (set_nth_default m (s := ms')) // sz.
Qed.

(* constant conditions *)
Lemma next_const (s : situation F) m m1 m2 m3 : pmv_light s <= pmv_heavy s -> pmv_middle s != 0 ->
  next s m = Some m1 -> next s m1 = Some m2 -> next s m2 = Some m3 -> m3 = m2.
Proof.
have l0 : 0 < lim by apply: dec_gt0.
have l1 : - lim < lim by rewrite -subr_gt0 opprK addr_gt0.
rewrite /get_operation_mode; case: (ltP 0 (demand s)) => _; last by move=> _ _ _ [<-] [<-].
move=> lh m0.
have A : lim <= pmv_light s -> - lim <= pmv_light s by move=> le; apply: le_trans le; exact: ltW.
have B : pmv_heavy s <= - lim -> pmv_heavy s <= lim by move=> le; apply: le_trans le _; exact: ltW.
have C : lim <= pmv_light s -> pmv_heavy s <= - lim -> False.
  by move=> a b; have := le_trans a (le_trans lh b); rewrite leNgt l1.
have D : (pmv_middle s <= 0) = ~~ (0 <= pmv_middle s).
  by rewrite -ltNge lt_neqAle m0.
rewrite D; move: A B C {D}; case: (pmv_heavy s <= lim); case: (pmv_heavy s <= - lim);
 case: (lim <= pmv_light s); case: (- lim <= pmv_light s); case: (0 <= pmv_middle s) => A B C;
 try (by have := B isT); try (by have := A isT); try (by case: (C isT isT));
 by case: m => // -[<-] /= [<-] /= [<-].
Qed.

Lemma next_flip (s : situation F) : 0 < demand s -> pmv_middle s = 0 -> pmv_light s < lim -> - lim < pmv_heavy s ->
  next s STOP_OPEN = Some STOP_CLOSE /\ next s STOP_CLOSE = Some STOP_OPEN.
Proof.
move=> d0 m0 l h; rewrite /get_operation_mode d0 m0 lexx.
by rewrite leNgt l /= leNgt h.
Qed.

(* occupants *)
Lemma occ_total (t : F) : q_hum_psn t + x_hum_psn t * l_wtr F = 119%:R.
Proof.
rewrite /x_hum_psn divfK; first by rewrite addrC subrK.
by rewrite /l_wtr -natrM pnatr_eq0.
Qed.

Lemma occ_le (t : F) : q_hum_psn t <= 119%:R.
Proof. by rewrite /q_hum_psn le_minl lexx orbT. Qed.

Lemma occ_x_ge0 (t : F) : 0 <= x_hum_psn t.
Proof. by rewrite /x_hum_psn divr_ge0 ?subr_ge0 ?occ_le // /l_wtr -natrM ler0n. Qed.

Lemma occ_mono (t t' : F) : t <= t' -> q_hum_psn t' <= q_hum_psn t.
Proof.
move=> tt; rewrite /q_hum_psn le_minr !le_minl lexx orbT andbT.
by rewrite ler_add2l ler_opp2 ler_pmul2l ?ltr0n // ler_add2r tt.
Qed.

Lemma occ_ge0 (t : F) : (0 <= q_hum_psn t) = (t <= 159%:R / 4%:R).
Proof.
rewrite /q_hum_psn le_minr ler0n andbT ler_pdivl_mulr ?ltr0n // -subr_ge0 -[RHS]subr_ge0.
by congr (_ <= _); fring.
Qed.


(* forms used in Props *)
Lemma dec7 : dec F 7%Z 1 = 7%:R / 10%:R.
Proof.
rewrite decE -[Z.pow _ _]/10%Z /z2f !p2fE.
by [].
Qed.

Lemma history_accepted (hist : seq (situation F)) (m : mode) : m <> HEATING_AND_COOLING ->
  exists ms, [/\ modes m hist = Some ms, size ms = size hist & forall k, nth STOP_CLOSE ms k <> HEATING_AND_COOLING].
Proof.
move=> mE; have [ms H] := modes_total hist mE; have [sz st] := modes_step H; exists ms; split=> // k.
case: (ltnP k (size ms)) => hk; last by rewrite nth_default.
have s0 : situation F by case: hist sz {H st} => [|s]; [case: ms hk|].
have := st k s0; rewrite -sz => /(_ hk) /= E; rewrite (set_nth_default m) //; exact: op_mode_legal E.
Qed.

Lemma mode_meaning (hist : seq (situation F)) (m : mode) (ms : seq mode) (s0 : situation F) :
  modes m hist = Some ms -> forall k, (k < size hist)%N ->
  let s := nth s0 hist k in let m' := nth STOP_CLOSE ms k in
  [/\ demand s <= 0 -> m' = STOP_CLOSE,
      m' = HEATING -> 0 < demand s /\ pmv_heavy s <= 7%:R / 10%:R,
      m' = COOLING -> 0 < demand s /\ - (7%:R / 10%:R) <= pmv_light s &
      m' = STOP_OPEN -> 0 < demand s /\ 0 <= pmv_middle s].
Proof.
move=> H k hk s m'; have [sz st] := modes_step H; have := st k s0 hk; rewrite /= -/s.
have -> : nth m ms k = m' by rewrite (set_nth_default STOP_CLOSE) // sz.
rewrite -dec7 => a; split=> [d0|e|e|e].
- by move: a; rewrite next_no_demand // => -[].
- by apply: (@next_heating s); rewrite -e; exact: a.
- by apply: (@next_cooling s); rewrite -e; exact: a.
by apply: (@next_open s); rewrite -e; exact: a.
Qed.

Lemma mode_transitions (hist : seq (situation F)) (m : mode) (ms : seq mode) (s0 : situation F) :
  modes m hist = Some ms -> forall k, (k < size hist)%N ->
  let s := nth s0 hist k in let m1 := nth STOP_CLOSE (m :: ms) k in let m2 := nth STOP_CLOSE ms k in
  0 < demand s ->
  [/\ m1 = HEATING -> (m2 = HEATING <-> pmv_heavy s <= 7%:R / 10%:R),
      m1 = COOLING -> (m2 = COOLING <-> - (7%:R / 10%:R) <= pmv_light s),
      m1 <> HEATING -> m2 = HEATING -> pmv_heavy s <= - (7%:R / 10%:R) &
      m1 <> COOLING -> m2 = COOLING -> 7%:R / 10%:R <= pmv_light s] /\
  [/\ m1 <> COOLING -> 7%:R / 10%:R < pmv_heavy s -> 7%:R / 10%:R <= pmv_light s -> m2 = COOLING,
      m1 <> HEATING -> pmv_light s < - (7%:R / 10%:R) -> pmv_heavy s <= - (7%:R / 10%:R) -> m2 = HEATING,
      (m1 = STOP_OPEN \/ m1 = STOP_CLOSE) -> (m2 = COOLING <-> 7%:R / 10%:R <= pmv_light s) &
      (m1 = STOP_OPEN \/ m1 = STOP_CLOSE) ->
        (m2 = HEATING <-> pmv_heavy s <= - (7%:R / 10%:R) /\ pmv_light s < 7%:R / 10%:R)] /\
  ((m1 = STOP_OPEN \/ m1 = STOP_CLOSE) -> (m2 = STOP_OPEN \/ m2 = STOP_CLOSE) ->
    (0 < pmv_middle s -> m2 = STOP_OPEN) /\ (pmv_middle s < 0 -> m2 = STOP_CLOSE)).
Proof.
move=> H k hk s m1 m2 d0; have [sz st] := modes_step H; have := st k s0 hk; rewrite -/s -dec7.
have -> : nth m ms k = m2 by rewrite (set_nth_default STOP_CLOSE) // sz.
have -> : nth m (m :: ms) k = m1 by rewrite (set_nth_default STOP_CLOSE) //= sz ltnS ltnW.
have l0 : 0 < lim by apply: dec_gt0.
have l1 : - lim < lim by rewrite -subr_gt0 opprK addr_gt0.
rewrite /get_operation_mode d0.
case: (lerP (pmv_heavy s) lim) => Hh; case: (lerP lim (pmv_light s)) => Hl;
 case: (lerP (- lim) (pmv_light s)) => Hl'; case: (lerP (pmv_heavy s) (- lim)) => Hh';
 case: (ltrgtP (pmv_middle s) 0) => Hm; case: m1 => // -[<-];
 (split; [split|split; [split|]]); try (by []); try (by case); try (by move=> _; split=> // -[]);
 try (by move=> _ []); try (by move: Hl; rewrite leNgt (lt_trans Hl' l1));
 try (by move: Hh; rewrite ltNge (le_trans Hh' (ltW l1))).
Qed.

Lemma constant_conditions (s : situation F) (m : mode) (n : nat) (ms : seq mode) :
  pmv_light s <= pmv_heavy s -> pmv_middle s != 0 -> modes m (nseq n s) = Some ms ->
  forall k, (1 <= k)%N -> (k < n)%N -> nth STOP_CLOSE ms k = nth STOP_CLOSE ms 1.
Proof.
move=> lh m0 H; have [sz st] := modes_step H; rewrite size_nseq in sz.
have {}st k : (k < n)%N -> next s (nth m (m :: ms) k) = Some (nth STOP_CLOSE ms k).
  move=> hk; have := st k s; rewrite size_nseq nth_nseq hk => /(_ isT) /=.
  by rewrite (set_nth_default STOP_CLOSE (s := ms)) // sz.
elim=> [//|[//|k] IH] _ hk; rewrite -IH //; last exact: ltnW.
have e j : (j < n)%N -> nth m ms j = nth STOP_CLOSE ms j.
  by move=> hj; rewrite (set_nth_default STOP_CLOSE) // sz.
have a1 := st k (ltnW (ltnW hk)); have := st k.+1 (ltnW hk); have := st k.+2 hk.
rewrite /= !e ?(ltnW hk) ?(ltnW (ltnW hk)) // => a3 a2.
exact: (next_const lh m0 a1 a2 a3).
Qed.

Lemma windows_flip :
  exists s : situation F, [/\ pmv_light s <= pmv_middle s, pmv_middle s <= pmv_heavy s &
    forall n, exists ms, modes STOP_CLOSE (nseq n s) = Some ms /\
      forall k, (k < n)%N -> nth HEATING ms k = if odd k then STOP_CLOSE else STOP_OPEN].
Proof.
exists (Situation 1 0 0 0); split=> //; set s := Situation _ _ _ _.
have l0 : 0 < lim by apply: dec_gt0.
have [f1 f2] : next s STOP_OPEN = Some STOP_CLOSE /\ next s STOP_CLOSE = Some STOP_OPEN.
  by apply: next_flip; rewrite /= ?ltr01 // oppr_lt0.
suff H n (b : bool) : exists ms, modes (if b then STOP_OPEN else STOP_CLOSE) (nseq n s) = Some ms /\
    forall k, (k < n)%N -> nth HEATING ms k = if odd k (+) b then STOP_CLOSE else STOP_OPEN.
  by move=> n; have [ms [e1 e2]] := H n false; exists ms; split=> // k /e2; rewrite addbF.
elim: n b => [|n IH] b; first by exists [::].
have [ms [e1 e2]] := IH (~~ b); exists ((if b then STOP_CLOSE else STOP_OPEN) :: ms); split.
  by move: e1; case: (b) => /=; rewrite ?f1 ?f2 /= => ->.
case=> [|k] /= hk; first by case: (b).
by rewrite e2 // addbN addNb.
Qed.

Lemma occupants_all :
  [/\ forall t : F, q_hum_psn t + x_hum_psn t * (2501%:R * 1000%:R) = 119%:R,
      forall t : F, 0 <= x_hum_psn t,
      forall t : F, q_hum_psn t <= 119%:R,
      forall t t' : F, t <= t' -> q_hum_psn t' <= q_hum_psn t &
      forall t : F, (0 <= q_hum_psn t) = (t <= 159%:R / 4%:R)].
Proof. split; [exact: occ_total|exact: occ_x_ge0|exact: occ_le|exact: occ_mono|exact: occ_ge0]. Qed.

Lemma comfort_monotone (e0 clo h : F) : 0 <= e0 -> 0 <= clo -> 0 < h ->
  [/\ forall p t t', t < t' -> get_theta_ot_target e0 clo p h t < get_theta_ot_target e0 clo p h t',
      forall p p' t, p < p' -> get_theta_ot_target e0 clo p' h t < get_theta_ot_target e0 clo p h t,
      forall p tr o o', o < o' -> get_pmv e0 tr clo p h o < get_pmv e0 tr clo p h o' &
      forall p tr tr' o, tr < tr' -> get_pmv e0 tr clo p h o < get_pmv e0 tr' clo p h o].
Proof.
move=> *; split=> *; [exact: target_mono|exact: target_anti_p|exact: pmv_mono_ot|exact: pmv_mono_tr].
Qed.

Lemma room_target (e0 x_r theta_r theta_mrt ac : F) mns om t : 0 <= e0 ->
  ot_target_pmv e0 x_r mns theta_r theta_mrt ac = Some (om, t) ->
  [/\ om = HEATING -> get_pmv e0 t (clo_heavy F) (get_p_v_r x_r) (h_hum_c F + h_hum_r F) t = - (1 / 2%:R),
      om = COOLING -> get_pmv e0 t (clo_light F) (get_p_v_r x_r) (h_hum_c F + h_hum_r F) t = 1 / 2%:R &
      om <> HEATING -> om <> COOLING -> t = 0].
Proof.
move=> e; rewrite /ot_target_pmv; case: (get_operation_mode _ _ _ _ _) => // m [<- <-].
have d5 : dec F 5%Z 1 = 1 / 2%:R.
  by rewrite decE -[Z.pow _ _]/10%Z /z2f !p2fE; apply/eqP; rewrite eqr_div ?pnatr_eq0 // mul1r -natrM.
have hh : 0 < h_hum_c F + h_hum_r F.
  by rewrite addr_gt0 ?h_hum_r_gt0 // (lt_trans (h_hum_r_gt0 F) (h_hum_r_lt_c F)).
split; [move=> -> /=|move=> -> /=|by case: m].
  by rewrite pmv_at_target ?d5 //; exact: dec_ge0.
by rewrite pmv_at_target ?d5 //; exact: dec_ge0.
Qed.

Lemma house_target (e0 : F) (ni : nat) (x_r theta_r theta_mrt ac : 'cV[F]_ni) mns h_c h_r om lower upper :
  0 <= e0 -> get_ot_target_and_h_hum e0 x_r mns theta_r theta_mrt ac = Some (h_c, h_r, om, lower, upper) ->
  forall i, 0 < h_c i 0 + h_r i 0 /\
    match om i with
    | HEATING => get_pmv e0 (lower i 0) (clo_heavy F) (get_p_v_r (x_r i 0)) (h_c i 0 + h_r i 0) (lower i 0) = - (1 / 2%:R) /\ upper i 0 = 0
    | COOLING => get_pmv e0 (upper i 0) (clo_light F) (get_p_v_r (x_r i 0)) (h_c i 0 + h_r i 0) (upper i 0) = 1 / 2%:R /\ lower i 0 = 0
    | _ => lower i 0 = 0 /\ upper i 0 = 0
    end.
Proof.
move=> e; rewrite /get_ot_target_and_h_hum; case: ifP => // /forallP A [<- <- <- <- <-] i; rewrite !mxE; split.
  by rewrite addr_gt0 ?h_hum_r_gt0 // (lt_trans (h_hum_r_gt0 F) (h_hum_r_lt_c F)).
move: (A i); case E: ot_target_pmv => [[m t]|] // _; have [H C _] := room_target e E.
by case: m H C {E} => //= H C; rewrite ?H ?C.
Qed.

End AutomatonL.
