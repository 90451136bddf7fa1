(* Signs of the loads when one room is conditioned (C08). *)
From mathcomp Require Import all_ssreflect ssralg ssrnum zmodp matrix.
From Coq Require Import Ring Field.
From Verif Require Import Model.OperationMode Model.Numpy Model.NextCondition Model.PreCalc
  Model.HeatExchanger Model.Tick Spec.Physical Spec.Natural.
From Verif Require Import Lemmas.FieldTac Lemmas.NumpyL Lemmas.NextConditionL Lemmas.TickL
  Lemmas.TickBalance Lemmas.MMatrix Lemmas.TickTotal Lemmas.TickNatural.
Set Implicit Arguments. Unset Strict Implicit. Unset Printing Implicit Defensive.
Import Order.TTheory GRing.Theory Num.Theory.
Local Open Scope ring_scope.

Section CalcSign.
Variable F : realFieldType.
Variable n : nat.
Add Field Ffield0 : (ffield_theory F).
Ltac fring := ffold F; ring.
Variables (rh rc : 'I_n -> bool) (brc : 'cV[F]_n) (brm brl : 'M[F]_n).
Variables (lo up caph capc : 'cV[F]_n) (om : 'I_n -> mode) (ac : 'cV[F]_n).
Variables (theta lc lr tn : 'cV[F]_n).
Hypothesis H : calc_next_temp_and_load rh rc brc brm brl lo up caph capc om ac = Some (theta, lc, lr).
Hypothesis caph_ge0 : forall i, 0 <= caph i 0.
Hypothesis capc_ge0 : forall i, 0 <= capc i 0.
Hypothesis tnE : brm *m tn = brc.
Variable i : 'I_n.
Hypothesis one : forall k, k != i -> ~~ heats lo om tn k /\ ~~ cools up om tn k.
Let A := invmx brm i i.
Let B := (invmx brm *m brl) i i.
Hypothesis A0 : 0 < A.
Hypothesis B0 : (heats lo om tn i && rh i) || (cools up om tn i && rc i) -> 0 < B.
Hypothesis a0 : 0 <= ac i 0.

(* the temperature rise of room i is the sum of the effects of its own two loads *)
Lemma rise_eq (th l1 l2 : 'cV[F]_n) : brm *m th = l1 + brl *m l2 + brc ->
  (forall k, k != i -> l1 k 0 = 0 /\ l2 k 0 = 0) ->
  th i 0 - tn i 0 = A * l1 i 0 + B * l2 i 0.
Proof.
move=> E z; have u := calc_unit H.
have dE : th - tn = invmx brm *m l1 + invmx brm *m brl *m l2.
  by rewrite -[LHS](mulKmx u) mulmxBr E tnE addrK mulmxDr mulmxA.
have single (M : 'M[F]_n) (l : 'cV[F]_n) : (forall k, k != i -> l k 0 = 0) ->
   (M *m l) i 0 = M i i * l i 0.
  by move=> lz; rewrite mxE (bigD1 i) //= big1 ?addr0 // => k /lz ->; rewrite mulr0.
by rewrite -subE dE addE !single // => k /z[].
Qed.

Lemma calc_sign : (heats lo om tn i -> 0 <= lc i 0 /\ 0 <= lr i 0) /\
  (cools up om tn i -> lc i 0 <= 0 /\ lr i 0 <= 0).
Proof.
have zero k : k != i -> lc k 0 = 0 /\ lr k 0 = 0.
  by move=> nk; have [h1 h2] := one nk; exact: (calc_off H caph_ge0 capc_ge0 tnE h1 h2).
have rise := rise_eq (calc_balance H) zero.
have [th0 [lc0 [lr0 [E1 E2]]]] := calc_cases H tnE.
have E1b := glt_balance E1; rewrite mul1mx in E1b.
have zero0 k : k != i -> lc0 k 0 = 0 /\ lr0 k 0 = 0.
  move=> nk; have [/negbTE h1 /negbTE h2] := one nk; have [_ [e1 e2]] := glt_theta_set E1 k.
  by rewrite e1 ?e2 ?mxE // h1 h2.
have rise0 := rise_eq E1b zero0.
have [_ [lcE lrE]] := glt_theta_set E2 i; have [t0E [lc0E lr0E]] := glt_theta_set E1 i.
have [tE _] := glt_theta_set E2 i.
have [S1 S2] := calc_set H i tnE.
have ova k : k != i -> (caph k 0 < lr0 k 0) = false.
  by move=> /zero0[_ ->]; rewrite ltNge caph_ge0.
have una k : k != i -> (lr0 k 0 < - capc k 0) = false.
  by move=> /zero0[_ ->]; rewrite ltNge oppr_le0 capc_ge0.
(* when the first pass stays within the limits, its loads are the final ones *)
have same : (caph i 0 < lr0 i 0) = false -> (lr0 i 0 < - capc i 0) = false -> lr i 0 = lr0 i 0.
  move=> o1 o2; have ov k : (caph k 0 < lr0 k 0) = false by case: (eqVneq k i) => [->//|/ova].
  have un k : (lr0 k 0 < - capc k 0) = false by case: (eqVneq k i) => [->//|/una].
  have E3 := E2; rewrite (glt_ext _ _ _ _ _ _ (c' := fun i =>
      (heats lo om tn i && ~~ rh i) || (cools up om tn i && ~~ rc i)) _
    (r' := fun i => (heats lo om tn i && rh i) || (cools up om tn i && rc i)) (lrs' := 0)) in E3.
  - by move: E3; rewrite E1 => -[_ _ <-].
  - by move=> j; rewrite ov un.
  - by move=> j; rewrite ov un.
  - by apply/matrixP => j l; rewrite !mxE ov un.
split=> hc.
- have nc := heats_cools up hc.
  have dpos : 0 <= theta i 0 - tn i 0.
    rewrite S1 // /tset; case/andP: hc => _ lt.
    have -> : lo i 0 * ac i 0 + tn i 0 * (1 - ac i 0) - tn i 0 = ac i 0 * (lo i 0 - tn i 0) by fring.
    by rewrite mulr_ge0 // subr_ge0 ltW.
  case rhE: (rh i); last first.
    have lr0' : lr i 0 = 0 by apply: (calc_convective H caph_ge0 capc_ge0 tnE); rewrite hc rhE.
    by move: dpos; rewrite rise lr0' mulr0 addr0 pmulr_rge0.
  have Bp : 0 < B by apply: B0; rewrite hc rhE.
  have lc0z : lc0 i 0 = 0 by rewrite lc0E ?mxE // hc nc rhE.
  have thE : th0 i 0 = theta i 0 by rewrite tE ?t0E // hc.
  rewrite lc0z mulr0 add0r thE in rise0.
  have lr0p : 0 <= lr0 i 0 by rewrite -(pmulr_rge0 _ Bp) -rise0.
  have o2 : (lr0 i 0 < - capc i 0) = false.
    by apply/negbTE; rewrite -leNgt (le_trans _ lr0p) // oppr_le0.
  case o1 : (caph i 0 < lr0 i 0).
    have lrc : lr i 0 = caph i 0 by rewrite lrE ?o1 ?o2 ?andbF // !mxE o1 o2.
    rewrite lrc caph_ge0; split=> //; rewrite -(pmulr_rge0 _ A0).
    have -> : A * lc i 0 = B * (lr0 i 0 - caph i 0) by rewrite mulrBr -rise0 rise lrc addrK.
    by rewrite pmulr_rge0 // subr_ge0 ltW.
  rewrite same // lr0p; split=> //.
  by rewrite lcE ?mxE // o1 o2 hc nc rhE.
- have nh : heats lo om tn i = false.
    by apply/negbTE/negP => /(heats_cools up); rewrite hc.
  have dpos : theta i 0 - tn i 0 <= 0.
    rewrite S2 // /tset; case/andP: hc => _ lt.
    have -> : up i 0 * ac i 0 + tn i 0 * (1 - ac i 0) - tn i 0 = ac i 0 * (up i 0 - tn i 0) by fring.
    by rewrite mulr_ge0_le0 // subr_le0 ltW.
  case rcE: (rc i); last first.
    have lr0' : lr i 0 = 0 by apply: (calc_convective H caph_ge0 capc_ge0 tnE); rewrite hc rcE orbT.
    by move: dpos; rewrite rise lr0' mulr0 addr0 pmulr_rle0.
  have Bp : 0 < B by apply: B0; rewrite hc rcE orbT.
  have lc0z : lc0 i 0 = 0 by rewrite lc0E ?mxE // hc nh rcE.
  have thE : th0 i 0 = theta i 0 by rewrite tE ?t0E // hc ?andbF.
  rewrite lc0z mulr0 add0r thE in rise0.
  have lr0p : lr0 i 0 <= 0 by rewrite -(pmulr_rle0 _ Bp) -rise0.
  have o1 : (caph i 0 < lr0 i 0) = false.
    by apply/negbTE; rewrite -leNgt (le_trans lr0p).
  case o2 : (lr0 i 0 < - capc i 0).
    have lrc : lr i 0 = - capc i 0 by rewrite lrE ?o2 // !mxE o2.
    rewrite lrc oppr_le0 capc_ge0; split=> //; rewrite -(pmulr_rle0 _ A0).
    have -> : A * lc i 0 = B * (lr0 i 0 - - capc i 0) by rewrite mulrBr -rise0 rise lrc addrK.
    by rewrite pmulr_rle0 // subr_le0 ltW.
  rewrite same // lr0p; split=> //.
  by rewrite lcE ?mxE // o1 o2 hc nh rcE.
Qed.

End CalcSign.

Section CalcOne.
Variable F : realFieldType.
Variable n : nat.
Variables (brm brl : 'M[F]_n) (i : 'I_n).
Hypothesis uM : brm \in unitmx.
Hypothesis A0 : 0 < invmx brm i i.
Hypothesis B0 : 0 < (invmx brm *m brl) i i.

Lemma glt_one_total k (nt : 'I_n -> bool) ts (c : 'I_n -> bool) lcs (r : 'I_n -> bool) lrs : (forall l, l != i -> [/\ nt l, c l = false & r l = false]) ->
  nt i = ~~ c i && ~~ r i -> c i && r i = false ->
  exists t, get_load_and_temp brm 1%:M brl k nt ts c lcs r lrs = Some t.
Proof.
move=> off ntE crE; rewrite /get_load_and_temp; set x1 := (_ - _ - _).
suff [V ->] : exists V, inv x1 = Some V by eexists.
apply: inj_inv => v; set d := delta_mx i 0 : 'cV[F]_n; set u := emul (ind F nt) v.
have -> : x1 *m v = brm *m u - ((c i)%:R * v i 0) *: d - brl *m (((r i)%:R * v i 0) *: d).
  rewrite /x1 !mulmxBl; congr (_ - _ - _).
  - by apply/matrixP => a b; rewrite !mxE; apply: eq_bigr => l _; rewrite !mxE (ord1 b) mulrA.
  - apply/matrixP => a b; rewrite (ord1 b) !mxE (bigD1 a) //= big1 ?addr0 => [|l nl].
      rewrite !mxE eqxx mul1r; case: (eqVneq a i) => [->|/off[_ -> _]]; first by rewrite mulr1.
      by rewrite mulr0 mul0r.
    by rewrite !mxE eq_sym (negbTE nl) !mul0r.
  apply/matrixP => a b; rewrite (ord1 b) !mxE; apply: eq_bigr => l _; rewrite !mxE.
  case: (eqVneq l i) => [->|/off[_ _ ->]]; first by rewrite eqxx mulr1 mulrA.
  by rewrite !mulr0 mul0r.
move=> E; have {}E : u = invmx brm *m ((c i)%:R * v i 0 *: d) + invmx brm *m brl *m ((r i)%:R * v i 0 *: d).
  rewrite -mulmxA -mulmxDr; apply: (can_inj (mulKmx uM)); rewrite mulKVmx //.
  by apply/eqP; rewrite -subr_eq0 opprD addrA E.
have z (a : F) : u i 0 = 0 -> 0 < a -> a * v i 0 = 0 -> v i 0 = 0.
  by move=> _ a0 /eqP; rewrite mulf_eq0 gt_eqF // => /eqP.
have col (M : 'M[F]_n) (a : F) : (M *m (a *: d)) i 0 = M i i * a.
  rewrite mxE (bigD1 i) //= big1 ?addr0 => [|l nl]; first by rewrite !mxE !eqxx mulr1.
  by rewrite !mxE (negbTE nl) !mulr0.
have Ei := congr1 (fun w : 'cV_n => w i 0) E; rewrite /= addE !col in Ei.
have uE l : u l 0 = (nt l)%:R * v l 0 by rewrite /u emulE mxE.
have [vi0|ri] : v i 0 = 0 \/ nt i.
  case: (c i) (r i) ntE crE Ei => [] [] //= ntE _; rewrite uE ntE ?mul0r ?mul1r ?mulr0 ?addr0 ?add0r => Ei; last by right.
    by left; apply: z A0 (esym Ei); rewrite uE ntE mul0r.
  by left; apply: z B0 (esym Ei); rewrite uE ntE mul0r.
  apply/matrixP => l b; rewrite (ord1 b) [RHS]mxE; case: (eqVneq l i) => [->//|nl].
  move: E; rewrite vi0 !mulr0 scale0r !mulmx0 addr0 => /(congr1 (fun w : 'cV_n => w l 0)).
  by rewrite /= uE [RHS]mxE; have [-> _ _] := off _ nl; rewrite mul1r.
have [ci ri'] : c i = false /\ r i = false by move: ri; rewrite ntE; case: (c i) (r i) => [] [].
move: E; rewrite ci ri' !mul0r scale0r !mulmx0 addr0 => u0.
apply/matrixP => l b; rewrite (ord1 b) [RHS]mxE; move/(congr1 (fun w : 'cV_n => w l 0)): u0.
rewrite /= uE [RHS]mxE; case: (eqVneq l i) => [->|/off[-> _ _]]; by rewrite ?ri mul1r.
Qed.

Lemma calc_one_total rh rc brc lo up (caph capc : 'cV[F]_n) om ac :
  (forall k, k != i -> om k <> HEATING /\ om k <> COOLING) ->
  (forall i, 0 <= caph i 0) -> (forall i, 0 <= capc i 0) ->
  exists t, calc_next_temp_and_load rh rc brc brm brl lo up caph capc om ac = Some t.
Proof.
move=> one caph0 capc0; rewrite /calc_next_temp_and_load /inv uM -/(inv _).
set ih := fun i => mode_eqb (om i) HEATING && _; set ic := fun i => mode_eqb (om i) COOLING && _.
set nt := fun i => ~~ _ && _.
set c := fun i => _ || _; set r := fun i => _ || _.
have hcE l : ih l -> ic l = false by rewrite /ih /ic; case: (om l).
have off l : l != i -> [/\ nt l, c l = false & r l = false].
  move=> /one[h1 h2]; rewrite /nt /c /r /ih /ic; case: (om l) h1 h2 => //; by [move=> [] | move=> _ []].
have ntE l : nt l = ~~ c l && ~~ r l.
  rewrite /nt /c /r -/(ih l) -/(ic l); case: (rh l) (rc l) => [] []; by case: (ih l) (ic l) => [] [].
have crE l : c l && r l = false.
  rewrite /c /r -/(ih l) -/(ic l); have := hcE l.
  by case: (ih l) (ic l) (rh l) (rc l) => [] [] [] [] // /(_ isT).
set ts := vwhere ic _ _.
have [[[t0 l0] lr0] E1] := glt_one_total brc ts 0 0 off (ntE i) (crE i); rewrite E1.
have lr0E l : ~~ r l -> lr0 l 0 = 0.
  by move=> rl; have [_ [_ ->]] := glt_theta_set E1 l; rewrite ?mxE.
have ov l : (caph l 0 < lr0 l 0) -> r l.
  by move=> o; apply/negPn/negP => /lr0E e; move: o; rewrite e ltNge caph0.
have un l : (lr0 l 0 < - capc l 0) -> r l.
  by move=> o; apply/negPn/negP => /lr0E e; move: o; rewrite e ltNge oppr_le0 capc0.
apply: glt_one_total; rewrite -?/(nt i) -?/(c i) -?/(r i).
- move=> l /off[n' c' r']; rewrite -/(nt l) -/(c l) -/(r l) n' c' r'; move: (ov l) (un l); rewrite r'.
  by case: (_ < lr0 l 0) (lr0 l 0 < _) => [] [] H1 H2 //; [move: (H1 isT)| move: (H1 isT) | move: (H2 isT)].
- rewrite ntE; move: (ov i) (un i).
  case: (_ < lr0 i 0) (lr0 i 0 < _) (r i) (c i) => [] [] [] [] //= H1 H2;
    by [move: (H1 isT) | move: (H2 isT)].
by move: (crE i); case: (_ < lr0 i 0) (lr0 i 0 < _) (r i) (c i) => [] [] [] [].
Qed.
End CalcOne.

Section TickSign.
Variable F : realFieldType.
Variables ni nj nm : nat.
Add Field Ffield : (ffield_theory F).
Ltac fring := ffold F; ring.

Variables (dt : F) (h : house F ni nj nm) (q : pp F ni nj).
Hypothesis Hb : physical_boundaries h.
Hypothesis Hr : physical_rooms dt h.
Hypothesis Hq : make_pp h dt = Some q.

Section Radiant.
Hypothesis Hrad : physical_radiant h.

Lemma flb_ge0 j i : 0 <= flb h j i.
Proof.
have s0 a b : 0 <= rmul (flr_js_is h) (ssub 1 (beta h)) a b.
  have /andP[_ /ltW b1] := ph_beta Hrad b.
  by rewrite !mxE !mulr_ge0 ?ler0n ?(ph_flr Hrad) // subr_ge0.
rewrite flbE addr_ge0 // !mulr_ge0 ?s0 ?ph_phi_a0 ?ph_phi_t0 ?invr_ge0 //;
  try by apply/ltW; rewrite ?ph_area ?hi_gt0.
rewrite k_eiE; case E: (k_ei h j) => [[m coef]|] //.
by rewrite mulr_ge0 ?s0 //; have [] := ph_k Hb E.
Qed.

Lemma wsb_ge0 j i : 0 <= wsb q j i.
Proof.
by have [_ _ -> _ _] := ppE Hq; apply: (sdd_z_sol (ax_sdd Hb) (ax_z Hb) (inv_ax Hq)) => ? ?; exact: flb_ge0.
Qed.

Lemma brl_ge0 k i : 0 <= brl q k i.
Proof.
have [_ _ _ -> _] := ppE Hq; rewrite addE p_isE vdiagE addr_ge0 //.
  by apply: sumr_ge0 => j _; rewrite !cmulE !mulr_ge0 ?wsb_ge0 // ltW // ?ph_area ?ph_hc.
by case: ifP => // _; have /andP[] := ph_beta Hrad k.
Qed.

Lemma brl_gt0 i : 0 < brl q i i.
Proof.
have [_ _ _ -> _] := ppE Hq; rewrite addE p_isE vdiagE eqxx.
have /andP[b0 b1] := ph_beta Hrad i; apply: ltr_paddr => //.
have [j [ji f1 p1]] := ph_flr_ex Hrad i.
have all k : 0 <= cmul (a_srf h) (cmul (h_c h) (wsb q)) k i.
  by rewrite !cmulE !mulr_ge0 ?wsb_ge0 // ltW // ?ph_area ?ph_hc.
rewrite (bigD1 j) /=; last by rewrite ji.
apply: ltr_paddr; first by apply: sumr_ge0.
rewrite !cmulE !mulr_gt0 ?ph_area ?ph_hc //.
have [_ _ -> _ _] := ppE Hq; rewrite mxE (bigD1 j) //=.
apply: ltr_paddr; first by apply: sumr_ge0 => k _; rewrite mulr_ge0 ?(ivs_ge0 Hb Hq) ?flb_ge0.
rewrite mulr_gt0 //; first exact: (sdd_z_diag _ (ax_sdd Hb) (ax_z Hb) (inv_ax Hq)).
rewrite flbE; apply: ltr_paddr.
  rewrite !mulr_ge0 ?ph_phi_t0 ?invr_ge0 //; try by apply/ltW; rewrite ?ph_area ?hi_gt0.
  rewrite k_eiE; case E: (k_ei h j) => [[m coef]|] //; rewrite mulr_ge0 //; first by have [] := ph_k Hb E.
  by rewrite !mxE !mulr_ge0 ?ler0n ?(ph_flr Hrad) // subr_ge0 ltW.
rewrite mulr_gt0 ?divr_gt0 ?ph_area // !mxE ji eqxx mulr1 mulr_gt0 // subr_gt0 //.
Qed.
End Radiant.

(* what a unit of convective or of radiant heat in a room adds to its operative temperature *)
Lemma one_room_gt0 i (hc hr : 'cV[F]_ni) (Y xot : 'M[F]_ni) : physical_radiant h -> physical_hum h ->
  (forall k, 0 <= hr k 0) -> (forall k, hr k 0 < hc k 0) -> sdd Y -> zmx Y ->
  inv (vdiag (ediv hc (hc + hr)) + cmul (ediv hr (hc + hr)) (f_mrt_hum_is_js h *m wsr q)) = Some xot ->
  0 < invmx (Y *m xot) i i /\
  0 < (invmx (Y *m xot) *m (brl q + Y *m (xot *m cmul (ediv hr (hc + hr)) (f_mrt_hum_is_js h *m wsb q)))) i i.
Proof.
move=> Hrad Hh hr_ge0' hr_hc' sY zY xotE.
have [Yi YiE] := sdd_inv sY.
have [YY1 YY2] := inv_mulV YiE.
set X := vdiag _ + _ in xotE.
have [XX1 XX2] := inv_mulV xotE.
have uM : Y *m xot \in unitmx.
  by rewrite unitmx_mul sdd_unit //=; have [uX ->] := invP xotE; rewrite unitmx_inv.
have MiE : invmx (Y *m xot) = X *m Yi.
  have e : (X *m Yi) *m (Y *m xot) = 1%:M by rewrite mulmxA -(mulmxA X) YY2 mulmx1 XX1.
  by rewrite -[LHS]mul1mx -e mulmxK.
have sum_gt0 k : 0 < hc k 0 + hr k 0 by rewrite ltr_paddr // (le_lt_trans (hr_ge0' k)).
have kr0 k : 0 <= ediv hr (hc + hr) k 0 by rewrite mxE addE divr_ge0 // ltW.
have fw0 k l : 0 <= (f_mrt_hum_is_js h *m wsr q) k l.
  rewrite mxE; apply: sumr_ge0 => j _; rewrite mulr_ge0 ?(wsr_ge0 Hb Hq) //.
  by rewrite !mxE mulr_ge0 ?ler0n ?(ph_fh Hh).
have X0 k l : 0 <= X k l.
  rewrite /X addE vdiagE cmulE addr_ge0 ?mulr_ge0 //; case: ifP => // _.
  by rewrite mxE addE divr_ge0 // ltW // (le_lt_trans (hr_ge0' k)).
have Xd k : 0 < X k k.
  rewrite /X addE vdiagE eqxx cmulE ltr_paddr ?mulr_ge0 //.
  by rewrite mxE addE divr_gt0 // (le_lt_trans (hr_ge0' k)).
have Yi0 := sdd_z_pos sY zY YiE.
have Yid k : 0 < Yi k k by exact: (sdd_z_diag _ sY zY YiE).
split.
  rewrite MiE mxE (bigD1 i) //=; apply: ltr_paddr; first by apply: sumr_ge0 => k _; rewrite mulr_ge0.
  by rewrite mulr_gt0.
rewrite MiE mulmxDr [Y *m (_ *m _)]mulmxA [X *m Yi *m (_ *m _)]mulmxA.
have -> : X *m Yi *m (Y *m xot) = 1%:M by rewrite mulmxA -(mulmxA X) YY2 mulmx1 XX1.
rewrite mul1mx addE; apply: ltr_paddr.
  rewrite cmulE mulr_ge0 // mxE; apply: sumr_ge0 => j _; rewrite mulr_ge0 ?(wsb_ge0 Hrad) //.
  by rewrite !mxE mulr_ge0 ?ler0n ?(ph_fh Hh).
rewrite mxE (bigD1 i) //=; apply: ltr_paddr.
  apply: sumr_ge0 => k _; rewrite mulr_ge0 ?(brl_ge0 Hrad) // mxE; apply: sumr_ge0 => l _.
  by rewrite mulr_ge0.
rewrite mulr_gt0 ?(brl_gt0 Hrad) // mxE (bigD1 i) //=; apply: ltr_paddr.
  by apply: sumr_ge0 => k _; rewrite mulr_ge0.
by rewrite mulr_gt0.
Qed.

Section Step.
Variable ot : ot_fun F ni.
Variable infil : infil_fun F ni.
Variable x_sat : F -> F.
Variables (s : step_data F ni nj) (c c' : conditions F ni nj nm) (o : outputs F ni nj).
Hypothesis Ht : run_tick ot infil x_sat dt h q s c = Some (c', o).
Hypothesis caph : forall i, 0 <= cap_h h i 0.
Hypothesis capc : forall i, 0 <= cap_c h i 0.
Hypothesis Hh : physical_hum h.
Hypothesis v_ge0 : forall i, 0 <= o_v_leak o i 0 + (v_vent_ex h i 0 + v_mec_local s i 0) + o_v_ntrl o i 0.
Hypothesis no_int : forall i k, i != k -> v_int h i k = 0.
Hypothesis hr_ge0 : forall i, 0 <= o_h_hum_r o i 0.
Hypothesis hr_hc : forall i, o_h_hum_r o i 0 < o_h_hum_c o i 0.

Lemma tick_sign i : 0 <= ac_demand s i 0 ->
  (forall k, k != i -> operation_mode c' k <> HEATING /\ operation_mode c' k <> COOLING) ->
  (is_rad_h h i || is_rad_c h i -> physical_radiant h) ->
  (operation_mode c' i = HEATING -> 0 <= o_l_cs o i 0 /\ 0 <= o_l_rs o i 0) /\
  (operation_mode c' i = COOLING -> o_l_cs o i 0 <= 0 /\ o_l_rs o i 0 <= 0).
Proof.
move=> a0 one rad.
have [c0 [o0 [brc_ot [xot [hc [hr [md [lo [up /= [H1 [otE mdE] xotE tnE H5]]]]]]]]]] :=
  natural_step Ht caph capc.
have [hcE hrE] : o_h_hum_c o = hc /\ o_h_hum_r o = hr.
  case: (run_tickP Ht) => md' lo' up' ? ? ? ? ? ? ? ? ? ? ? ? ? ? ? ?.
  by rewrite otE => -[<- <-].
have hr_hc' k : hr k 0 < hc k 0 by rewrite -hcE -hrE.
have hr_ge0' k : 0 <= hr k 0 by rewrite -hrE.
rewrite mdE in one *.
have one' k : k != i -> ~~ heats lo md (o_theta_ot o0) k /\ ~~ cools up md (o_theta_ot o0) k.
  by move=> /one; rewrite /heats /cools; case: (md k) => -[].
set v_out := (o_v_leak o + v_mec h s + o_v_ntrl o) in tnE H5.
have v0 k : 0 <= v_out k 0 by rewrite /v_out /v_mec !addE.
set Y := brm_non_vent q + _ in tnE H5.
have sY : sdd Y by exact: (brm_sdd Hb Hr Hq v0).
have zY : zmx Y by exact: (brm_z Hb Hq).
have [Yi YiE] := sdd_inv sY.
have [YY1 YY2] := inv_mulV YiE.
set X := vdiag _ + _ in xotE.
have [XX1 XX2] := inv_mulV xotE.
have uM := calc_unit H5.
have MiE : invmx (Y *m xot) = X *m Yi.
  have e : (X *m Yi) *m (Y *m xot) = 1%:M by rewrite mulmxA -(mulmxA X) YY2 mulmx1 XX1.
  by rewrite -[LHS]mul1mx -e mulmxK.
have sum_gt0 k : 0 < hc k 0 + hr k 0 by rewrite ltr_paddr // (le_lt_trans (hr_ge0' k)).
have kr0 k : 0 <= ediv hr (hc + hr) k 0 by rewrite mxE addE divr_ge0 // ltW.
have fw0 k l : 0 <= (f_mrt_hum_is_js h *m wsr q) k l.
  rewrite mxE; apply: sumr_ge0 => j _; rewrite mulr_ge0 ?(wsr_ge0 Hb Hq) //.
  by rewrite !mxE mulr_ge0 ?ler0n ?(ph_fh Hh).
have X0 k l : 0 <= X k l.
  rewrite /X addE vdiagE cmulE addr_ge0 ?mulr_ge0 //; case: ifP => // _.
  by rewrite mxE addE divr_ge0 // ltW // (le_lt_trans (hr_ge0' k)).
have Xd k : 0 < X k k.
  rewrite /X addE vdiagE eqxx cmulE ltr_paddr ?mulr_ge0 //.
  by rewrite mxE addE divr_gt0 // (le_lt_trans (hr_ge0' k)).
have Yi0 := sdd_z_pos sY zY YiE.
have Yid k : 0 < Yi k k by exact: (sdd_z_diag _ sY zY YiE).
have A0 : 0 < invmx (Y *m xot) i i.
  rewrite MiE mxE (bigD1 i) //=; apply: ltr_paddr; first by apply: sumr_ge0 => k _; rewrite mulr_ge0.
  by rewrite mulr_gt0.
have B0 : (heats lo md (o_theta_ot o0) i && is_rad_h h i)
   || (cools up md (o_theta_ot o0) i && is_rad_c h i) -> 
   0 < (invmx (Y *m xot) *m (brl q + Y *m (xot *m cmul (ediv hr (hc + hr)) (f_mrt_hum_is_js h *m wsb q)))) i i.
  move=> rr; have Hrad : physical_radiant h.
    by apply: rad; case/orP: rr => /andP[_ ->]; rewrite ?orbT.
  rewrite MiE mulmxDr [Y *m (_ *m _)]mulmxA [X *m Yi *m (_ *m _)]mulmxA.
  have -> : X *m Yi *m (Y *m xot) = 1%:M by rewrite mulmxA -(mulmxA X) YY2 mulmx1 XX1.
  rewrite mul1mx addE; apply: ltr_paddr.
    rewrite cmulE mulr_ge0 // mxE; apply: sumr_ge0 => j _; rewrite mulr_ge0 ?(wsb_ge0 Hrad) //.
    by rewrite !mxE mulr_ge0 ?ler0n ?(ph_fh Hh).
  rewrite mxE (bigD1 i) //=; apply: ltr_paddr.
    apply: sumr_ge0 => k _; rewrite mulr_ge0 ?(brl_ge0 Hrad) // mxE; apply: sumr_ge0 => l _.
    by rewrite mulr_ge0.
  rewrite mulr_gt0 ?(brl_gt0 Hrad) // mxE (bigD1 i) //=; apply: ltr_paddr.
    by apply: sumr_ge0 => k _; rewrite mulr_ge0.
  by rewrite mulr_gt0.
have [S1 S2] := calc_sign H5 caph capc tnE one' A0 B0 a0.
split=> mE.
  case hh: (heats lo md (o_theta_ot o0) i); first exact: S1.
  have cc : cools up md (o_theta_ot o0) i = false by rewrite /cools mE.
  by have [-> ->] := calc_off H5 caph capc tnE (negbT hh) (negbT cc).
case hh: (cools up md (o_theta_ot o0) i); first exact: S2.
have cc : heats lo md (o_theta_ot o0) i = false by rewrite /heats mE.
by have [-> ->] := calc_off H5 caph capc tnE (negbT cc) (negbT hh).
Qed.

End Step.

(* the step completes when radiant equipment is used in one room and no other room is conditioned *)
Section Total.
Variables (ot : ot_fun F ni) (infil : infil_fun F ni) (x_sat : F -> F).
Variables (s : step_data F ni nj) (c : conditions F ni nj nm).
Hypothesis Hh : physical_hum h.
Hypothesis Ha : physical_air h s.
Hypothesis infil_ge0 : forall tr to i, 0 <= infil tr to i 0.
Hypothesis no_int : forall i k, i != k -> v_int h i k = 0.
Hypothesis Hrad : physical_radiant h.
Hypothesis caph : forall i, 0 <= cap_h h i 0.
Hypothesis capc : forall i, 0 <= cap_c h i 0.
Variables (hc hr lo up : 'cV[F]_ni) (md : 'I_ni -> mode).
Hypothesis otE : ot (x_r c) (operation_mode c) (theta_r c) (theta_mrt_hum c) (ac_demand s) = Some (hc, hr, md, lo, up).
Hypothesis hr_ge0 : forall i, 0 <= hr i 0.
Hypothesis hr_hc : forall i, hr i 0 < hc i 0.

Lemma tick_total_one i : (forall k, k != i -> md k <> HEATING /\ md k <> COOLING) ->
  exists r, run_tick ot infil x_sat dt h q s c = Some r.
Proof.
move=> one; apply: (tick_total_gen Hb Hr Hq x_sat Hh Ha infil_ge0 otE hr_ge0 hr_hc) => v_out xot brc kr' v0 Y xotE krE.
have sY : sdd Y by exact: (brm_sdd Hb Hr Hq v0).
have zY : zmx Y by exact: (brm_z Hb Hq).
have uM : Y *m xot \in unitmx.
  by rewrite unitmx_mul sdd_unit //=; have [uX ->] := invP xotE; rewrite unitmx_inv.
have [A0 B0] := one_room_gt0 i Hrad Hh hr_ge0 hr_hc sY zY xotE.
by rewrite -krE in B0; apply: (calc_one_total uM A0 B0).
Qed.
End Total.
End TickSign.
