From mathcomp Require Import all_ssreflect ssralg ssrnum zmodp matrix.
From Coq Require Import Ring Field.
From Verif Require Import Lemmas.FieldTac Model.OperationMode Model.Numpy Model.PreCalc Model.Tick Model.Ground
  Spec.GroundSpec.
Set Implicit Arguments. Unset Strict Implicit. Unset Printing Implicit Defensive.
Import Order.TTheory GRing.Theory Num.Theory.
Local Open Scope ring_scope.

Section GroundL.
Variable F : realFieldType.
Add Field Ffield : (ffield_theory F).
Ltac fring := ffold F; ring.
Ltac ffield := ffold F; field.
Variable nm : nat.
Variable g : ground F nm.

Let k := hi g / (1 + phi0 g * hi g).

(* heat flow after a step in terms of the new response terms *)
Lemma advance_q td to s : 1 + phi0 g * hi g != 0 ->
  (advance g td to s).2 = k * (to - td - \sum_m (advance g td to s).1 0 m).
Proof.
rewrite /advance /surface /k /=; move: (\sum_m _) => S /eqP hne; ffield; exact: hne.
Qed.

Definition wdot (x y : 'rV[F]_nm) : F := \sum_m x 0 m * y 0 m / phi1 g 0 m.
Definition gmap (x : 'rV[F]_nm) : 'rV[F]_nm := \row_m (ratio g 0 m * x 0 m - k * phi1 g 0 m * \sum_l x 0 l).

Lemma wdotC x y : wdot x y = wdot y x.
Proof. by apply: eq_bigr => m _; rewrite [x 0 m * _]mulrC. Qed.
Lemma wdotDl x y z : wdot (x + y) z = wdot x z + wdot y z.
Proof. by rewrite /wdot -big_split; apply: eq_bigr => m _; rewrite mxE !mulrDl. Qed.
Lemma wdotZl a x z : wdot (a *: x) z = a * wdot x z.
Proof. by rewrite /wdot big_distrr; apply: eq_bigr => m _ /=; rewrite mxE !mulrA. Qed.
Lemma wdotDr x y z : wdot z (x + y) = wdot z x + wdot z y.
Proof. by rewrite !(wdotC z) wdotDl. Qed.
Lemma wdotZr a x z : wdot z (a *: x) = a * wdot z x.
Proof. by rewrite !(wdotC z) wdotZl. Qed.
Lemma wdotNl x z : wdot (- x) z = - wdot x z.
Proof. by rewrite -scaleN1r wdotZl mulN1r. Qed.
Lemma wdotNr x z : wdot z (- x) = - wdot z x.
Proof. by rewrite !(wdotC z) wdotNl. Qed.

Lemma gmapD x y : gmap (x + y) = gmap x + gmap y.
Proof.
apply/rowP => m; rewrite !mxE.
have -> : \sum_l (x + y) 0 l = \sum_l x 0 l + \sum_l y 0 l by rewrite -big_split; apply: eq_bigr => l _; rewrite mxE.
by fring.
Qed.
Lemma gmapZ a x : gmap (a *: x) = a *: gmap x.
Proof.
apply/rowP => m; rewrite !mxE.
have -> : \sum_l (a *: x) 0 l = a * \sum_l x 0 l by rewrite big_distrr; apply: eq_bigr => l _; rewrite mxE.
by fring.
Qed.
Lemma gmapN x : gmap (- x) = - gmap x.
Proof. by rewrite -scaleN1r gmapZ scaleN1r. Qed.

Section Damped.
Variable rho : F.
Hypothesis D : damped rho g.

Lemma den_gt0 : 0 < 1 + phi0 g * hi g.
Proof. by rewrite ltr_spaddl ?ltr01 // mulr_ge0 ?(da_phi0 D) // ltW // (da_hi D). Qed.
Lemma k_gt0 : 0 < k. Proof. by rewrite divr_gt0 ?(da_hi D) ?den_gt0. Qed.
Lemma rho_gt0 : 0 < rho. Proof. by have /andP[] := da_rho D. Qed.
Lemma phi1_neq0 m : phi1 g 0 m != 0. Proof. by rewrite gt_eqF ?(da_phi1 D). Qed.
Lemma k_total : k * (\sum_m phi1 g 0 m) <= rho.
Proof. by rewrite /k mulrAC ler_pdivr_mulr ?den_gt0 ?(da_total D). Qed.

Lemma gmap_wdot x y : wdot (gmap x) y = \sum_m ratio g 0 m * x 0 m * y 0 m / phi1 g 0 m - k * (\sum_l x 0 l) * \sum_l y 0 l.
Proof.
rewrite /wdot [X in _ = _ - X]big_distrr -sumrB; apply: eq_bigr => m _; rewrite mxE /=.
have /eqP h := phi1_neq0 m; move: (\sum_l _) => S; ffield; exact: h.
Qed.

Lemma gmap_sym x y : wdot (gmap x) y = wdot x (gmap y).
Proof.
rewrite [RHS]wdotC !gmap_wdot; congr (_ - _); first by apply: eq_bigr => m _; congr (_ / _); rewrite mulrAC.
by rewrite mulrAC.
Qed.

Lemma wdot_ge0 x : 0 <= wdot x x.
Proof. by apply: sumr_ge0 => m _; rewrite divr_ge0 -?expr2 ?sqr_ge0 // ltW // (da_phi1 D). Qed.

(* Cauchy-Schwarz *)
Lemma sum_sq (x : 'rV[F]_nm) : (\sum_m x 0 m) ^+ 2 <= (\sum_m phi1 g 0 m) * wdot x x.
Proof.
set S := \sum_m _; set P := \sum_m _.
case: (posnP nm) => [z|n0].
  have e (m : 'I_nm) : False by have := ltn_ord m; rewrite {2}z.
  have -> : S = 0 by apply: big1 => m _; case: (e m).
  by rewrite expr0n /= mulr_ge0 ?wdot_ge0 // sumr_ge0 // => m _; rewrite ltW ?(da_phi1 D).
have P0 : 0 < P.
  rewrite /P (bigD1 (Ordinal n0)) //=; rewrite ltr_spaddl ?(da_phi1 D) // sumr_ge0 // => m _.
  by rewrite ltW ?(da_phi1 D).
have : 0 <= wdot (P *: x - S *: phi1 g) (P *: x - S *: phi1 g) by exact: wdot_ge0.
rewrite !(wdotDl, wdotDr, wdotNl, wdotNr, wdotZl, wdotZr).
have -> : wdot x (phi1 g) = S by apply: eq_bigr => m _; rewrite mulfK // phi1_neq0.
have -> : wdot (phi1 g) x = S by rewrite wdotC; apply: eq_bigr => m _; rewrite mulfK // phi1_neq0.
have -> : wdot (phi1 g) (phi1 g) = P by apply: eq_bigr => m _; rewrite mulfK // phi1_neq0.
move: (wdot x x) => W H; rewrite -subr_ge0 -(pmulr_rge0 _ P0); apply: le_trans H _.
clearbody S P; rewrite expr2 le_eqVlt; apply/orP; left; apply/eqP; fring.
Qed.

Lemma quad_minus (x : 'rV[F]_nm) : 0 <= wdot (rho *: x - gmap x) x.
Proof.
rewrite wdotDl wdotNl wdotZl gmap_wdot opprB addrCA addr_ge0 //.
  by rewrite -mulrA mulr_ge0 // -?expr2 ?sqr_ge0 // ltW // k_gt0.
rewrite /wdot big_distrr -sumrB sumr_ge0 // => m _ /=.
have -> : rho * (x 0 m * x 0 m / phi1 g 0 m) - ratio g 0 m * x 0 m * x 0 m / phi1 g 0 m
   = (rho - ratio g 0 m) * (x 0 m ^+ 2 / phi1 g 0 m) by rewrite expr2; fring.
have /andP[_ h] := da_ratio D m.
by rewrite mulr_ge0 ?subr_ge0 // divr_ge0 ?sqr_ge0 // ltW // (da_phi1 D).
Qed.

Lemma quad_plus (x : 'rV[F]_nm) : 0 <= wdot (rho *: x + gmap x) x.
Proof.
rewrite wdotDl wdotZl gmap_wdot addrCA addr_ge0 //.
  apply: sumr_ge0 => m _; have /andP[h _] := da_ratio D m.
  by rewrite -!mulrA mulr_ge0 // mulrA divr_ge0 -?expr2 ?sqr_ge0 // ltW // (da_phi1 D).
rewrite subr_ge0 -mulrA -expr2; apply: le_trans (ler_wpmul2l (ltW k_gt0) (sum_sq x)) _.
by rewrite mulrA ler_wpmul2r ?wdot_ge0 ?k_total.
Qed.

Lemma gmap_contracts x : wdot (gmap x) (gmap x) <= rho ^+ 2 * wdot x x.
Proof.
have H1 := quad_plus (rho *: x - gmap x); have H2 := quad_minus (rho *: x + gmap x).
have H := addr_ge0 H1 H2; rewrite -subr_ge0 -(pmulr_rge0 _ rho_gt0) -(pmulr_rge0 (rho * _) (ltr0Sn F 1)).
apply: le_trans H _; rewrite le_eqVlt; apply/orP; left; apply/eqP.
rewrite !(gmapD, gmapN, gmapZ) !(wdotDl, wdotDr, wdotNl, wdotNr, wdotZl, wdotZr).
rewrite !(gmap_sym (gmap x)) !(gmap_sym x).
move: (wdot x x) (wdot x (gmap x)) (wdot x (gmap (gmap x))) (wdot x (gmap (gmap (gmap x)))) => a b c d.
rewrite !expr2; fring.
Qed.

Lemma energyE x : energy g x = wdot x x.
Proof. by apply: eq_bigr => m _; rewrite expr2. Qed.

(* the difference of two histories under the same weather *)
Lemma advance_diff td to1 to2 s s' : 1 + phi0 g * hi g != 0 ->
  let a := advance g td to1 s in let b := advance g td to1 s' in
  (advance g td to2 a).1 - (advance g td to2 b).1 = gmap (a.1 - b.1).
Proof.
move=> h a b; have ha : a.2 = _ := advance_q td to1 s h; have hb : b.2 = _ := advance_q td to1 s' h.
rewrite -/a in ha; rewrite -/b in hb; clearbody a b.
apply/rowP => m; rewrite /advance /= !mxE ha hb.
have -> : \sum_l (a.1 - b.1) 0 l = \sum_l a.1 0 l - \sum_l b.1 0 l by rewrite -sumrB; apply: eq_bigr => l _; rewrite !mxE.
by move: (\sum_l a.1 0 l) (\sum_l b.1 0 l) => A B; fring.
Qed.

Lemma advances_contract td to s s' tos :
  let a := advance g td to s in let b := advance g td to s' in
  energy g ((advances g td tos a).1 - (advances g td tos b).1) <= (rho ^+ 2) ^+ size tos * energy g (a.1 - b.1).
Proof.
elim: tos to s s' => [|t tos IH] to s s' /=; first by rewrite expr0 mul1r.
apply: le_trans (IH t _ _) _; rewrite advance_diff ?(gt_eqF den_gt0) // !energyE [X in _ <= X * _]exprSr -[X in _ <= X]mulrA.
by rewrite ler_wpmul2l ?gmap_contracts // exprn_ge0 ?sqr_ge0.
Qed.

Lemma advances_last td to s tos : exists t r, advances g td tos (advance g td to s) = advance g td t r.
Proof. by elim: tos to s => [|t tos IH] to s /=; [exists to, s | exact: IH]. Qed.

Lemma advances_same_last td to s s' tos : exists t r r',
  advances g td tos (advance g td to s) = advance g td t r /\ advances g td tos (advance g td to s') = advance g td t r'.
Proof. by elim: tos to s s' => [|t tos IH] to s s' /=; [exists to, s, s' | exact: IH]. Qed.

(* and of the heat flows *)
Lemma advances_flow td to s s' tos :
  let a := advance g td to s in let b := advance g td to s' in
  ((advances g td tos a).2 - (advances g td tos b).2) ^+ 2
    <= hi g * rho * energy g ((advances g td tos a).1 - (advances g td tos b).1).
Proof.
cbv zeta; have [t [r [r' [ea eb]]]] := advances_same_last td to s s' tos.
rewrite ea eb !advance_q ?(gt_eqF den_gt0) // energyE.
set x := (advance g td t r).1; set y := (advance g td t r').1.
have -> : k * (t - td - \sum_m x 0 m) - k * (t - td - \sum_m y 0 m) = - k * \sum_m (x - y) 0 m.
  have -> : \sum_m (x - y) 0 m = \sum_m x 0 m - \sum_m y 0 m by rewrite -sumrB; apply: eq_bigr => l _; rewrite !mxE.
  by fring.
rewrite exprMn sqrrN; apply: le_trans (ler_wpmul2l (sqr_ge0 _) (sum_sq _)) _.
rewrite mulrA ler_wpmul2r ?wdot_ge0 // expr2 -mulrA.
apply: ler_pmul; rewrite ?(ltW k_gt0) ?k_total //.
  by rewrite mulr_ge0 ?(ltW k_gt0) // sumr_ge0 // => m _; rewrite ltW ?(da_phi1 D).
rewrite /k ler_pdivr_mulr ?den_gt0 // ler_pmulr ?(da_hi D) // ler_addl mulr_ge0 ?(da_phi0 D) //.
by rewrite ltW ?(da_hi D).
Qed.
End Damped.

(* the steady state *)
Section Steady.
Hypothesis hi0 : 0 <= hi g.
Hypothesis p0 : 0 <= phi0 g.
Hypothesis p1 : forall m, 0 <= phi1 g 0 m.
Hypothesis r1 : forall m, ratio g 0 m < 1.

Let den : 0 < 1 + phi0 g * hi g.
Proof. by rewrite ltr_spaddl ?ltr01 // mulr_ge0. Qed.
Let k0 : 0 <= k. Proof. by rewrite divr_ge0 // ltW. Qed.
Let total := \sum_m phi1 g 0 m / (1 - ratio g 0 m).
Let total_ge0 : 0 <= total.
Proof. by apply: sumr_ge0 => m _; rewrite divr_ge0 // subr_ge0 ltW. Qed.
Let tden : 0 < 1 + k * total.
Proof. by rewrite ltr_spaddl ?ltr01 // mulr_ge0. Qed.

Lemma fixed_flow td to s : advance g td to s = s -> s.2 = k * (to - td) / (1 + k * total).
Proof.
move=> e; have q := advance_q td to s (negbT (gt_eqF den)); rewrite e in q.
have hd m : s.1 0 m = phi1 g 0 m / (1 - ratio g 0 m) * s.2.
  have : (advance g td to s).1 0 m = s.1 0 m by rewrite e.
  rewrite /advance /= !mxE => h.
  have /eqP hne : 1 - ratio g 0 m != 0 by rewrite subr_eq0 eq_sym lt_eqF.
  apply: (mulfI (introN eqP hne)); rewrite [RHS](_ : _ = phi1 g 0 m * s.2); last by ffield; exact: hne.
  by rewrite mulrBl mul1r -{1}h addrK.
have hs : \sum_m s.1 0 m = total * s.2 by rewrite /total big_distrl; apply: eq_bigr => m _; rewrite hd.
have /eqP hn := negbT (gt_eqF tden); apply: (mulIf (introN eqP hn)); rewrite divfK ?(gt_eqF tden) //.
by rewrite mulrDr mulr1 {1}q hs; move: total => T; fring.
Qed.

Lemma fixed_terms td to s m : advance g td to s = s -> s.1 0 m = phi1 g 0 m / (1 - ratio g 0 m) * s.2.
Proof.
move=> e; have : (advance g td to s).1 0 m = s.1 0 m by rewrite e.
rewrite /advance /= !mxE => h.
have /eqP hne : 1 - ratio g 0 m != 0 by rewrite subr_eq0 eq_sym lt_eqF.
apply: (mulfI (introN eqP hne)); rewrite [RHS](_ : _ = phi1 g 0 m * s.2); last by ffield; exact: hne.
by rewrite mulrBl mul1r -{1}h addrK.
Qed.

Lemma steady_unique td to s s' : advance g td to s = s -> advance g td to s' = s' -> s = s'.
Proof.
move=> e e'; have q := fixed_flow e; have q' := fixed_flow e'.
have t := fun m => fixed_terms m e; have t' := fun m => fixed_terms m e'.
case: s s' q q' t t' {e e'} => [d q] [d' q'] /= -> -> t t'; congr (_, _); apply/rowP => m.
by rewrite t t'.
Qed.

Lemma steady_exists td to : exists s, advance g td to s = s.
Proof.
pose q := k * (to - td) / (1 + k * total); pose d : 'rV[F]_nm := \row_m (phi1 g 0 m / (1 - ratio g 0 m) * q).
have ed : (advance g td to (d, q)).1 = d.
  apply/rowP => m; rewrite /advance /= !mxE.
  have /eqP hne : 1 - ratio g 0 m != 0 by rewrite subr_eq0 eq_sym lt_eqF.
  by clearbody q; ffield; exact: hne.
exists (d, q); rewrite [LHS]surjective_pairing advance_q ?(gt_eqF den) // ed; congr (_, _).
have -> : \sum_m d 0 m = total * q by rewrite /total big_distrl; apply: eq_bigr => m _; rewrite mxE.
rewrite /q; have /eqP hn := negbT (gt_eqF tden); move: total hn => T hn; move: k hn => k1 hn; ffield; exact: hn.
Qed.

Lemma steady_rest td : advance g td td (0, 0) = (0, 0) /\ surface g td td 0 = td.
Proof.
have hS : \sum_(m < nm) (0 : 'rV[F]_nm) 0 m = 0 by apply: big1 => m _; rewrite mxE.
have es : surface g td td 0 = td.
  by rewrite /surface hS addr0 -{2}[td]mul1r -mulrDl addrC mulrAC mulfV ?mul1r // gt_eqF.
split=> //; rewrite /advance /=; set t := (\row_m _).
have -> : t = 0 by apply/rowP => m; rewrite !mxE !mulr0 addr0.
by rewrite es subrr mulr0.
Qed.
End Steady.

Lemma damped_steady rho : damped rho g -> [/\ 0 <= hi g, 0 <= phi0 g, forall m, 0 <= phi1 g 0 m & forall m, ratio g 0 m < 1].
Proof.
move=> D; split; rewrite ?(ltW (da_hi D)) ?(da_phi0 D) // => m; first by rewrite ltW ?(da_phi1 D).
by have /andP[_ h] := da_ratio D m; have /andP[_ h'] := da_rho D; apply: le_lt_trans h h'.
Qed.

(* outdoors at the deep ground temperature: decay from every start state *)
Lemma ground_decays rho td s n : damped rho g ->
  energy g (advances g td (nseq n td) (advance g td td s)).1 <= (rho ^+ 2) ^+ n * energy g (advance g td td s).1.
Proof.
move=> D; have [h1 h2 _ _] := damped_steady D; have [r0 _] := steady_rest h1 h2 td.
have := advances_contract D td td s (0, 0) (nseq n td); rewrite r0 size_nseq; cbv zeta.
have -> : advances g td (nseq n td) (0, 0) = (0, 0) by elim: n => // n IH; rewrite [advances _ _ _ _]/(advances g td (nseq n td) (advance g td td (0, 0))) r0.
by rewrite [(0, 0).1]/(0) !subr0.
Qed.

Lemma ground_flow_decays rho td s n : damped rho g ->
  (advances g td (nseq n td) (advance g td td s)).2 ^+ 2
    <= hi g * rho * energy g (advances g td (nseq n td) (advance g td td s)).1.
Proof.
move=> D; have [h1 h2 _ _] := damped_steady D; have [r0 _] := steady_rest h1 h2 td.
have := advances_flow D td td s (0, 0) (nseq n td); rewrite r0; cbv zeta.
have -> : advances g td (nseq n td) (0, 0) = (0, 0) by elim: n => // n IH; rewrite [advances _ _ _ _]/(advances g td (nseq n td) (advance g td td (0, 0))) r0.
by rewrite [(0, 0).1]/(0) [(0, 0).2]/(0) !subr0.
Qed.
End GroundL.

(* a geometric bound goes to zero *)
Section Geometric.
Variable F : archiFieldType.
Add Field Ffield2 : (ffield_theory F).
Lemma geometric_vanishes (rho a eps : F) :
  0 <= rho < 1 -> 0 <= a -> 0 < eps -> exists N, forall n, (N <= n)%N -> rho ^+ n * a < eps.
Proof.
move=> /andP[r0 r1] a0 e0; have d0 : 0 < 1 - rho by rewrite subr_gt0.
have bern n : rho ^+ n * (1 + n%:R * (1 - rho)) <= 1.
  elim: n => [|n IH]; first by rewrite expr0 mul0r addr0 mulr1.
  apply: le_trans _ IH; rewrite exprSr -mulrA ler_wpmul2l ?exprn_ge0 // -subr_ge0.
  have -> : 1 + n%:R * (1 - rho) - rho * (1 + n.+1%:R * (1 - rho)) = (1 + n%:R) * (1 - rho) * (1 - rho).
    by rewrite -addn1 natrD; move: (n%:R : F) => x; ffold F; ring.
  by apply: mulr_ge0 (ltW d0); apply: mulr_ge0 (ltW d0); rewrite addr_ge0 ?ler01 ?ler0n.
have x0 : 0 <= a / (eps * (1 - rho)) by rewrite divr_ge0 // mulr_ge0 ?ltW.
exists (Num.bound (a / (eps * (1 - rho)))) => n Hn.
have : a / (eps * (1 - rho)) < n%:R by apply: lt_le_trans (archi_boundP x0) _; rewrite ler_nat.
rewrite ltr_pdivr_mulr ?mulr_gt0 // => h.
have p0 : 0 < 1 + n%:R * (1 - rho) by rewrite ltr_spaddl ?ltr01 // mulr_ge0 ?ler0n // ltW.
rewrite -(ltr_pmul2r p0) mulrAC; apply: le_lt_trans (ler_wpmul2r a0 (bern n)) _; rewrite mul1r.
by apply: lt_le_trans h _; rewrite mulrCA [X in _ <= X]mulrDr mulr1 ler_addr ltW.
Qed.
End Geometric.

(* the arrays of the code, boundary by boundary *)
Section Rows.
Variable F : realFieldType.

Lemma ground_tick_row ng nm (p : ground_pp F ng nm) to g k :
  row_state (ground_tick p to g) k = advance (row_ground p k) (g_theta_ave p) to (row_state g k).
Proof.
have e : row k (g_dsh (ground_tick p to g))
  = \row_m (phi1 (row_ground p k) 0 m * (row_state g k).2 + ratio (row_ground p k) 0 m * (row_state g k).1 0 m).
  by apply/rowP => m; rewrite !mxE /= mulrC.
rewrite /advance -e /row_state; congr (_, _); rewrite /= !mxE /surface /=.
by congr (_ * (_ - (_ + _ + _) / _)); apply: eq_bigr => m _; rewrite [RHS]mxE.
Qed.

Variables ni nj nm : nat.
Variable mask : pred 'I_nj.

Lemma make_ground_row (h : house F ni nj nm) ave k :
  row_ground (make_ground mask h ave) k = house_ground h (enum_val k).
Proof.
by rewrite /row_ground /house_ground /= !mxE; congr Ground; apply/rowP => m; rewrite !mxE.
Qed.

Lemma mask_set_in m (a : 'M[F]_(nj, m)) (b : 'M[F]_(#|mask|, m)) j : mask j ->
  exists k, enum_val k = j /\ row j (mask_set a b) = row k b.
Proof.
move=> mj; pose k := enum_rank_in (mj : j \in mask) j; have ek : enum_val k = j by exact: enum_rankK_in.
exists k; split=> //; apply/rowP => l; rewrite !mxE.
case: pickP => [k' /eqP e|/(_ k)]; last by rewrite ek eqxx.
by congr (b _ _); apply: enum_val_inj; rewrite e ek.
Qed.

Lemma mask_set_out m (a : 'M[F]_(nj, m)) (b : 'M[F]_(#|mask|, m)) j l : ~~ mask j -> mask_set a b j l = a j l.
Proof.
move=> mj; rewrite mxE; case: pickP => // k /eqP e; move: (enum_valP k); rewrite e => H.
by move: mj; rewrite -[mask j]/(j \in mask) H.
Qed.

Lemma ground_runs (h : house F ni nj nm) ave tos (g : ground_conditions F #|mask| nm) k :
  row_state (foldl (fun g to => ground_tick (make_ground mask h ave) to g) g tos) k
  = advances (house_ground h (enum_val k)) ave tos (row_state g k).
Proof. by elim: tos g => //= to tos IH g; rewrite IH ground_tick_row make_ground_row. Qed.

Lemma hand_over_in (h : house F ni nj nm) ave tos (c : conditions F ni nj nm) j : mask j ->
  let g := foldl (fun g to => ground_tick (make_ground mask h ave) to g) (ground_init F #|mask| nm) tos in
  let c' := hand_over c g in
  (row j (theta_dsh_a c'), q_srf c' j 0) = advances (house_ground h j) ave tos (0, 0).
Proof.
move=> mj g c'.
have [k [ek er]] := mask_set_in (theta_dsh_a c) (g_dsh g) mj.
have [k' [ek' er']] := mask_set_in (q_srf c) (g_q g) mj.
have ekk : k' = k by apply: enum_val_inj; rewrite ek ek'.
have := ground_runs h ave tos (ground_init F #|mask| nm) k; rewrite ek -/g.
have -> : row_state (ground_init F #|mask| nm) k = (0, 0).
  by rewrite /row_state /= mxE; congr (_, _); apply/rowP => m; rewrite !mxE.
move=> <-; rewrite /row_state /c' /hand_over /= er; congr (_, _).
by have /rowP /(_ 0) := er'; rewrite [row j _ _ _]mxE [row k' _ _ _]mxE ekk => <-.
Qed.
End Rows.

Section Runs.
Variable F : realFieldType.
Variables ng nm : nat.
Variable p : ground_pp F ng nm.
Local Notation run := (foldl (fun g to => ground_tick p to g)).

Lemma run_rows tos g k : row_state (run g tos) k = advances (row_ground p k) (g_theta_ave p) tos (row_state g k).
Proof. by elim: tos g => //= to tos IH g; rewrite IH ground_tick_row. Qed.

Lemma run_contracts rho k to tos g g' : damped rho (row_ground p k) ->
  let a := ground_tick p to g in let b := ground_tick p to g' in
  energy (row_ground p k) (row k (g_dsh (run a tos)) - row k (g_dsh (run b tos)))
    <= (rho ^+ 2) ^+ size tos * energy (row_ground p k) (row k (g_dsh a) - row k (g_dsh b))
  /\ (g_q (run a tos) k 0 - g_q (run b tos) k 0) ^+ 2
    <= hi (row_ground p k) * rho * energy (row_ground p k) (row k (g_dsh (run a tos)) - row k (g_dsh (run b tos))).
Proof.
move=> D; cbv zeta.
have e1 := run_rows tos (ground_tick p to g) k; have e2 := run_rows tos (ground_tick p to g') k.
rewrite !ground_tick_row in e1 e2.
have f1 := ground_tick_row p to g k; have f2 := ground_tick_row p to g' k.
have := advances_contract D (g_theta_ave p) to (row_state g k) (row_state g' k) tos.
have := advances_flow D (g_theta_ave p) to (row_state g k) (row_state g' k) tos.
by cbv zeta; rewrite -e1 -e2 -f1 -f2.
Qed.
End Runs.

Section Converge.
Variable F : archiFieldType.
Variables ng nm : nat.
Variable p : ground_pp F ng nm.
Local Notation run := (foldl (fun g to => ground_tick p to g)).

Lemma run_converges rho k g eps : damped rho (row_ground p k) -> 0 < eps ->
  exists N, forall n, (N <= n)%N -> let g' := run g (nseq n (g_theta_ave p)) in
    energy (row_ground p k) (row k (g_dsh g')) < eps /\ g_q g' k 0 ^+ 2 < eps.
Proof.
move=> D e0; set td := g_theta_ave p; set w := row_ground p k.
have wr : 0 < 1 + hi w * rho.
  by rewrite ltr_spaddl ?ltr01 // mulr_ge0 // ltW ?(da_hi D) // (rho_gt0 D).
pose E0 := energy w (advance w td td (row_state g k)).1.
have E00 : 0 <= E0 by rewrite /E0 energyE (wdot_ge0 D).
have r2 : 0 <= rho ^+ 2 < 1.
  have /andP[a b] := da_rho D; rewrite sqr_ge0 /= expr2 -[X in _ < X]mulr1.
  by apply: ltr_pmul; rewrite // ltW.
have [N HN] := geometric_vanishes r2 E00 (divr_gt0 e0 wr).
exists N.+1 => -[//|n] Hn; cbv zeta.
have e1 := run_rows p (nseq n.+1 td) g k; rewrite -/w -/td in e1.
have d1 := ground_decays td (row_state g k) n D; have q1 := ground_flow_decays td (row_state g k) n D.
rewrite -/w -/E0 in d1 q1.
have {}e1 : row_state (run g (nseq n.+1 td)) k = advances w td (nseq n td) (advance w td td (row_state g k)) by [].
have x1 : row k (g_dsh (run g (nseq n.+1 td))) = (advances w td (nseq n td) (advance w td td (row_state g k))).1 by rewrite -e1.
have x2 : g_q (run g (nseq n.+1 td)) k 0 = (advances w td (nseq n td) (advance w td td (row_state g k))).2 by rewrite -e1.
rewrite x1 x2; set A := advances _ _ _ _ in d1 q1 *.
have lt := le_lt_trans d1 (HN n Hn); rewrite ltr_pdivl_mulr // mulrDr mulr1 in lt.
have En : 0 <= energy w A.1 by rewrite energyE (wdot_ge0 D).
have Hr : 0 <= energy w A.1 * (hi w * rho) by rewrite mulr_ge0 // mulr_ge0 // ltW ?(da_hi D) // (rho_gt0 D).
split; first by apply: le_lt_trans lt; rewrite ler_addl.
by apply: le_lt_trans q1 _; apply: le_lt_trans lt; rewrite mulrC ler_addr.
Qed.
End Converge.
