(* A steady state exists, and calculations under constant conditions approach it (C62, C74). *)
From Coq Require Import ZArith Lia.
From mathcomp Require Import all_ssreflect ssralg ssrnum zmodp matrix mxalgebra.
From Coq Require Import Ring Field.
From Verif Require Import Model.OperationMode Model.Numpy Model.NextCondition Model.PreCalc
  Model.HeatExchanger Model.Tick Model.Step Model.OtTarget Model.CoreStep Model.Ground Model.CoreCalc
  Spec.Physical Spec.StepEq Spec.Steady Spec.Simulation Spec.Forget Spec.Settle.
From Verif Require Import Lemmas.FieldTac Lemmas.NumpyL Lemmas.NextConditionL Lemmas.TickL
  Lemmas.TickBalance Lemmas.MMatrix Lemmas.TickTotal Lemmas.TickEquil Lemmas.TickEnergy Lemmas.StepL Lemmas.StepProps Lemmas.CoreStepL
  Lemmas.GroundL Lemmas.SteadyL Lemmas.ForgetL.
Set Implicit Arguments. Unset Strict Implicit. Unset Printing Implicit Defensive.
Import Order.TTheory GRing.Theory Num.Theory.
Local Open Scope ring_scope.

(* the linear system of rooms and surfaces has a solution *)
Section Solve.
Variable F : realFieldType.
Add Field Ffield1 : (ffield_theory F).
Ltac fring := ffold F; ring.
Variables ni nj : nat.
Variable rm : 'I_nj -> 'I_ni.
Variable g : 'I_ni -> F.
Variables a hc hr w A T : 'I_nj -> F.
Variable k : 'I_nj -> option ('I_nj * F).
Hypothesis g0 : forall i, 0 < g i.
Hypothesis a0 : forall j, 0 <= a j.
Hypothesis hc0 : forall j, 0 < hc j.
Hypothesis hr0 : forall j, 0 <= hr j.
Hypothesis w0 : forall j, 0 < w j.
Hypothesis A0 : forall j, 0 <= A j.
Hypothesis k0 : forall j l coef, k j = Some (l, coef) -> 0 <= T j * coef <= 1.

Local Notation V := 'rV[F]_(ni + (nj + nj)).
Local Notation Rr u i := (u 0 (lshift (nj + nj) i)).
Local Notation Rt u j := (u 0 (rshift ni (lshift nj j))).
Local Notation Re u j := (u 0 (rshift ni (rshift nj j))).
Local Notation wm := (wmean rm w).

Definition residual (u : V) : V := row_mx
  (\row_i (g i * Rr u i - \sum_(j | rm j == i) a j * (Rt u j - Rr u i)))
  (row_mx (\row_j ((hc j + hr j) * Re u j - (hc j * Rr u (rm j) + hr j * wm (fun l => Rt u l) (rm j))))
          (\row_j (Rt u j - (A j * ((Re u j - Rt u j) * (hc j + hr j)) + T j * (if k j is Some (l, coef) then coef * Re u l else 0))))).

Lemma wmean_lin (x : F) t t2 i : wm (fun l => x * t l + t2 l) i = x * wm t i + wm t2 i.
Proof.
rewrite /wmean !mulrA -mulrDl mulr_sumr -big_split /=; congr (_ / _); apply: eq_bigr => l _; fring.
Qed.

Lemma residual_linear (x : F) u v : residual (x *: u + v) = x *: residual u + residual v.
Proof.
rewrite /residual !(scale_row_mx, add_row_mx).
have wE i : wm (fun l => Rt (x *: u + v) l) i = x * wm (fun l => Rt u l) i + wm (fun l => Rt v l) i.
  rewrite -wmean_lin /wmean; congr (_ / _); apply: eq_bigr => l _; by rewrite !mxE.
congr (row_mx _ (row_mx _ _)); apply/rowP => i; rewrite !mxE ?wE.
- rewrite mulrBr mulr_sumr addrACA -opprD -big_split /=; congr (_ - _); first by fring.
  by apply: eq_bigr => j _; rewrite !mxE; fring.
- by move: (wmean _ _ _ _) (wmean _ _ _ _) => X Y; fring.
- case: (k i) => [[l coef]|]; rewrite ?mxE; fring.
Qed.

Lemma residual0 : residual 0 = 0.
Proof. by have := residual_linear (-1) 0 0; rewrite scaler0 addr0 scaleN1r addNr. Qed.

Lemma residual_zero u : residual u = 0 -> u = 0.
Proof.
move=> E.
have L : linked rm g a hc hr w A T k (fun i => Rr u i) (fun j => Rt u j) (fun j => Re u j).
  split=> [i|j|j]; apply/eqP; rewrite -subr_eq0; apply/eqP.
  - by move/rowP: E => /(_ (lshift _ i)); rewrite row_mxEl !mxE.
  - by move/rowP: E => /(_ (rshift _ (lshift _ j))); rewrite row_mxEr row_mxEl !mxE.
  - by move/rowP: E => /(_ (rshift _ (rshift _ j))); rewrite row_mxEr row_mxEr !mxE.
have [rE tE eE] := linked_zero g0 a0 hc0 hr0 w0 A0 k0 L.
apply/rowP => i; rewrite mxE; case: (split_ordP i) => [l ->|l ->]; first exact: rE.
by case: (split_ordP l) => [m ->|m ->]; [exact: tE | exact: eE].
Qed.

Lemma linked_solve (p : 'I_ni -> F) (y z : 'I_nj -> F) : exists r t e,
  [/\ forall i, g i * r i = \sum_(j | rm j == i) a j * (t j - r i) + p i,
      forall j, (hc j + hr j) * e j = hc j * r (rm j) + hr j * wm t (rm j) + y j &
      forall j, t j = A j * ((e j - t j) * (hc j + hr j)) + T j * (if k j is Some (l, coef) then coef * e l else 0) + z j].
Proof.
pose M : 'M[F]_(ni + (nj + nj)) := \matrix_i residual (delta_mx 0 i).
have ME u : u *m M = residual u.
  rewrite mulmx_sum_row [in RHS](row_sum_delta u).
  elim/big_rec2: _ => [|i u1 u2 _ ->]; first by rewrite residual0.
  by rewrite rowK residual_linear.
have fr : row_free M by apply: inj_row_free => v; rewrite ME; exact: residual_zero.
have un : M \in unitmx by rewrite -row_free_unit.
pose b : V := row_mx (\row_i p i) (row_mx (\row_j y j) (\row_j z j)).
pose u := b *m invmx M.
have E : residual u = b by rewrite -ME /u mulmxKV.
exists (fun i => Rr u i), (fun j => Rt u j), (fun j => Re u j).
split=> [i|j|j]; apply/eqP; rewrite [X in _ == X]addrC -subr_eq; apply/eqP.
- by move/rowP: E => /(_ (lshift _ i)); rewrite !row_mxEl !mxE.
- by move/rowP: E => /(_ (rshift _ (lshift _ j))); rewrite !row_mxEr !row_mxEl !mxE.
- by move/rowP: E => /(_ (rshift _ (rshift _ j))); rewrite !row_mxEr !mxE.
Qed.
End Solve.

(* the same with a gain in each room that falls with the temperature of the room and is limited *)
Section SolveMin.
Variable F : realFieldType.
Add Field Ffield3 : (ffield_theory F).
Ltac fring := ffold F; ring.
Variables ni nj : nat.
Variable rm : 'I_nj -> 'I_ni.
Variable g : 'I_ni -> F.
Variables a hc hr w A T : 'I_nj -> F.
Variable k : 'I_nj -> option ('I_nj * F).
Hypothesis g0 : forall i, 0 < g i.
Hypothesis a0 : forall j, 0 <= a j.
Hypothesis hc0 : forall j, 0 < hc j.
Hypothesis hr0 : forall j, 0 <= hr j.
Hypothesis w0 : forall j, 0 < w j.
Hypothesis A0 : forall j, 0 <= A j.
Hypothesis k0 : forall j l coef, k j = Some (l, coef) -> 0 <= T j * coef <= 1.
Local Notation wm := (wmean rm w).

Variables (p x sl lim : 'I_ni -> F) (y z : 'I_nj -> F).
Hypothesis sl0 : forall i, 0 <= sl i.

Definition branch (b : bool) i (r : F) : F := if b then x i - sl i * r else lim i.

Definition solved (b : {ffun 'I_ni -> bool}) (u : ('I_ni -> F) * ('I_nj -> F) * ('I_nj -> F)) : Prop :=
  [/\ forall i, g i * u.1.1 i = \sum_(j | rm j == i) a j * (u.1.2 j - u.1.1 i) + (p i + branch (b i) i (u.1.1 i)),
      forall j, (hc j + hr j) * u.2 j = hc j * u.1.1 (rm j) + hr j * wm u.1.2 (rm j) + y j &
      forall j, u.1.2 j = A j * ((u.2 j - u.1.2 j) * (hc j + hr j)) + T j * (if k j is Some (l, coef) then coef * u.2 l else 0) + z j].

Lemma solved_ex b : exists u, solved b u.
Proof.
have gb i : 0 < g i + (if b i then sl i else 0) by apply: ltr_paddr => //; case: (b i).
have [r [t [e [Er Ee Et]]]] := linked_solve rm gb a0 hc0 hr0 w0 A0 k0 (fun i => p i + (if b i then x i else lim i)) y z.
exists (r, t, e); split=> // i; move: (Er i) => /=; rewrite /branch; move: (\sum_(j | _) _) => X E.
transitivity ((g i + (if b i then sl i else 0)) * r i - (if b i then sl i else 0) * r i); first by fring.
by rewrite E; case: (b i); fring.
Qed.

(* another branch with less gain in one room lowers all temperatures *)
Lemma solved_less b b2 u u2 : solved b u -> solved b2 u2 -> (forall i, branch (b2 i) i (u.1.1 i) <= branch (b i) i (u.1.1 i)) ->
  forall i, u2.1.1 i <= u.1.1 i /\ (branch (b2 i) i (u.1.1 i) < branch (b i) i (u.1.1 i) -> u2.1.1 i < u.1.1 i).
Proof.
move: u u2 => [[r t] e] [[r2 t2] e2] [/= Er Ee Et] [/= Er2 Ee2 Et2] less.
pose gb i := g i + (if b2 i then sl i else 0).
have gb0 i : 0 < gb i by apply: ltr_paddr => //; case: (b2 i).
pose S (r : 'I_ni -> F) (t : 'I_nj -> F) i := \sum_(j | rm j == i) a j * (t j - r i).
have SE i : S (fun i => r2 i - r i) (fun j => t2 j - t j) i = S r2 t2 i - S r t i.
  by rewrite /S -sumrB; apply: eq_bigr => j _; fring.
have dE i : gb i * (r2 i - r i) = S (fun i => r2 i - r i) (fun j => t2 j - t j) i
    - (branch (b i) i (r i) - branch (b2 i) i (r i)).
  have := Er i; have := Er2 i; rewrite -/(S r t i) -/(S r2 t2 i) SE; move: (S r t i) (S r2 t2 i) => X X2 E2 E.
  have -> : X2 = g i * r2 i - (p i + branch (b2 i) i (r2 i)) by rewrite E2 addrK.
  have -> : X = g i * r i - (p i + branch (b i) i (r i)) by rewrite E addrK.
  by rewrite /gb /branch; case: (b i); case: (b2 i); fring.
have [] := @sublinked_nonpos F ni nj rm gb a hc hr w A T k gb0 a0 hc0 hr0 w0 A0 k0 (fun i => r2 i - r i) (fun j => t2 j - t j) (fun j => e2 j - e j).
- by move=> i; rewrite -/(S _ _ i) dE ler_subl_addr ler_addl subr_ge0.
- move=> j; rewrite wmeanB mulrBr Ee Ee2; move: (wm _ _) (wm _ _) => X X2; fring.
- move=> j; rewrite {1}Et2 {1}Et; case: (k j) => [[l coef]|]; fring.
move=> rL tL i; split=> [|lt]; first by rewrite -subr_le0.
rewrite -subr_lt0 lt_neqAle rL andbT; apply/negP => /eqP E; have := dE i; rewrite E mulr0 => /esym/eqP; rewrite subr_eq0 => /eqP E2.
have : S (fun i => r2 i - r i) (fun j => t2 j - t j) i <= 0.
  by rewrite /S -oppr_ge0 -sumrN; apply: sumr_ge0 => j _; rewrite -mulrN mulr_ge0 // E subr0 oppr_ge0.
by rewrite E2 subr_le0 leNgt lt.
Qed.

Lemma linked_solve_min : exists r t e,
  [/\ forall i, g i * r i = \sum_(j | rm j == i) a j * (t j - r i) + (p i + Num.min (x i - sl i * r i) (lim i)),
      forall j, (hc j + hr j) * e j = hc j * r (rm j) + hr j * wm t (rm j) + y j &
      forall j, t j = A j * ((e j - t j) * (hc j + hr j)) + T j * (if k j is Some (l, coef) then coef * e l else 0) + z j].
Proof.
have [f fE] := fin_all_exists solved_ex.
pose S b := \sum_i (f b).1.1 i.
case: (@arg_minP _ F _ [ffun=> true] predT S isT) => b _ mn.
have mE i : branch (b i) i ((f b).1.1 i) = Num.min (x i - sl i * (f b).1.1 i) (lim i).
  have key : branch (b i) i ((f b).1.1 i) <= branch (~~ b i) i ((f b).1.1 i).
    rewrite leNgt; apply/negP => lt; pose b2 : {ffun 'I_ni -> bool} := [ffun l => if l == i then ~~ b i else b l].
    have less l : branch (b2 l) l ((f b).1.1 l) <= branch (b l) l ((f b).1.1 l).
      by rewrite ffunE; case: eqP => [->|//]; exact: ltW.
    have H := solved_less (fE b) (fE b2) less.
    have : S b2 < S b.
      rewrite /S (bigD1 i) //= [X in _ < X](bigD1 i) //=; apply: ltr_le_add; last by apply: ler_sum => l _; case: (H l).
      by case: (H i) => _; apply; rewrite ffunE eqxx.
    by rewrite ltNge mn.
  by move: key; rewrite /branch; case: (b i) => /= key; [rewrite min_l|rewrite min_r].
exists (f b).1.1, (f b).1.2, (f b).2; have [E1 E2 E3] := fE b; split=> // i; by rewrite E1 mE.
Qed.
End SolveMin.

Section Exists.
Variable F : realFieldType.
Variables ni nj nm : nat.
Add Field Ffield : (ffield_theory F).
Ltac fring := ffold F; ring.
Ltac ffield := ffold F; field.
Variables (h : house F ni nj nm) (s : step_data F ni nj).
Hypothesis Hb : physical_boundaries h.

(* a solution of the equations of rooms and surfaces makes a steady state *)
Lemma steady_build (v g lc lr : 'I_ni -> F) (c : conditions F ni nj nm) (r : 'I_ni -> F) (t e : 'I_nj -> F) :
  (forall i, g_sh h i 0 = 0 -> q_trs_sol s i 0 = 0) ->
  (forall i, cap_air F * v i * r i = \sum_(j | room_of Hb j == i) h_c h j 0 * a_srf h j 0 * (t j - r i)
     + (cap_air F * v i * theta_o s + g i + q_trs_sol s i 0 / 2%:R + lc i + beta h i 0 * lr i)) ->
  (forall j, (h_c h j 0 + h_r h j 0) * e j = h_c h j 0 * r (room_of Hb j)
     + h_r h j 0 * wmean (room_of Hb) (fun j => a_srf h j 0 * h_r h j 0) t (room_of Hb j)
     + (sun_on_surface h s j (room_of Hb j) + flr h j 0 * (1 - beta h (room_of Hb j) 0) * lr (room_of Hb j) / a_srf h j 0)) ->
  (forall j, t j = resistance h j * ((e j - t j) * (h_c h j 0 + h_r h j 0))
     + 1 * (if k_ei h j is Some (l, coef) then coef * e l else 0) + k_eo h j 0 * theta_o_sol s j 0) ->
  exists c2 ts, [/\ steady_state h s v g lc lr c2 ts, forall i, theta_r c2 i 0 = r i
    & [/\ operation_mode c2 = operation_mode c, theta_mrt_hum c2 = theta_mrt_hum c, x_r c2 = x_r c & x_frt c2 = x_frt c]].
Proof.
move=> f0 Er Ee Et; pose z j := k_eo h j 0 * theta_o_sol s j 0.
pose ts : 'cV[F]_nj := \col_j t j.
pose q j := (e j - t j) * (h_c h j 0 + h_r h j 0).
pose rear j := (if k_ei h j is Some (l, coef) then coef * e l else 0) + z j.
pose c2 := Conditions (operation_mode c) (\col_i r i) (theta_mrt_hum c) (x_r c)
  (\matrix_(j, m) (phi_a1 h j m / (1 - r_ms h j m) * q j)) (\matrix_(j, m) (phi_t1 h j m / (1 - r_ms h j m) * rear j))
  (\col_j q j) (\col_i (r i + q_trs_sol s i 0 / 2%:R / g_sh h i 0)) (x_frt c) (\col_j e j).
have rE j : rear_temperature h s c2 j = rear j.
  by rewrite /rear_temperature /rear /z; case: (k_ei h j) => [[l coef]|] //=; rewrite mxE.
have mE i : mean_radiant h ts i = wmean (room_of Hb) (fun j => a_srf h j 0 * h_r h j 0) t i.
  by rewrite (mrt_wmean Hb) /wmean; congr (_ / _); apply: eq_bigr => j _; rewrite mxE.
exists c2, ts; split=> //; last first.
  by move=> i; rewrite /= mxE.
split=> [j|j i ji|j|i|i|j m|j m].
- rewrite rE /= !mxE; move: (Et j); rewrite mul1r /rear /q /z.
  by move: (if k_ei h j is Some (l, coef) then coef * e l else 0) (_ * _) => X Y {1}->; fring.
- have {}ji : room_of Hb j = i by apply: val_inj; exact: ji.
  rewrite mE /= !mxE; move: (Ee j); rewrite /q ji => E.
  transitivity ((h_c h j 0 + h_r h j 0) * e j - t j * (h_c h j 0 + h_r h j 0)); first by fring.
  by rewrite E; fring.
- by rewrite /= !mxE.
- rewrite /= !mxE; case: (eqVneq (g_sh h i 0) 0) => [E|ne]; first by rewrite E f0 // !mul0r.
  by rewrite addrAC subrr add0r mulrC divfK.
- move: (Er i); rewrite /= !mxE => E.
  have -> : \sum_(j | conn h j == i) h_c h j 0 * a_srf h j 0 * (ts j 0 - r i) = \sum_(j | room_of Hb j == i) h_c h j 0 * a_srf h j 0 * (t j - r i).
    by apply: eq_big => [j|j _]; rewrite ?rm_eq ?mxE.
  move: E; move: (\sum_(j | _) _) => X E.
  have -> : X = cap_air F * v i * r i - (cap_air F * v i * theta_o s + g i + q_trs_sol s i 0 / 2%:R + lc i + beta h i 0 * lr i) by rewrite E addrK.
  move: (cap_air F) (_ / _) => cc sol; fring.
- by rewrite /= !mxE.
- by rewrite rE /= !mxE.
Qed.

Hypothesis R0 : forall j, 0 <= resistance h j.
Hypothesis k0 : forall j k coef, k_ei h j = Some (k, coef) -> 0 <= coef <= 1.
Hypothesis f0 : forall i, g_sh h i 0 = 0 -> q_trs_sol s i 0 = 0.

(* there is a steady state for any given air flows, gains and loads and any number of people, whose heat depends on the
   temperature of the room; nothing but temperatures and heat flows is changed *)
Lemma steady_people (v g n lc lr : 'I_ni -> F) (c : conditions F ni nj nm) : (forall i, 0 < v i) -> (forall i, 0 <= n i) ->
  exists c2 ts, steady_state h s v (fun i => g i + q_hum_psn (theta_r c2 i 0) * n i) lc lr c2 ts /\
    [/\ operation_mode c2 = operation_mode c, theta_mrt_hum c2 = theta_mrt_hum c, x_r c2 = x_r c & x_frt c2 = x_frt c].
Proof.
move=> v0 n0.
pose p i := cap_air F * v i * theta_o s + g i + q_trs_sol s i 0 / 2%:R + lc i + beta h i 0 * lr i.
pose y j := sun_on_surface h s j (room_of Hb j) + flr h j 0 * (1 - beta h (room_of Hb j) 0) * lr (room_of Hb j) / a_srf h j 0.
pose z j := k_eo h j 0 * theta_o_sol s j 0.
have [||||||||r [t [e [Er Ee Et]]]] := @linked_solve_min F ni nj (room_of Hb) (fun i => cap_air F * v i) (fun j => h_c h j 0 * a_srf h j 0)
  (fun j => h_c h j 0) (fun j => h_r h j 0) (fun j => a_srf h j 0 * h_r h j 0) (resistance h) (fun=> 1) (k_ei h) _ _ _ _ _ _ _
  p (fun i => n i * (63%:R + 4%:R * 24%:R)) (fun i => n i * 4%:R) (fun i => n i * 119%:R) y z.
- by move=> i; rewrite mulr_gt0 // /cap_air mulr_gt0 ?c_air_gt0 ?rho_air_gt0.
- by move=> j; rewrite mulr_ge0 // ltW ?(ph_hc Hb) ?(ph_area Hb).
- by move=> j; exact: (ph_hc Hb).
- by move=> j; exact/ltW/(ph_hr Hb).
- by move=> j; rewrite mulr_gt0 ?(ph_hr Hb) ?(ph_area Hb).
- exact: R0.
- by move=> j l coef E; rewrite mul1r; exact: k0 E.
- by move=> i; rewrite mulr_ge0 ?ler0n.
have [//|i|//|//|c2 [ts [S rE K]]] := @steady_build v (fun i => g i + q_hum_psn (r i) * n i) lc lr c r t e.
  rewrite Er /p; congr (_ + _).
  have -> : Num.min (n i * (63%:R + 4%:R * 24%:R) - n i * 4%:R * r i) (n i * 119%:R) = q_hum_psn (r i) * n i.
    rewrite [RHS]mulrC /q_hum_psn minr_pmulr //; congr (Num.min _ _).
    move: (63%:R : F) (4%:R : F) (24%:R : F) => x1 x2 x3; fring.
  by move: (q_trs_sol s i 0 / 2%:R) (cap_air F) => x1 x2; fring.
exists c2, ts; split=> //; case: S => *; split=> // i; rewrite rE; by match goal with H : forall i : 'I_ni, _ = 0 |- _ => have := H i; rewrite rE end.
Qed.

Lemma steady_exists (v g lc lr : 'I_ni -> F) (c : conditions F ni nj nm) : (forall i, 0 < v i) ->
  exists c2 ts, steady_state h s v g lc lr c2 ts /\
    [/\ operation_mode c2 = operation_mode c, theta_mrt_hum c2 = theta_mrt_hum c, x_r c2 = x_r c & x_frt c2 = x_frt c].
Proof.
move=> v0; have [c2 [ts [S K]]] := @steady_people v g (fun=> 0) lc lr c v0 (fun=> lexx _).
by exists c2, ts; split=> //; case: S => S1 S2 S3 S4 S5 S6 S7; split=> // i; have := S5 i; rewrite mulr0 addr0.
Qed.
End Exists.

(* the heat of people falls with temperature, so there is still only one steady state *)
Section UniquePeople.
Variable F : realFieldType.
Variables ni nj nm : nat.
Add Field Ffield4 : (ffield_theory F).
Ltac fring := ffold F; ring.
Variables (h : house F ni nj nm) (s : step_data F ni nj).
Hypothesis Hb : physical_boundaries h.

Lemma people_unique (v g n lc lr : 'I_ni -> F) c ts c2 ts2 :
  (forall i, 0 < v i) -> (forall i, 0 <= n i) -> (forall j, 0 <= resistance h j) ->
  (forall j k coef, k_ei h j = Some (k, coef) -> 0 <= coef <= 1) ->
  steady_state h s v (fun i => g i + q_hum_psn (theta_r c i 0) * n i) lc lr c ts ->
  steady_state h s v (fun i => g i + q_hum_psn (theta_r c2 i 0) * n i) lc lr c2 ts2 ->
  forall i, theta_r c2 i 0 = theta_r c i 0.
Proof.
move=> v0 n0 R0 k0 S S2.
have [l lE] : exists l : 'I_ni -> F, forall i, 0 <= l i /\
    q_hum_psn (theta_r c2 i 0) - q_hum_psn (theta_r c i 0) = - l i * (theta_r c2 i 0 - theta_r c i 0).
  apply: (@fin_all_exists _ (fun=> F) (fun i (l : F) => 0 <= l /\ q_hum_psn (theta_r c2 i 0) - q_hum_psn (theta_r c i 0) = - l * (theta_r c2 i 0 - theta_r c i 0))) => i.
  by have [l [/andP[l0 _] E]] := q_hum_slope (theta_r c i 0) (theta_r c2 i 0); exists l.
have eE : forall j, (h_c h j 0 + h_r h j 0) * (theta_ei c2 j 0 - theta_ei c j 0) =
  h_c h j 0 * (theta_r c2 (room_of Hb j) 0 - theta_r c (room_of Hb j) 0)
  + h_r h j 0 * (mean_radiant h ts2 (room_of Hb j) - mean_radiant h ts (room_of Hb j)).
  pose g1 i := g i + q_hum_psn (theta_r c i 0) * n i.
  pose lc2 i := lc i + (q_hum_psn (theta_r c2 i 0) - q_hum_psn (theta_r c i 0)) * n i.
  move=> j; have ji : conn h j = room_of Hb j by [].
  have e1 := ss_surface S ji; have e2 := ss_surface S2 ji; rewrite (ss_ei S) in e1; rewrite (ss_ei S2) in e2.
  apply: subr0_eq; match type of e1 with ?l1 = ?r1 => match type of e2 with ?l2 = ?r2 => transitivity ((l2 - r2) - (l1 - r1)) end end; last by rewrite e1 e2 !subrr.
  by move: (sun_on_surface _ _ _ _) (_ / a_srf h j 0) => X Y; fring.
have L : linked (room_of Hb) (fun i => cap_air F * v i + l i * n i) (fun j => h_c h j 0 * a_srf h j 0) (fun j => h_c h j 0) (fun j => h_r h j 0)
  (fun j => a_srf h j 0 * h_r h j 0) (resistance h) (fun=> 1) (k_ei h)
  (fun i => theta_r c2 i 0 - theta_r c i 0) (fun j => ts2 j 0 - ts j 0) (fun j => theta_ei c2 j 0 - theta_ei c j 0).
  split=> [i|j|j].
  - have := ss_room S i; have := ss_room S2 i.
    have -> : \sum_(j | room_of Hb j == i) h_c h j 0 * a_srf h j 0 * (ts2 j 0 - ts j 0 - (theta_r c2 i 0 - theta_r c i 0)) =
      (\sum_(j | conn h j == i) h_c h j 0 * a_srf h j 0 * (ts2 j 0 - theta_r c2 i 0))
      - \sum_(j | conn h j == i) h_c h j 0 * a_srf h j 0 * (ts j 0 - theta_r c i 0).
      by rewrite -sumrB; apply: eq_bigr => j _; fring.
    have [_ qE] := lE i; have -> : q_hum_psn (theta_r c2 i 0) = q_hum_psn (theta_r c i 0) - l i * (theta_r c2 i 0 - theta_r c i 0).
      by rewrite -mulNr -qE addrC subrK.
    move: (\sum_(j | _) _) (\sum_(j | _) _) (q_hum_psn _) => X2 X1 Q E2 E1.
    apply: subr0_eq; match type of E1 with ?l1 = _ => match type of E2 with ?l2 = _ => transitivity (l1 - l2) end end; first by fring.
    by rewrite E1 E2 subrr.
  - by rewrite wmeanB -!mrt_wmean eE.
  - rewrite mul1r -(rear_diff h s); have := ss_wall S j; have := ss_wall S2 j.
    rewrite (ss_ei S) (ss_ei S2) => E2 E1; apply: subr0_eq.
    match type of E1 with ?l1 = ?r1 => match type of E2 with ?l2 = ?r2 => transitivity ((l2 - r2) - (l1 - r1)) end end; first by fring.
    by rewrite E1 E2 !subrr.
have [] := linked_zero _ _ _ _ _ _ _ L.
- move=> i; apply: ltr_paddr; first by rewrite mulr_ge0 //; case: (lE i).
  by rewrite mulr_gt0 // /cap_air mulr_gt0 ?c_air_gt0 ?rho_air_gt0.
- by move=> j; rewrite mulr_ge0 // ltW ?(ph_hc Hb) ?(ph_area Hb).
- by move=> j; exact: (ph_hc Hb).
- by move=> j; exact/ltW/(ph_hr Hb).
- by move=> j; rewrite mulr_gt0 ?(ph_hr Hb) ?(ph_area Hb).
- exact: R0.
- by move=> j m coef E; rewrite mul1r; exact: k0 E.
by move=> rE _ _ i; apply/eqP; rewrite -subr_eq0 rE.
Qed.

Lemma rest_unique (infil : infil_fun F ni) c c2 ts ts2 :
  (forall t t2 to, infil t to = infil t2 to) -> (forall t to i, 0 <= infil t to i 0) ->
  (forall i, 0 < v_vent_ex h i 0 + v_mec_local s i 0) -> (forall i, 0 <= n_hum s i 0) ->
  (forall j, 0 <= resistance h j) -> (forall j k coef, k_ei h j = Some (k, coef) -> 0 <= coef <= 1) ->
  at_rest infil h s c ts -> at_rest infil h s c2 ts2 ->
  [/\ forall i, theta_r c2 i 0 = theta_r c i 0, forall j, ts2 j 0 = ts j 0, forall j, theta_ei c2 j 0 = theta_ei c j 0
    & forall j, q_srf c2 j 0 = q_srf c j 0].
Proof.
move=> fixed i0 v0 n0 R0 k0; rewrite /at_rest (fixed (theta_r c2) (theta_r c)) => S S2.
have vp i : 0 < infil (theta_r c) (theta_o s) i 0 + (v_vent_ex h i 0 + v_mec_local s i 0) by apply: ltr_paddl.
have rE := people_unique vp n0 R0 k0 S S2.
apply: (steady_unique Hb vp R0 k0 S); case: S2 => S1 S2 S3 S4 S5 S6 S7; split=> // i.
by have := S5 i; rewrite rE.
Qed.

Lemma leaky_resistance j : leaky h -> 0 <= resistance h j.
Proof.
move=> Hl; have t0 m : 0 <= phi_a1 h j m / (1 - r_ms h j m).
  by rewrite divr_ge0 ?(lk_phi Hl) // subr_ge0; have /andP[_ /ltW] := lk_ratio Hl j m.
have p0 : 0 <= phi_a0 h j 0.
  case: (lk_total Hl j) => [|[]//] /ltW; apply: le_trans; apply: sumr_ge0 => m _.
  by rewrite divr_ge0 ?(lk_phi Hl) // addr_ge0 ?ler01 //; have /andP[] := lk_ratio Hl j m.
by rewrite /resistance addr_ge0 // sumr_ge0.
Qed.
End UniquePeople.

(* constant weather, gains and ventilation, nobody at the equipment *)
Section Settle.
Variable F : realFieldType.
Variables ni nj nm : nat.
Variable data : seq (step_data F ni nj).
Variables (e0 : F) (infil : infil_fun F ni) (x_sat : F -> F) (dt : F) (h : house F ni nj nm) (sg v0 : F) (s : step_data F ni nj).
Variable is_ground : pred 'I_nj.
Hypothesis Hb : physical_boundaries h.
Hypothesis Hr : physical_rooms dt h.
Hypothesis Hh : physical_hum h.
Hypothesis Ha : physical_air h s.
Hypothesis Hw : unit_response h.
Hypothesis Hf : forgetful dt h sg.
Hypothesis Hv : forall s o, (forall i, v0 <= air_from_outside h s o i) ->
    (forall i, 0 <= n_hum s i 0 /\ 4%:R * n_hum s i 0 <= 2%:R * (v_room h i 0 * cap_air F / dt)) -> aired dt h sg s o.
Hypothesis v0p : 0 < v0.
Hypothesis ch : forall i, 0 <= cap_h h i 0.
Hypothesis cc : forall i, 0 <= cap_c h i 0.
Hypothesis fixed : forall t t2 to, infil t to = infil t2 to.
Hypothesis i0 : forall t to i, 0 <= infil t to i 0.
Hypothesis idle : unattended dt h v0 s.

Variables (cs : conditions F ni nj nm) (ts : 'cV[F]_nj).
Hypothesis S : steady_state h s (fun i => infil (theta_r cs) (theta_o s) i 0 + (v_vent_ex h i 0 + v_mec_local s i 0))
  (fun i => q_gen s i 0 + q_hum_psn (theta_r cs i 0) * n_hum s i 0) (fun=> 0) (fun=> 0) cs ts.

Lemma settle_off i : ac_demand s i 0 <= 0. Proof. by have [] := idle i. Qed.

(* the step leaves the steady state as it is *)
Lemma settled_step : exists cs' o, [/\ core_step e0 infil x_sat dt h s cs = Some (cs', o), unchanged cs cs' & forall j, o_theta_s o j 0 = ts j 0].
Proof.
have off := settle_off.
have [||cs' [o [Hs _]]] := @step_completes F ni nj nm e0 infil x_sat dt h s cs ch cc Hb Hr Ha Hh i0.
- by move=> i /lt_le_trans /(_ (off i)); rewrite ltxx.
- by left=> i _; exact: off.
exists cs', o; have [l1 l2 w lk] := free_step ch cc Hs off.
have [U T] : unchanged cs cs' /\ forall j, o_theta_s o j 0 = ts j 0; last by split.
have Hs2 : core_step e0 infil x_sat dt h s cs = Some (cs', o) by [].
have vE i : air_from_outside h s o i = infil (theta_r cs) (theta_o s) i 0 + (v_vent_ex h i 0 + v_mec_local s i 0).
  by rewrite /air_from_outside w addr0 lk.
have vp i : 0 < air_from_outside h s o i.
  by rewrite vE; apply: ltr_paddl; [exact: i0 | have [_ /(lt_le_trans v0p)] := idle i].
apply: (steady_unchanged Hb Hs2 Hr Hw _ (fo_paths Hf)) => [j k coef|i|].
- by rewrite (fo_single Hf).
- exact: ltW.
case: S => S1 S2 S3 S4 S5 S6 S7; split=> // [j i ji|i].
  by rewrite l2 mxE; exact: S2.
have [-> _] := step_hum Hs i; rewrite l1 l2 !mxE vE; exact: S5.
Qed.

Lemma gap_unchanged (c c2 c2' : conditions F ni nj nm) : unchanged c2 c2' -> gap dt h sg c c2' = gap dt h sg c c2.
Proof.
case=> u1 u2 u3 u4 u5 u6; rewrite /gap /wall_gap /room_gap /upcoming /memory; congr (_ + _ / _).
  by apply: eq_bigr => j _; congr (_ * _); apply: eq_bigr => m _; rewrite u4 u5 u6.
by apply: eq_bigr => i _; rewrite u1 u2.
Qed.

Lemma steady_idle j m : phi_a1 h j m = 0 -> memory cs j m = 0.
Proof. by move=> p0; rewrite /memory (ss_a S) (ss_t S) p0 (fo_idle Hf p0) !mul0r addr0. Qed.

(* one step towards the steady state *)
Lemma settle_step c c' o : core_step e0 infil x_sat dt h s c = Some (c', o) -> (forall j m, phi_a1 h j m = 0 -> memory c j m = 0) ->
  gap dt h sg c' cs
  + sg * (\sum_(i < ni) \sum_(j | conn h j == i) h_c h j 0 * a_srf h j 0
      * (theta_r cs i 0 - theta_r c' i 0 - (ts j 0 - o_theta_s o j 0)) ^+ 2) <= sg ^+ 2 * gap dt h sg c cs.
Proof.
move=> Hs id; have [cs' [o2 [Hs2 U tE]]] := settled_step.
have si : same_idle h c cs by move=> j m p0; rewrite /upcoming p0 !mul0r id ?steady_idle.
have so := free_same ch cc fixed settle_off Hs Hs2.
have ai : aired dt h sg s o.
  apply: Hv => i; have [_ v1 n1 n2] := idle i; last by split.
  have [_ _ w l] := free_step ch cc Hs settle_off; rewrite /air_from_outside w addr0.
  by rewrite l; apply: le_trans v1 _; rewrite ler_addr i0.
have := gap_step Hs Hs2 Hb Hr Hf si so ai; rewrite (gap_unchanged _ U).
congr (_ + _ * _ <= _); apply: eq_bigr => i _; apply: eq_bigr => j _; by rewrite (un_air U) tE.
Qed.

Hypothesis const : forall s', List.In s' data -> s' = s.
Variables (td x0 : F) (n_main n_run_up n_build : Z).
Variables (g : Z -> ground_conditions F #|is_ground| nm) (c : Z -> conditions F ni nj nm)
  (log : seq (option (conditions F ni nj nm * outputs F ni nj))).
Hypothesis sim : simulation data e0 infil x_sat dt h (is_ground := is_ground) td (conditions_init ni nj nm x0) n_main n_run_up n_build g c log.
Hypothesis le1 : (n_build <= n_run_up)%Z.

Lemma settle_run n : (- n_build <= n <= n_main)%Z ->
  gap dt h sg (c n) cs <= (sg ^+ 2) ^+ Z.to_nat (n + n_build) * gap dt h sg (c (- n_build)%Z) cs.
Proof.
move: n; apply: z_ind => [|n Hn IH]; first by rewrite Z.add_opp_diag_l expr0 mul1r.
have [s' [o [Cs [E _]]]] := sim_c sim Hn.
have es : s' = s by apply: const; apply: List.nth_error_In Cs.
rewrite es in E; have := settle_step E (sim_idle Hf sim le1 (ltac:(lia) : (- n_build <= n <= n_main)%Z)); set X := \sum_i _ => T.
have X0 : 0 <= sg * X.
  rewrite mulr_ge0 ?(ltW (sg_gt0 Hf)) //; apply: sumr_ge0 => i _; apply: sumr_ge0 => j _.
  by rewrite mulr_ge0 ?sqr_ge0 // mulr_ge0 // ltW ?(ph_hc Hb) ?(ph_area Hb).
have -> : Z.to_nat (n + 1 + n_build) = (Z.to_nat (n + n_build)).+1 by lia.
rewrite exprS -mulrA; apply: le_trans (_ : sg ^+ 2 * gap dt h sg (c n) cs <= _); last by rewrite ler_wpmul2l ?sqr_ge0.
by apply: le_trans T; rewrite ler_addl.
Qed.

(* the surfaces follow *)
Lemma settle_surface n o j (i : 'I_ni) : (- n_build <= n < n_main)%Z -> core_step e0 infil x_sat dt h s (c n) = Some (c (n + 1)%Z, o) ->
  conn h j = i :> nat ->
  h_c h j 0 * a_srf h j 0 * (theta_r cs i 0 - theta_r (c (n + 1)%Z) i 0 - (ts j 0 - o_theta_s o j 0)) ^+ 2 <= sg * gap dt h sg (c n) cs.
Proof.
move=> Hn E ji; have s0 := sg_gt0 Hf.
have := settle_step E (sim_idle Hf sim le1 (ltac:(lia) : (- n_build <= n <= n_main)%Z)).
have t0 (i' : 'I_ni) j' : 0 <= h_c h j' 0 * a_srf h j' 0 * (theta_r cs i' 0 - theta_r (c (n + 1)%Z) i' 0 - (ts j' 0 - o_theta_s o j' 0)) ^+ 2.
  by rewrite mulr_ge0 ?sqr_ge0 // mulr_ge0 // ltW ?(ph_hc Hb) ?(ph_area Hb).
rewrite (bigD1 i) //= (bigD1 j) /=; last by rewrite ji.
set X := h_c h j 0 * _ * _; set Y := \sum_(j' | _) _; set Z := \sum_(i' | _) _ => T.
have Y0 : 0 <= Y by apply: sumr_ge0.
have Z0 : 0 <= Z by apply: sumr_ge0 => i' _; apply: sumr_ge0.
have : sg * X <= sg ^+ 2 * gap dt h sg (c n) cs.
  apply: le_trans T; apply: ler_paddl; first exact: (gap_ge0 Hb Hr Hf).
  by rewrite ler_pmul2l // -addrA ler_addl addr_ge0.
by rewrite expr2 -mulrA ler_pmul2l.
Qed.
End Settle.

Section Squares.
Variable F : realFieldType.
Add Field Ffield5 : (ffield_theory F).
Ltac fring := ffold F; ring.
Ltac ffield := ffold F; field.
Lemma square_sum (x y eps : F) : x ^+ 2 < eps / 4%:R -> (x - y) ^+ 2 < eps / 4%:R -> y ^+ 2 < eps.
Proof.
move=> a b; have four : 0 < (4%:R : F) by rewrite ltr0n.
have : y ^+ 2 <= 2%:R * (x ^+ 2 + (x - y) ^+ 2).
  have -> : 2%:R * (x ^+ 2 + (x - y) ^+ 2) = y ^+ 2 + (2%:R * x - y) ^+ 2 by rewrite !expr2; fring.
  by rewrite ler_addl sqr_ge0.
move=> /le_lt_trans; apply; have -> : eps = 2%:R * (eps / 4%:R + eps / 4%:R).
  have -> : (4%:R : F) = 2%:R * 2%:R by rewrite -natrM.
  by ffield; exact: four_ne0.
by rewrite ltr_pmul2l ?ltr0n // ltr_add.
Qed.
End Squares.

(* with time, an unattended house comes to rest *)
Section Limit.
Variable F : archiFieldType.
Variables ni nj nm : nat.
Variables (dt : F) (h : house F ni nj nm) (sg : F).
Hypothesis Hb : physical_boundaries h.
Hypothesis Hr : physical_rooms dt h.
Hypothesis Hf : forgetful dt h sg.

Lemma surface_vanishes (B eps : F) : 0 <= B -> 0 < eps -> exists K, forall k (c c2 : conditions F ni nj nm), (K <= k)%N ->
  gap dt h sg c c2 <= (sg ^+ 2) ^+ k * B -> forall j x, h_c h j 0 * a_srf h j 0 * x ^+ 2 <= sg * gap dt h sg c c2 -> x ^+ 2 < eps.
Proof.
move=> B0 e0; have /andP[s0 s1] := fo_sigma Hf.
have w0 j : 0 < h_c h j 0 * a_srf h j 0 by rewrite mulr_gt0 ?(ph_hc Hb) ?(ph_area Hb).
pose W := \sum_j (h_c h j 0 * a_srf h j 0)^-1.
have W1 j : (h_c h j 0 * a_srf h j 0)^-1 <= W.
  by rewrite /W (bigD1 j) //= ler_addl; apply: sumr_ge0 => k _; rewrite invr_ge0 ltW.
have W0 : 0 <= W by apply: sumr_ge0 => k _; rewrite invr_ge0 ltW.
have [] := @geometric_vanishes F (sg ^+ 2) (sg * B * W) eps _ _ e0.
- by rewrite sqr_ge0 /= expr_lt1 // ltW.
- by rewrite !mulr_ge0 // ltW.
move=> K HK; exists K => k c c2 Hk G j x X.
apply: le_lt_trans (HK k Hk).
have -> : (sg ^+ 2) ^+ k * (sg * B * W) = sg * ((sg ^+ 2) ^+ k * B) * W.
  by move: ((sg ^+ 2) ^+ k) => u; rewrite !mulrA -!mulrA (mulrCA u).
apply: le_trans (_ : sg * gap dt h sg c c2 * W <= _); last by apply: ler_wpmul2r => //; apply: ler_wpmul2l; rewrite // ltW.
have S0 : 0 <= sg * gap dt h sg c c2 by rewrite mulr_ge0 ?(gap_ge0 Hb Hr Hf) // ltW.
by apply: le_trans (_ : sg * gap dt h sg c c2 / (h_c h j 0 * a_srf h j 0) <= _); rewrite ?ler_wpmul2l // ler_pdivl_mulr // mulrC.
Qed.

Section Sim.
Variables (data : seq (step_data F ni nj)) (e0 : F) (infil : infil_fun F ni) (x_sat : F -> F) (v0 : F) (s : step_data F ni nj).
Variable is_ground : pred 'I_nj.
Hypothesis Hh : physical_hum h.
Hypothesis Ha : physical_air h s.
Hypothesis Hw : unit_response h.
Hypothesis Hv : forall s o, (forall i, v0 <= air_from_outside h s o i) ->
    (forall i, 0 <= n_hum s i 0 /\ 4%:R * n_hum s i 0 <= 2%:R * (v_room h i 0 * cap_air F / dt)) -> aired dt h sg s o.
Hypothesis v0p : 0 < v0.
Hypothesis ch : forall i, 0 <= cap_h h i 0.
Hypothesis cc : forall i, 0 <= cap_c h i 0.
Hypothesis fixed : forall t t2 to, infil t to = infil t2 to.
Hypothesis i0 : forall t to i, 0 <= infil t to i 0.
Hypothesis idle : unattended dt h v0 s.
Variables (cs : conditions F ni nj nm) (ts : 'cV[F]_nj).
Hypothesis S : at_rest infil h s cs ts.
Hypothesis const : forall s', List.In s' data -> s' = s.
Variables (td x0 : F) (n_main n_run_up n_build : Z).
Variables (g : Z -> ground_conditions F #|is_ground| nm) (c : Z -> conditions F ni nj nm)
  (log : seq (option (conditions F ni nj nm * outputs F ni nj))).
Hypothesis sim : simulation data e0 infil x_sat dt h (is_ground := is_ground) td (conditions_init ni nj nm x0) n_main n_run_up n_build g c log.
Hypothesis le1 : (n_build <= n_run_up)%Z.

Lemma settle_limit (B eps : F) K1 K2 : 0 <= B -> 0 < eps ->
  (forall k (c c2 : conditions F ni nj nm), (K1 <= k)%N -> gap dt h sg c c2 <= (sg ^+ 2) ^+ k * B ->
    forall i, (theta_r c2 i 0 - theta_r c i 0) ^+ 2 < eps / 4%:R /\ (theta_frt c2 i 0 - theta_frt c i 0) ^+ 2 < eps / 4%:R) ->
  (forall k (c c2 : conditions F ni nj nm), (K2 <= k)%N -> gap dt h sg c c2 <= (sg ^+ 2) ^+ k * B ->
    forall j x, h_c h j 0 * a_srf h j 0 * x ^+ 2 <= sg * gap dt h sg c c2 -> x ^+ 2 < eps / 4%:R) ->
  gap dt h sg (c (- n_build)%Z) cs <= B -> forall n, (Z.of_nat (maxn K1 K2) - n_build <= n < n_main)%Z ->
  forall o, core_step e0 infil x_sat dt h s (c n) = Some (c (n + 1)%Z, o) ->
  [/\ forall i, (theta_r cs i 0 - theta_r (c (n + 1)%Z) i 0) ^+ 2 < eps,
      forall i, (theta_frt cs i 0 - theta_frt (c (n + 1)%Z) i 0) ^+ 2 < eps
    & forall j, (ts j 0 - o_theta_s o j 0) ^+ 2 < eps].
Proof.
move=> B0 e0p H1 H2 G n Hn o E.
have K1n : (Z.of_nat K1 <= Z.of_nat (maxn K1 K2))%Z by apply/inj_le/ssrnat.leP; rewrite leq_maxl.
have K2n : (Z.of_nat K2 <= Z.of_nat (maxn K1 K2))%Z by apply/inj_le/ssrnat.leP; rewrite leq_maxr.
have bound m : (- n_build <= m <= n_main)%Z -> gap dt h sg (c m) cs <= (sg ^+ 2) ^+ Z.to_nat (m + n_build) * B.
  move=> Hm; apply: le_trans (settle_run Hb Hr Hh Ha Hw Hf Hv v0p ch cc fixed i0 idle S const sim le1 Hm) _.
  by apply: ler_wpmul2l => //; rewrite exprn_ge0 // sqr_ge0.
have e4 : eps / 4%:R <= eps by rewrite ler_pdivr_mulr ?ltr0n // ler_pemulr ?ler1n // ltW.
have near i := H1 _ _ _ (introT ssrnat.leP (ltac:(lia) : (K1 <= Z.to_nat (n + 1 + n_build))%coq_nat)) (bound (n + 1)%Z (ltac:(lia))) i.
split=> [i|i|j].
- by have [a _] := near i; exact: lt_le_trans a e4.
- by have [_ a] := near i; exact: lt_le_trans a e4.
have [a _] := near (room_of Hb j); apply: square_sum a _.
have Hn' : (- n_build <= n < n_main)%Z by lia.
have ji : conn h j = room_of Hb j :> nat by [].
apply: (H2 (Z.to_nat (n + n_build)) (c n) cs); first by apply/ssrnat.leP; lia.
  by apply: bound; lia.
exact: (settle_surface Hb Hr Hh Ha Hw Hf Hv v0p ch cc fixed i0 idle S sim le1 Hn' E ji).
Qed.
End Sim.
End Limit.
