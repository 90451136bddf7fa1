(* A response of the building: air temperatures T and surface temperatures ts that satisfy the wall equations for the
   radiant output lr, without history and outdoor influence. What the equipment has to deliver convectively then follows. *)
From mathcomp Require Import all_ssreflect ssralg ssrnum zmodp matrix.
From Coq Require Import Ring Field.
From Verif Require Import Model.OperationMode Model.Numpy Model.NextCondition Model.PreCalc Model.HeatExchanger Model.Tick.
From Verif Require Import Lemmas.FieldTac Lemmas.NumpyL Lemmas.NextConditionL Lemmas.TickBalance.
Set Implicit Arguments. Unset Strict Implicit. Unset Printing Implicit Defensive.
Import Order.TTheory GRing.Theory Num.Theory.
Local Open Scope ring_scope.

Section ModeL.
Variable F : realFieldType.
Variables ni nj nm : nat.
Add Field Ffield : (ffield_theory F).
Ltac fring := ffold F; ring.
Ltac ffield := ffold F; field.
Variables (dt : F) (h : house F ni nj nm) (q : pp F ni nj).
Hypothesis Hq : make_pp h dt = Some q.

Definition on_surface (lr : 'cV[F]_ni) : 'cV[F]_nj := flr_js_is h *m emul (ssub 1 (beta h)) lr.

Lemma walls_mode (T : 'cV[F]_ni) (lr : 'cV[F]_ni) (ts : 'cV[F]_nj) :
  (forall j, (1 + phi_a0 h j 0 * (h_c h j 0 + h_r h j 0)) * ts j 0 =
     phi_a0 h j 0 * (h_c h j 0 * (p_js_is h *m T) j 0 + h_r h j 0 * (p_js_is h *m (f_mrt_is_js h *m ts)) j 0
                     + on_surface lr j 0 / a_srf h j 0)
     + (if k_ei h j is Some (k, coef) then phi_t0 h j 0 * coef *
          (h_c h j 0 * (p_js_is h *m T) k 0 + h_r h j 0 * (p_js_is h *m (f_mrt_is_js h *m ts)) k 0
           + on_surface lr k 0 / a_srf h j 0) / (h_c h j 0 + h_r h j 0)
        else 0)) ->
  ts = wsr q *m T + wsb q *m lr.
Proof.
move=> H; have [/inv_mulV[_ xai] -> -> _ _] := ppE Hq; rewrite -!mulmxA -mulmxDr.
rewrite -[LHS]mul1mx -xai -mulmxA; congr (_ *m _); apply/matrixP => j l; rewrite (ord1 l) {l}.
have := H j; rewrite /ax /fia /flb /dot /on_surface.
move: (flr_js_is h) (k_ei_mulE) => fl kE.
rewrite !(mulmxDl, mulmxBl) !mulNmx !addE !oppE !(vdiag_mulE, cmul_mulE, cdiv_mulE, cmulE, emulE) -!mulmxA.
rewrite ![(k_ei_js_js h *m _) j 0]kE !rmul_mulmx !cmul_cV /sadd ?matE ?emulE /h_i ?addE => E.
apply: subr0_eq; move/eqP: E; rewrite -subr_eq0 => /eqP E; rewrite -[RHS]E.
by case: (k_ei h j) => [[k coef]|]; fring.
Qed.

Variables (kc kr : 'cV[F]_ni) (xot : 'M[F]_ni).
Hypothesis Hx : inv (vdiag kc + cmul kr (f_mrt_hum_is_js h *m wsr q)) = Some xot.

(* the operative temperature of the response, and the convective heat it takes *)
Lemma mode_need (brm : 'M[F]_ni) (T lr : 'cV[F]_ni) (ts : 'cV[F]_nj) : ts = wsr q *m T + wsb q *m lr ->
  (brm *m xot) *m (emul kc T + emul kr (f_mrt_hum_is_js h *m ts))
  - (brl q + brm *m (xot *m (cmul kr (f_mrt_hum_is_js h *m wsb q)))) *m lr = brm *m T - brl q *m lr.
Proof.
move=> ->; have [_ xX] := inv_mulV Hx.
have -> : emul kc T + emul kr (f_mrt_hum_is_js h *m (wsr q *m T + wsb q *m lr))
  = (vdiag kc + cmul kr (f_mrt_hum_is_js h *m wsr q)) *m T + cmul kr (f_mrt_hum_is_js h *m wsb q) *m lr.
  rewrite mulmxDl vdiag_mulE cmul_cV -addrA; congr (_ + _).
  apply/matrixP => a b; rewrite (ord1 b) mulmxDr !mulmxA !addE.
  rewrite ?emulE ?addE ?cmul_mulE ?matE; fring.
rewrite -!mulmxA mulmxDr [xot *m (_ *m T)]mulmxA xX mul1mx mulmxDr mulmxDl opprD -!mulmxA.
by rewrite [X in _ + X]addrC addrA addrK.
Qed.

Lemma need_room (v_out : 'cV[F]_ni) (T lr : 'cV[F]_ni) (ts : 'cV[F]_nj) (i : 'I_ni) : ts = wsr q *m T + wsb q *m lr ->
  v_int h = 0 ->
  ((brm_non_vent q + smul (c_air F * rho_air F) (vdiag v_out + v_int h)) *m T - brl q *m lr) i 0 =
  (c_rm h i 0 / dt + c_sh h i 0 * g_sh h i 0 / (c_sh h i 0 + g_sh h i 0 * dt) + c_air F * rho_air F * v_out i 0) * T i 0
  + \sum_(j | conn h j == i) h_c h j 0 * a_srf h j 0 * (T i 0 - ts j 0) - beta h i 0 * lr i 0.
Proof.
move=> tsE v0; have [_ _ _ -> ->] := ppE Hq; rewrite v0 addr0.
rewrite mulmxDl mulmxDl mulmxDl !vdiag_mulE !cmul_cV mulmxDl vdiag_mulE cmul_cV -!mulmxA.
have -> : smul (c_air F * rho_air F) (vdiag v_out) *m T = smul (c_air F * rho_air F) (emul v_out T).
  apply/matrixP => a b; rewrite -cmul_cV -vdiag_mulE !mxE mulr_sumr; apply: eq_bigr => k _; rewrite !mxE; fring.
rewrite !addE !oppE !addE !emulE smulE emulE !matE !p_is_mulE.
have sumE : \sum_(j | conn h j == i) (cmul (h_c h) (cmul (a_srf h) (p_js_is h - wsr q)) *m T) j 0
   - \sum_(j | conn h j == i) (cmul (a_srf h) (cmul (h_c h) (wsb q)) *m lr) j 0
   = \sum_(j | conn h j == i) h_c h j 0 * a_srf h j 0 * (T i 0 - ts j 0).
  rewrite -sumrB; apply: eq_bigr => j /eqP ji.
  rewrite !cmul_mulE mulmxBl tsE !addE oppE (p_js_mulE T ji); fring.
rewrite -sumE; set S1 := \sum_(_ | _) _; set S2 := \sum_(_ | _) _; fring.
Qed.

End ModeL.
