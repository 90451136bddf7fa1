(* Heat balances of a completed step (C02-C05). *)
From mathcomp Require Import all_ssreflect ssralg ssrnum zmodp matrix.
From Coq Require Import Ring Field.
From Verif Require Import Model.OperationMode Model.Numpy Model.NextCondition Model.PreCalc
  Model.HeatExchanger Model.Tick.
From Verif Require Import Lemmas.FieldTac Lemmas.NumpyL Lemmas.NextConditionL Lemmas.TickL.
Set Implicit Arguments. Unset Strict Implicit. Unset Printing Implicit Defensive.
Import Order.TTheory GRing.Theory Num.Theory.
Local Open Scope ring_scope.

Section TickBalance.
Variable F : realFieldType.
Variables ni nj nm : nat.
Add Field Ffield : (ffield_theory F).
Ltac fring := ffold F; ring.
Ltac ffield := ffold F; field.

Variable ot : ot_fun F ni.
Variable infil : infil_fun F ni.
Variable x_sat : F -> F.
Variables (dt : F) (h : house F ni nj nm) (q : pp F ni nj) (s : step_data F ni nj).
Variables (c c' : conditions F ni nj nm) (o : outputs F ni nj).
Hypothesis Hq : make_pp h dt = Some q.
Hypothesis Ht : run_tick ot infil x_sat dt h q s c = Some (c', o).

Lemma p_is_mulE (w : 'cV[F]_nj) i : (p_is_js h *m w) i 0 = \sum_(j | conn h j == i) w j 0.
Proof.
rewrite mxE [RHS]big_mkcond /=; apply: eq_bigr => j _; rewrite !mxE.
by case: (_ == _); rewrite ?mul1r ?mul0r.
Qed.

Lemma p_js_mulE (w : 'cV[F]_ni) j (i : 'I_ni) : conn h j = i -> (p_js_is h *m w) j 0 = w i 0.
Proof.
move=> ji; rewrite mxE (bigD1 i) //= !mxE ji eqxx mul1r big1 ?addr0 // => k nki.
rewrite !mxE ji; case: eqP; rewrite ?mul0r // => /val_inj ik.
by rewrite ik eqxx in nki.
Qed.

Lemma ppE : [/\ inv (ax h) = Some (ivs_ax q),
  wsr q = ivs_ax q *m fia h, wsb q = ivs_ax q *m flb h,
  brl q = p_is_js h *m (cmul (a_srf h) (cmul (h_c h) (wsb q))) + vdiag (beta h)
 & brm_non_vent q = vdiag (\matrix_(i, j) (c_rm h i 0 / dt))
      + p_is_js h *m (cmul (h_c h) (cmul (a_srf h) (p_js_is h - wsr q)))
      + vdiag (\matrix_(i, j) (c_sh h i 0 * g_sh h i 0 / (c_sh h i 0 + g_sh h i 0 * dt)))].
Proof. by move: Hq; rewrite /make_pp; case: (inv _) => [ivs|//] [<-]. Qed.

(* the surface temperatures solve the surface equations AX theta_s = FIA theta_r + CRX + FLB L + CVL *)
Lemma surf_eq : ax h *m o_theta_s o
  = fia h *m theta_r c' + crx h s + flb h *m o_l_rs o + rowsum (theta_dsh_t c' + theta_dsh_a c').
Proof.
have [/inv_mulV[axi _] wsrE wsbE _ _] := ppE.
case: (run_tickP Ht) => md lo up wsc wsv ? ? ? ? ? ? ? ? ? ? ? ? ? ?.
move=> ? ? ? ? ? ? ? ? wscE wsvE ? ? ? ? ? ? ? ? ? ? tsE *.
move: wsrE wsbE wscE axi wsvE tsE; move: (fia h) (flb h) (crx h s) (ax h) => A B C D.
move=> wsrE wsbE wscE axi wsvE tsE.
by rewrite tsE wsrE wsbE wscE wsvE !mulmxDr !mulmxA axi !mul1mx.
Qed.

(* operative temperature *)
Lemma ot_eq i : o_h_hum_c o i 0 + o_h_hum_r o i 0 != 0 ->
  o_theta_ot o i 0 =
  (o_h_hum_c o i 0 * theta_r c' i 0 + o_h_hum_r o i 0 * theta_mrt_hum c' i 0)
  / (o_h_hum_c o i 0 + o_h_hum_r o i 0).
Proof.
move=> hne; case: (run_tickP Ht) => md lo up wsc wsv ? ? ? xot kc kr ? ? ? ? ? ? ? ?.
move=> ? ? ? ? ? ? ? ? ? ? ? ? ? ? kcE krE Ex _ trE _ tsE mrtE *.
have [Mx _] := inv_mulV Ex.
have key : (vdiag kc + cmul kr (f_mrt_hum_is_js h *m wsr q)) *m theta_r c'
  = o_theta_ot o - cmul kr (f_mrt_hum_is_js h *m wsb q) *m o_l_rs o
    - emul kr (f_mrt_hum_is_js h *m (wsc + wsv)).
  by rewrite trE !mulmxBr !mulmxA Mx !mul1mx.
have : o_theta_ot o = emul kc (theta_r c') + emul kr (theta_mrt_hum c').
  rewrite mrtE tsE !mulmxDr !mulmxA.
  move: key; rewrite mulmxDl vdiag_mulE -cmul_mulmx -cmul_mulmx !cmul_cV => key.
  have -> : o_theta_ot o = emul kc (theta_r c') + emul kr (f_mrt_hum_is_js h *m wsr q *m theta_r c')
    + emul kr (f_mrt_hum_is_js h *m wsb q *m o_l_rs o) + emul kr (f_mrt_hum_is_js h *m (wsc + wsv)).
    by rewrite key; apply/matrixP => a b; rewrite !mxE; fring.
  by rewrite mulmxDr; apply/matrixP => a b; rewrite !mxE; fring.
move/matrixP/(_ i 0); rewrite kcE krE !mxE => ->.
move: hne => /eqP hne; ffield; exact: hne.
Qed.

(* heat exchange of furniture with the air *)
Lemma frt_heat i : c_sh h i 0 + dt * g_sh h i 0 != 0 ->
  c_sh h i 0 * (theta_frt c' i 0 - theta_frt c i 0)
  = dt * (g_sh h i 0 * (theta_r c' i 0 - theta_frt c' i 0) + q_sol_frt s i 0).
Proof.
move=> hne; case: (run_tickP Ht) => md lo up wsc wsv ? ? ? xot kc kr ? ? ? ? ? ? ? ?.
move=> ? ? ? ? ? ? ? ? ? ? ? ? ? ? ? ? ? ? ? frtE *.
rewrite frtE !mxE; move: hne => /eqP hne; ffield; exact: hne.
Qed.

Lemma frt_moist i : c_lh h i 0 + dt * g_lh h i 0 != 0 ->
  c_lh h i 0 * (x_frt c' i 0 - x_frt c i 0) = dt * (g_lh h i 0 * (x_r c' i 0 - x_frt c' i 0)).
Proof.
move=> hne; case: (run_tickP Ht) => md lo up wsc wsv ? ? ? xot kc kr ? ? ? ? ? ? ? ?.
move=> ? ? ? ? ? ? ? ? ? ? ? ? ? ? ? ? ? ? ? ? ? ? ? ? ? ? ? ? ? ? ? ? ? xE.
rewrite xE !mxE; move: hne => /eqP hne; ffield; exact: hne.
Qed.

(* the room equation in matrix form *)
Lemma room_mx : exists v_out wsc wsv : 'cV[F]__, let vsum := wsc + wsv in
  [/\ v_out = o_v_leak o + v_mec h s + o_v_ntrl o,
    o_theta_s o = wsr q *m theta_r c' + wsc + wsb q *m o_l_rs o + wsv &
  (brm_non_vent q + smul (c_air F * rho_air F) (vdiag v_out + v_int h)) *m theta_r c' =
   o_l_cs o + brl q *m o_l_rs o +
   ((\matrix_(i, _) (c_rm h i 0 / dt * theta_r c i 0))
    + p_is_js h *m (emul (emul (h_c h) (a_srf h)) (wsc + wsv))
    + (\matrix_(i, _) (c_air F * rho_air F * v_out i 0 * theta_o s))
    + q_gen s + o_q_hum o
    + (\matrix_(i, _) (g_sh h i 0 * (c_sh h i 0 * theta_frt c i 0 + q_sol_frt s i 0 * dt)
                       / (c_sh h i 0 + dt * g_sh h i 0))))].
Proof.
case: (run_tickP Ht) => md lo up wsc wsv v_out brc brm xot kc kr ? ? ? ? ? ? ? ?.
move=> ? ? ? ? ? ? ? ? ? ? ? vE brcE brmE ? ? Ex Ec trE ? tsE *.
exists v_out, wsc, wsv; split=> //.
rewrite -brcE -brmE; have := calc_balance Ec; rewrite -mulmxA => /= bal.
rewrite trE !mulmxBr bal mulmxDl !mulmxA.
by apply/matrixP => a b; rewrite !mxE; fring.
Qed.

(* C02, with the sign of the inter-room term that the code uses *)
Lemma room_balance i : c_sh h i 0 + dt * g_sh h i 0 != 0 ->
  c_rm h i 0 / dt * (theta_r c' i 0 - theta_r c i 0) =
    (\sum_(j | conn h j == i) h_c h j 0 * a_srf h j 0 * (o_theta_s o j 0 - theta_r c' i 0))
    + c_air F * rho_air F * (o_v_leak o i 0 + (v_vent_ex h i 0 + v_mec_local s i 0) + o_v_ntrl o i 0)
      * (theta_o s - theta_r c' i 0)
    - c_air F * rho_air F * (\sum_k v_int h i k * theta_r c' k 0)
    + q_gen s i 0 + o_q_hum o i 0
    + g_sh h i 0 * (theta_frt c' i 0 - theta_r c' i 0)
    + o_l_cs o i 0 + beta h i 0 * o_l_rs o i 0.
Proof.
move=> hne; have [v_out [wsc [wsv /= [vE tsE mx]]]] := room_mx.
have [_ _ _ brlE brmE] := ppE.
have frt : g_sh h i 0 * (theta_frt c' i 0 - theta_r c' i 0) =
  g_sh h i 0 * (c_sh h i 0 * theta_frt c i 0 + q_sol_frt s i 0 * dt) / (c_sh h i 0 + dt * g_sh h i 0)
  - c_sh h i 0 * g_sh h i 0 / (c_sh h i 0 + g_sh h i 0 * dt) * theta_r c' i 0.
  case: (run_tickP Ht) => md lo up ? ? ? ? ? xot kc kr ? ? ? ? ? ? ? ?.
  move=> ? ? ? ? ? ? ? ? ? ? ? ? ? ? ? ? ? ? ? frtE *.
  rewrite frtE !mxE [g_sh h i 0 * dt]mulrC; move: hne => /eqP hne; ffield; exact: hne.
have srf : \sum_(j | conn h j == i) h_c h j 0 * a_srf h j 0 * (o_theta_s o j 0 - theta_r c' i 0)
  = (p_is_js h *m (emul (emul (h_c h) (a_srf h)) (wsc + wsv))) i 0
    + ((p_is_js h *m (cmul (a_srf h) (cmul (h_c h) (wsb q)))) *m o_l_rs o) i 0
    - ((p_is_js h *m (cmul (h_c h) (cmul (a_srf h) (p_js_is h - wsr q)))) *m theta_r c') i 0.
  rewrite -!mulmxA !p_is_mulE -big_split /= -sumrB; apply: eq_bigr => j /eqP ji.
  rewrite tsE -!cmul_mulmx mulmxBl; move/(p_js_mulE (theta_r c')): ji => ji.
  rewrite -ji !mxE; fring.
have := congr1 (fun z : 'cV[F]__ => z i 0) mx; rewrite /= brmE.
rewrite !mulmxDl brlE mulmxDl !vdiag_mulE.
set A1 := p_is_js h *m _; set A2 := p_is_js h *m _; set A3 := p_is_js h *m _.
rewrite -/A1 -/A2 -/A3 in srf.
have vin : (smul (c_air F * rho_air F) (vdiag v_out + v_int h) *m theta_r c') i 0 =
   c_air F * rho_air F * v_out i 0 * theta_r c' i 0
   + c_air F * rho_air F * (\sum_k v_int h i k * theta_r c' k 0).
  have -> : smul (c_air F * rho_air F) (vdiag v_out + v_int h) =
    (c_air F * rho_air F) *: (vdiag v_out + v_int h).
    by apply/matrixP => a b; rewrite !mxE.
  by rewrite -scalemxAl mulmxDl vdiag_mulE !mxE; fring.
rewrite !addE !cmulE !matE vin => E.
have vEi : v_out i 0 = o_v_leak o i 0 + (v_vent_ex h i 0 + v_mec_local s i 0) + o_v_ntrl o i 0.
  by rewrite vE !mxE.
rewrite srf frt -vEi.
move/eqP: E; rewrite -subr_eq0 => /eqP E; apply/eqP; rewrite -subr_eq0; apply/eqP; rewrite -[RHS]E.
rewrite [q_sol_frt s i 0]mxE; fring.
Qed.


Lemma k_ei_mulE (w : 'cV[F]_nj) j :
  (k_ei_js_js h *m w) j 0 = if k_ei h j is Some (k, coef) then coef * w k 0 else 0.
Proof.
rewrite mxE; case E: (k_ei h j) => [[k coef]|].
  rewrite (bigD1 k) //= !mxE E eqxx big1 ?addr0 // => l nlk.
  by rewrite !mxE E (negbTE nlk) mul0r.
by rewrite big1 // => l _; rewrite !mxE E mul0r.
Qed.

Lemma theta_eiE j : theta_ei c' j 0 =
    (h_c h j 0 * (p_js_is h *m theta_r c') j 0
      + h_r h j 0 * ((p_js_is h *m f_mrt_is_js h) *m o_theta_s o) j 0
      + q_sol_js h s j 0
      + (flr_js_is h *m (emul (ssub 1 (beta h)) (o_l_rs o))) j 0 / a_srf h j 0)
     / (h_c h j 0 + h_r h j 0).
Proof.
case: (run_tickP Ht) => md lo up ? ? ? ? ? xot kc kr ? ? ? ? ? ? ? ?.
move=> ? ? ? ? ? ? ? ? ? ? ? ? ? ? ? ? ? ? ? ? ? ? -> *.
by rewrite matE.
Qed.

Lemma q_srfE j : q_srf c' j 0 = (theta_ei c' j 0 - o_theta_s o j 0) * (h_c h j 0 + h_r h j 0).
Proof.
case: (run_tickP Ht) => md lo up ? ? ? ? ? xot kc kr ? ? ? ? ? ? ? ?.
move=> ? ? ? ? ? ? ? ? ? ? ? ? ? ? ? ? ? ? ? ? ? ? ? -> *.
by rewrite emulE !subE addE.
Qed.

Lemma rmul_mulmx m n p (A : 'M[F]_(m, n)) (v : 'cV[F]_n) (B : 'M[F]_(n, p)) :
  rmul A v *m B = A *m cmul v B.
Proof. by apply/matrixP => a b; rewrite !mxE; apply: eq_bigr => k _; rewrite !mxE mulrA. Qed.

Lemma cmul_mulE m n p (v : 'cV[F]_m) (A : 'M[F]_(m, n)) (B : 'M[F]_(n, p)) i j :
  (cmul v A *m B) i j = v i 0 * (A *m B) i j.
Proof. by rewrite -cmul_mulmx mxE. Qed.

Lemma cdiv_mulE m n p (v : 'cV[F]_m) (A : 'M[F]_(m, n)) (B : 'M[F]_(n, p)) i j :
  (cdiv A v *m B) i j = (A *m B) i j / v i 0.
Proof. by rewrite cdivE cmul_mulE mxE mulrC. Qed.

Lemma cdiv_mulmx m n p (A : 'M[F]_(m, n)) (v : 'cV[F]_m) (B : 'M[F]_(n, p)) :
  cdiv A v *m B = cdiv (A *m B) v.
Proof. by rewrite !cdivE cmul_mulmx. Qed.

(* the temperature that the front boundary j uses for its rear boundary k: k's data with j's coefficients *)
Definition rear_seen j k : F :=
  (h_c h j 0 * (p_js_is h *m theta_r c') k 0
   + h_r h j 0 * ((p_js_is h *m f_mrt_is_js h) *m o_theta_s o) k 0
   + q_sol_js h s k 0
   + (flr_js_is h *m (emul (ssub 1 (beta h)) (o_l_rs o))) k 0 / a_srf h j 0)
  / (h_c h j 0 + h_r h j 0).

Lemma surf_response_seen j : h_c h j 0 + h_r h j 0 != 0 -> a_srf h j 0 != 0 ->
  o_theta_s o j 0 =
    phi_a0 h j 0 * q_srf c' j 0
    + phi_t0 h j 0 * ((if k_ei h j is Some (k, coef) then coef * rear_seen j k else 0)
                      + k_eo h j 0 * theta_o_sol s j 0)
    + \sum_m (theta_dsh_t c' j m + theta_dsh_a c' j m).
Proof.
move=> hne ane; rewrite q_srfE theta_eiE.
have sE := surf_eq.
have := congr1 (fun z : 'cV[F]__ => z j 0) sE; rewrite /= {sE} /ax /fia /crx /flb /dot /rear_seen.
move: (q_sol_js h s) (flr_js_is h) (k_ei_mulE) => qs fl kE.
rewrite !(mulmxDl, mulmxBl) !mulNmx !addE !oppE vdiag_mulE !(cmul_mulE, cdiv_mulE, cmulE, emulE) -!mulmxA.
rewrite ![(k_ei_js_js h *m _) j 0]kE !rmul_mulmx !cmul_cV /sadd ?matE /rowsum ?matE ?emulE.
have -> : \sum_k (theta_dsh_t c' + theta_dsh_a c') j k = \sum_m (theta_dsh_t c' j m + theta_dsh_a c' j m).
  by apply: eq_bigr => m _; rewrite addE.
rewrite /theta_dstrb ?emulE /ediv ?matE /h_i ?addE => E.
move/eqP: E; rewrite -subr_eq0 => /eqP E; apply/eqP; rewrite -subr_eq0; apply/eqP; rewrite -[RHS]E.
move/eqP: hne => hne; move/eqP: ane => ane.
by case: (k_ei h j) => [[k coef]|]; rewrite -?mulmxA; ffield; split; (exact: ane || exact: hne || idtac).
Qed.


Lemma surf_response j : h_c h j 0 + h_r h j 0 != 0 -> a_srf h j 0 != 0 ->
  (forall k coef, k_ei h j = Some (k, coef) ->
     [/\ h_c h k 0 = h_c h j 0, h_r h k 0 = h_r h j 0 & a_srf h k 0 = a_srf h j 0]) ->
  o_theta_s o j 0 =
    phi_a0 h j 0 * q_srf c' j 0
    + phi_t0 h j 0 * ((if k_ei h j is Some (k, coef) then coef * theta_ei c' k 0 else 0)
                      + k_eo h j 0 * theta_o_sol s j 0)
    + \sum_m (theta_dsh_t c' j m + theta_dsh_a c' j m).
Proof.
move=> hne ane Hm; rewrite {1}(surf_response_seen hne ane).
case E: (k_ei h j) Hm => [[k coef]|//] /(_ _ _ erefl) [e1 e2 e3].
by rewrite theta_eiE /rear_seen e1 e2 e3.
Qed.

End TickBalance.
