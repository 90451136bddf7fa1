(* The recorded columns: Spec.LogBalance for consecutive columns of a calculation. *)
From Coq Require Import ZArith Lia.
From mathcomp Require Import all_ssreflect ssralg ssrnum zmodp matrix.
From Coq Require Import Ring Field.
From Verif Require Import Model.OperationMode Model.Numpy Model.PreCalc Model.Tick Model.Step Model.OtTarget
  Model.CoreStep Model.Ground Model.Dec Model.Py Model.CoreLoop Model.CoreCalc Model.LogCore.
From Verif Require Import Spec.Physical Spec.StepEq Spec.Simulation Spec.LogBalance.
From Verif Require Import Lemmas.FieldTac Lemmas.NumpyL Lemmas.TickL Lemmas.TickBalance Lemmas.TickTotal Lemmas.TickEnergy
  Lemmas.StepL Lemmas.CoreStepL Lemmas.CoreCalcL.
Set Implicit Arguments. Unset Strict Implicit. Unset Printing Implicit Defensive.
Import Order.TTheory GRing.Theory Num.Theory.
Local Open Scope ring_scope.

Section LogCoreL.
Variable F : realFieldType.
Variables ni nj nm : nat.
Add Field Ffield : (ffield_theory F).
Ltac fring := ffold F; ring.
Ltac ffield := ffold F; field.

Section Step.
Variables (e0 : F) (infil : infil_fun F ni) (x_sat : F -> F).
Variables (dt : F) (h : house F ni nj nm) (s : step_data F ni nj).
Variables (c c' : conditions F ni nj nm) (o : outputs F ni nj) (k : log_columns F ni nj).
Hypothesis Hs : core_step e0 infil x_sat dt h s c = Some (c', o).
Hypothesis Hb : physical_boundaries h.
Hypothesis Hr : physical_rooms dt h.
Hypothesis k1 : lc_theta_r k = theta_r c.
Hypothesis k2 : lc_x_r k = x_r c.
Hypothesis k3 : lc_theta_frt k = theta_frt c.
Hypothesis k4 : lc_x_frt k = x_frt c.
Local Notation k' := (log_column h s (c', o)).

Lemma qc_sum (i : 'I_ni) : \sum_(j | conn h j == i) lc_qc k' j 0 = - heat_from_surfaces h c' o i.
Proof.
rewrite /heat_from_surfaces -sumrN; apply: eq_bigr => j /eqP ji.
rewrite /= !emulE subE /dot (p_js_mulE _ ji); fring.
Qed.

Lemma rec_heat (i : 'I_ni) : (forall a, v_int h i a = 0) -> rec_heat_balance dt h (v_mec_local s) k k' i.
Proof.
move=> v0; have := core_heat_code Hs i Hr; rewrite /rec_heat_balance qc_sum.
rewrite /heat_from_rooms big1 => [|a _]; last by rewrite v0 mul0r.
rewrite /heat_stored /heat_gain /heat_from_outside /air_from_outside /heat_from_inside /heat_from_furniture
  /heat_from_equipment /rec_outdoor_air /cap_air k1 /= emulE subE mulr0 subr0.
move: (heat_from_surfaces h c' o i) => S E.
have -> : c_air F * rho_air F * v_room h i 0 * (theta_r c' i 0 - theta_r c i 0) / dt
  = v_room h i 0 * (c_air F * rho_air F) * (theta_r c' i 0 - theta_r c i 0) / dt by fring.
rewrite E; fring.
Qed.

Lemma rec_vapour (i : 'I_ni) : rec_vapour_balance dt h (v_mec_local s) k k' i.
Proof.
have := step_vapour Hs (frx_ne0 i Hr); rewrite /vapour_balance /rec_vapour_balance /air_from_outside
  /rec_outdoor_air k2 /= emulE subE => ->.
move: (\sum_a _) ((l_wtr F)^-1) => S l; fring.
Qed.

Lemma rec_frt (i : 'I_ni) : rec_furniture_heat dt h k k' i /\ rec_furniture_vapour dt h k k' i.
Proof.
have [] := core_furniture Hs i Hr.
rewrite /furniture_heat_balance /furniture_moisture_balance /rec_furniture_heat /rec_furniture_vapour k3 k4 /=
  !emulE !subE /q_sol_frt smulE /r_sol_fnt => -> ->; split=> //.
by congr (_ + _); rewrite mul1r mulrC.
Qed.

Lemma rec_sunL (i : 'I_ni) : (exists j, conn h j = i :> nat /\ is_solar_abs h j) -> rec_sun h k' i.
Proof.
move=> ex; have [E _] := solar_conserved Hb s ex; rewrite /rec_sun /= -E; congr (_ + _).
by apply: eq_bigr => j _; rewrite emulE mulrC.
Qed.

Lemma rec_rad (i : 'I_ni) : rec_radiant h k' i.
Proof.
rewrite /rec_radiant -[RHS](radiant_exchange_any Hb (o_theta_s o) i); apply: eq_bigr => j /eqP ji /=.
rewrite !emulE subE /dot -mulmxA (p_js_mulE _ ji).
by rewrite [h_r h j 0 * _]mulrC.
Qed.

Lemma rec_surface (i : 'I_ni) (j : 'I_nj) : conn h j = i -> rec_surface_sum h k' (fun q => a_srf h j 0 * q) i j.
Proof.
move=> ji; have [q [Hq Ht]] := stepP Hs.
rewrite /rec_surface_sum /= (q_srfE Ht) (theta_eiE Ht) !emulE !subE /dot.
have hi : h_c h j 0 + h_r h j 0 != 0 by rewrite gt_eqF // addr_gt0 ?(ph_hc Hb) ?(ph_hr Hb).
have a0 : a_srf h j 0 != 0 by rewrite gt_eqF // (ph_area Hb).
have -> : (flr_js_is h *m emul (ssub 1 (beta h)) (o_l_rs o)) j 0 = flr h j 0 * ((1 - beta h i 0) * o_l_rs o i 0).
  rewrite /flr_js_is cmul_mulE (p_js_mulE _ ji) emulE; congr (_ * (_ * _)); by rewrite !mxE.
move: ((p_js_is h *m _) j 0) ((p_js_is h *m f_mrt_is_js h *m _) j 0) (q_sol_js h s j 0) => x y z.
move/eqP: a0; move/eqP: hi; move=> hi a0; ffield; by split.
Qed.
End Step.

(* without radiant equipment the recorded total is the sum of the recorded parts only for an area of 1 m2 *)
Lemma rec_surface_unit (h : house F ni nj nm) (k' : log_columns F ni nj) (i : 'I_ni) (j : 'I_nj) :
  rec_surface_sum h k' (fun q => a_srf h j 0 * q) i j ->
  rec_surface_sum h k' id i j <-> a_srf h j 0 = 1 \/ lc_qiall_s k' j 0 = 0.
Proof.
rewrite /rec_surface_sum => <-; split=> [/eqP|[->|->]]; rewrite ?mul1r ?mulr0 //.
rewrite -[X in X == _]mul1r -subr_eq0 -mulrBl mulf_eq0 subr_eq0 => /orP[/eqP <-|/eqP ->]; by [left|right].
Qed.

Section Run.
Variables (e0 : F) (infil : infil_fun F ni) (x_sat : F -> F) (x0 : F).
Variable h : house F ni nj nm.
Variable is_ground : pred 'I_nj.
Variable data : seq (step_data F ni nj).
Variables hourly d_main d_run_up d_build : Z.
Hypothesis h0 : (0 < hourly)%Z.
Hypothesis m0 : (0 <= d_main)%Z.
Hypothesis b0 : (0 <= d_build)%Z.
Hypothesis bu : (d_build <= d_run_up)%Z.
Variables (cf : conditions F ni nj nm) (log : seq (option (conditions F ni nj nm * outputs F ni nj))).
Hypothesis Hc : core_calc e0 infil x_sat x0 h is_ground data hourly d_main d_run_up d_build = Ok (cf, log).

(* the step behind column n *)
Lemma logged_step n k : logged h data log n = Some k ->
  exists s c c' o, [/\ List.nth_error data n = Some s, k = log_column h s (c', o),
    core_step e0 infil x_sat (delta_t F hourly) h s c = Some (c', o)
    & forall kp, (0 < n)%N -> logged h data log n.-1 = Some kp ->
        [/\ lc_theta_r kp = theta_r c, lc_x_r kp = x_r c, lc_theta_frt kp = theta_frt c & lc_x_frt kp = x_frt c]].
Proof.
have [g [c [[_ _ _ sc sl] _]]] := core_calc_run h0 m0 b0 bu Hc.
have col m s : List.nth_error data m = Some s -> column data (Z.of_nat m) s.
  move=> E; have lt : (m < size data)%coq_nat by apply/List.nth_error_Some; rewrite E.
  by rewrite /column Z.mod_small ?Nat2Z.id //; lia.
have step m k1 : logged h data log m = Some k1 -> exists s o, [/\ List.nth_error data m = Some s,
    k1 = log_column h s (c (Z.of_nat m + 1)%Z, o) & core_step e0 infil x_sat (delta_t F hourly) h s (c (Z.of_nat m)) = Some (c (Z.of_nat m + 1)%Z, o)].
  rewrite /logged; case Ed : (List.nth_error data m) => [s|] //; case El : (List.nth_error log m) => [[x|]|] // [<-].
  have mlt : (m < size log)%coq_nat by apply/List.nth_error_Some; rewrite El.
  have [|s' [o [cs [st lg]]]] := sc (Z.of_nat m); first by rewrite sl in mlt; nia.
  have e1 : s' = s by have := col _ _ Ed; rewrite /column cs => -[].
  have := lg (Nat2Z.is_nonneg m); rewrite Nat2Z.id El => -[ex].
  by exists s, o; rewrite ex -e1.
move=> /step [s [o [ds -> st]]]; exists s, (c (Z.of_nat n)), (c (Z.of_nat n + 1)%Z), o; split=> // kp n0 /step [s1 [o1 [_ -> _]]].
have -> : (Z.of_nat n.-1 + 1 = Z.of_nat n)%Z; last by [].
by case: (n) n0 => // m _; rewrite [m.+1.-1]/=; lia.
Qed.

(* column n exists for every step of the main period covered by the data *)
Lemma logged_total n : (Z.of_nat n < d_main * hourly * 24)%Z -> (n < size data)%N -> exists k, logged h data log n = Some k.
Proof.
move=> nm1 nd; have [g [c [[_ _ _ sc sl] _]]] := core_calc_run h0 m0 b0 bu Hc.
have [|s' [o [cs [st lg]]]] := sc (Z.of_nat n); first by nia.
rewrite /logged; case Ed : (List.nth_error data n) => [s|].
  by have := lg (Nat2Z.is_nonneg n); rewrite Nat2Z.id => ->; eexists.
by move/List.nth_error_None: Ed; rewrite -/(size data) => /ssrnat.leP; rewrite leqNgt nd.
Qed.

Variable sec : F.
Hypothesis secE : sec * (Z.to_nat hourly)%:R = 3600%:R.

Lemma sec_dt : sec = delta_t F hourly.
Proof.
have := delta_tE F h0; rewrite -secE => /esym; have nz : (Z.to_nat hourly)%:R != 0 :> F; last exact: (mulIf nz).
by rewrite pnatr_eq0 -lt0n; apply/ssrnat.ltP; lia.
Qed.

Lemma logged_rooms (n : nat) k k' s (i : 'I_ni) : physical_rooms sec h ->
  logged h data log n = Some k -> logged h data log n.+1 = Some k' -> List.nth_error data n.+1 = Some s ->
  [/\ (forall a, v_int h i a = 0) -> rec_heat_balance sec h (v_mec_local s) k k' i,
      rec_vapour_balance sec h (v_mec_local s) k k' i,
      rec_furniture_heat sec h k k' i & rec_furniture_vapour sec h k k' i].
Proof.
rewrite sec_dt => Hr kn /logged_step [s' [c [c' [o [ds -> st pr]]]]]; rewrite ds => -[<-].
have [k1 k2 k3 k4] := pr _ isT kn; have [f1 f2] := rec_frt st Hr k3 k4 i.
by split=> // [v0|]; [exact: (rec_heat st Hr k1) | exact: (rec_vapour st Hr k2)].
Qed.

Lemma logged_surfaces (n : nat) k (i : 'I_ni) : physical_boundaries h -> logged h data log n = Some k ->
  [/\ rec_radiant h k i, (exists j, conn h j = i :> nat /\ is_solar_abs h j) -> rec_sun h k i
    & forall j, conn h j = i :> nat -> rec_surface_sum h k (fun q => a_srf h j 0 * q) i j].
Proof.
move=> Hb /logged_step [s [c [c' [o [ds -> st pr]]]]].
by split=> [|ex|j ji]; [exact: rec_rad | exact: rec_sunL | exact: (rec_surface st)].
Qed.
End Run.
End LogCoreL.
