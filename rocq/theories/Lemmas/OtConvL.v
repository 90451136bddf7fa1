(* PMV of core against PMV of ISO 7730 *)
From Coq Require Import Reals Lra Psatz String.
From mathcomp Require Import all_ssreflect ssralg ssrnum.
From Verif Require Import Model.Py Model.EesHouse Model.Psychro Model.OperationMode Model.Dec Model.RealNumbers Model.OtTarget Model.OtConv.
From Verif Require Model.Iso7730.
From Verif Require Import Lemmas.PyL Lemmas.RealNumbersL Lemmas.Iso7730L Lemmas.OtTargetL Lemmas.DecL.
Delimit Scope R_scope with coqR.
Local Open Scope coqR.

Local Notation RF := R_realFieldType.
Local Notation skin := (357 / 10 - 28 / 1000 * (5815 / 100)).

Ltac rlra := lazymatch goal with |- @eq _ ?a ?b => change (@eq R a b) | _ => idtac end; lra.

Lemma i_clE (clo : R) : @get_i_cl RF clo = Iso7730.convert_clo_to_m2kw clo.
Proof. rewrite /get_i_cl R_mulE R_decE /Iso7730.convert_clo_to_m2kw; f_equal; lra. Qed.

Lemma f_clE (i : R) : @get_f_cl RF i = Iso7730.get_f_cl i.
Proof.
rewrite /get_f_cl /Iso7730.get_f_cl !R_decE /Order.le /= /R_le.
rewrite -[X in if X then _ else _]/(if Rle_dec i (IZR 78 / 10 ^ 3) then true else false).
case: Rle_dec => A; case: Rle_dec => B; rewrite ?R_addE ?R_mulE ?R_1E /=; simpl in A; rlra.
Qed.

Lemma mE : get_m RF = 5815 / 100.
Proof. rewrite /get_m R_decE /=; lra. Qed.

Lemma pmvE (tr clo pa h ot : R) : let i := Iso7730.convert_clo_to_m2kw clo in let f := Iso7730.get_f_cl i in 1 + i * f * h <> 0 ->
  @get_pmv RF exp_m tr clo pa h ot =
    (303 / 1000 * exp_m + 28 / 1000) *
    (5815 / 100 - Iso7730.latent_skin (5815 / 100) pa 0 - Iso7730.sweating (5815 / 100) 0 - Iso7730.latent_breath (5815 / 100) pa
     - Iso7730.sensible_breath (5815 / 100) tr - f * h * (skin - ot) / (1 + i * f * h)).
Proof.
move=> i f N; rewrite /get_pmv /pmv_gain i_clE f_clE mE -/i -/f !R_maxE !R_decE.
rewrite !(R_addE, R_oppE, R_mulE, R_1E, R_0E) R_invE //.
have -> : Rmax (IZR 42 / 10 ^ 2 * (5815 / 100 + - (IZR 5815 / 10 ^ 2))) R0 = 0 by rewrite Rmax_right //=; lra.
have -> : Iso7730.sweating (5815 / 100) 0 = 0 by rewrite /Iso7730.sweating Rmax_right //; lra.
by rewrite /Iso7730.latent_skin /Iso7730.latent_breath /Iso7730.sensible_breath /=; field.
Qed.

Section Room.
Variables (mrt tr clo v : R).
Hypotheses (mrt_ok : - 273 < mrt) (clo_ok : 0 <= clo).
Let i := Iso7730.convert_clo_to_m2kw clo.
Let f := Iso7730.get_f_cl i.
Let k := 121 / 10 * sqrt v.

Lemma i_nonneg : 0 <= i. Proof. rewrite /i /Iso7730.convert_clo_to_m2kw; lra. Qed.
Lemma f_pos : 1 <= f. Proof. exact: (f_cl_ge1 _ i_nonneg). Qed.

Lemma h_rE t : get_h_hum_r t mrt * (t - mrt) = 396 / 10000000000 * ((t + 273) ^ 4 - (mrt + 273) ^ 4).
Proof. rewrite /get_h_hum_r; field. Qed.
Lemma h_r_pos t : - 273 <= t -> 0 < get_h_hum_r t mrt.
Proof.
move=> T; rewrite /get_h_hum_r.
have A : 0 <= t + 273 by lra. have B : 0 < mrt + 273 by lra.
move: (t + 273) (mrt + 273) A B => x y A B.
have -> : x ^ 3 + x ^ 2 * y + x * y ^ 2 + y ^ 3 = (x + y) * (x ^ 2 + y ^ 2) by ring.
apply: Rmult_lt_0_compat; first lra.
apply: Rmult_lt_0_compat; nra.
Qed.
Lemma h_c_nonneg t : 0 <= get_h_hum_c tr t v.
Proof. exact: coef_nonneg. Qed.
Lemma h_pos t : - 273 <= t -> 0 < get_h_hum_r t mrt + get_h_hum_c tr t v.
Proof. move=> T; move: (h_r_pos t T) (h_c_nonneg t); lra. Qed.
Lemma den_pos h : 0 < h -> 0 < 1 + i * f * h.
Proof. move=> H; have := Rmult_le_pos _ _ (Rmult_le_pos _ _ i_nonneg (Rle_trans _ _ _ (Rlt_le _ _ Rlt_0_1) f_pos)) (Rlt_le _ _ H); lra. Qed.

Definition op_temp (t : R) : R :=
  (get_h_hum_r t mrt * mrt + get_h_hum_c tr t v * tr) / (get_h_hum_r t mrt + get_h_hum_c tr t v).

(* heat lost by the clothing *)
Lemma lossE t : - 273 <= t ->
  (get_h_hum_r t mrt + get_h_hum_c tr t v) * (t - op_temp t) = loss k tr mrt t.
Proof.
move=> T; have H := h_pos t T; rewrite /loss -h_rE /op_temp -[coef _ _]/(get_h_hum_c tr t v); field; lra.
Qed.

Lemma map_balance t : - 273 <= t -> clothing_map mrt tr clo v t = t <-> balance (i * f) k tr mrt skin t = 0.
Proof.
move=> T; have H := h_pos t T; have D := den_pos _ H.
rewrite /clothing_map /get_theta_cl i_clE f_clE mE -/i -/f -/(op_temp t) /balance -(lossE t T).
move: (get_h_hum_r t mrt + get_h_hum_c tr t v) (op_temp t) H D => h o H D.
have E : (skin - o) / (1 + i * f * h) + o = t <-> skin - o = (t - o) * (1 + i * f * h).
  split=> E; first by rewrite -E; field; lra.
  by rewrite E; field; lra.
by rewrite E; split; lra.
Qed.

(* the dry loss of core at the clothing temperature *)
Lemma dry_loss t : - 273 <= t -> balance (i * f) k tr mrt skin t = 0 ->
  let h := get_h_hum_r t mrt + get_h_hum_c tr t v in
  f * h * (skin - op_temp t) / (1 + i * f * h) = f * loss k tr mrt t.
Proof.
move=> T B h; have H := h_pos t T; have D := den_pos _ H; rewrite -/h in H D.
rewrite -(lossE t T) -/h; move: B; rewrite /balance -(lossE t T) -/h => B.
have -> : skin - op_temp t = (t - op_temp t) * (1 + i * f * h) by lra.
by field; lra.
Qed.

End Room.

(* newton returns exact zeros that are temperatures *)
Definition solves (newton : (R -> R) -> res R) : Prop := forall g t, newton g = Ok t -> - 273 <= t /\ g t = 0.

Section Pmv.
Variables (newton : (R -> R) -> res R) (newton' : (R -> res R) -> res R).
Hypotheses (N : solves newton) (N' : finds_zero newton').

Lemma conv_inv pa tr mrt clo v y : - 273 < mrt -> 0 <= clo ->
  get_h_hum_and_pmv newton pa tr mrt clo v "convergence" = Ok y ->
  let i := Iso7730.convert_clo_to_m2kw clo in let f := Iso7730.get_f_cl i in
  exists t, - 273 <= t /\ balance (i * f) (121 / 10 * sqrt v) tr mrt skin t = 0 /\
    y = (303 / 1000 * exp_m + 28 / 1000) *
      (5815 / 100 - Iso7730.latent_skin (5815 / 100) pa 0 - Iso7730.sweating (5815 / 100) 0 - Iso7730.latent_breath (5815 / 100) pa
       - Iso7730.sensible_breath (5815 / 100) tr - f * loss (121 / 10 * sqrt v) tr mrt t).
Proof.
move=> M C; rewrite /get_h_hum_and_pmv /get_h_hum /=.
case E : newton => [t|e] //= [<-]; have [T Z] := N _ _ E; set i := Iso7730.convert_clo_to_m2kw clo; set f := Iso7730.get_f_cl i.
exists t; split=> //.
have B : balance (i * f) (121 / 10 * sqrt v) tr mrt skin t = 0 by apply/(map_balance mrt tr clo v M C t T); lra.
split=> //; rewrite pmvE -/i -/f; last by move: (den_pos clo C _ (h_pos mrt tr v M t T)); rewrite -/i -/f; lra.
by rewrite -/(op_temp mrt tr v t) (dry_loss mrt tr clo v M C t T B).
Qed.

Lemma same_pmv pa tr mrt clo v rh y r : - 273 < mrt -> - 27315 / 100 < tr -> 0 <= clo -> 0 <= v ->
  Iso7730.get_p_a rh tr = Ok pa ->
  get_h_hum_and_pmv newton pa tr mrt clo v "convergence" = Ok y ->
  Iso7730.get_pmv_ppd newton' 1 0 tr mrt clo v rh = Ok r -> y = fst r.
Proof.
move=> M T C V P Y I; have [t [Lt [B ->]]] := conv_inv _ _ _ _ _ _ M C Y.
have [t' [Lt' [B' [-> _]]]] := pmv_ppd_inv _ _ _ _ _ _ _ _ _ N' V T I.
have P' := p_a_ok rh tr T; rewrite P in P'; case: P' => <-.
have M1 : Iso7730.convert_met_to_wm2 1 = 5815 / 100 by rewrite /Iso7730.convert_met_to_wm2; lra.
have M0 : Iso7730.convert_met_to_wm2 0 = 0 by rewrite /Iso7730.convert_met_to_wm2; lra.
move: B'; rewrite M1 M0 => B'.
have S : Iso7730.get_skin_temperature (5815 / 100) 0 = skin by rewrite /Iso7730.get_skin_temperature; lra.
rewrite S in B'; have <- : t = t'.
  apply: (balance_unique _ _ _ _ _ _ _ _ Lt Lt' B B').
  by have := Rmult_le_pos _ _ (i_nonneg clo C) (Rle_trans _ _ _ (Rlt_le _ _ Rlt_0_1) (f_pos clo C)).
by rewrite Rminus_0_r.
Qed.
End Pmv.

(* the clothing temperature is determined *)
Lemma clothing_exists mrt tr clo v : - 273 < mrt -> - 273 <= tr -> 0 <= clo ->
  exists t, (least skin tr mrt <= t <= greatest skin tr mrt) /\ clothing_map mrt tr clo v t = t /\
    forall t', - 273 <= t' -> clothing_map mrt tr clo v t' = t' -> t' = t.
Proof.
move=> M T C; set i := Iso7730.convert_clo_to_m2kw clo; set f := Iso7730.get_f_cl i.
have G : 0 <= i * f by have := Rmult_le_pos _ _ (i_nonneg clo C) (Rle_trans _ _ _ (Rlt_le _ _ Rlt_0_1) (f_pos clo C)).
have S : - 273 <= skin by lra.
have M' : - 273 <= mrt by lra.
have [t [B Z]] := balance_zero _ (121 / 10 * sqrt v) _ _ _ G T M' S.
have L : - 273 <= t by apply: (Rle_trans _ _ _ _ (proj1 B)); apply: least_ge.
exists t; split=> //; split; first exact/(map_balance mrt tr clo v M C t L).
move=> t' L' /(map_balance mrt tr clo v M C t' L') Z'.
exact: (balance_unique _ _ _ _ _ _ _ G L' L Z' Z).
Qed.

Section Monotone.
Variables (newton : (R -> R) -> res R).
Hypothesis N : solves newton.

Lemma conv_mono pa pa' tr tr' mrt mrt' clo v y y' : - 273 < mrt <= mrt' -> tr <= tr' -> pa <= pa' -> 0 <= clo ->
  tr < tr' \/ mrt < mrt' \/ pa < pa' ->
  get_h_hum_and_pmv newton pa tr mrt clo v "convergence" = Ok y ->
  get_h_hum_and_pmv newton pa' tr' mrt' clo v "convergence" = Ok y' -> y < y'.
Proof.
move=> [M MM] T P C D Y Y'; have M' : - 273 < mrt' by lra.
have [t [Lt [B ->]]] := conv_inv _ N _ _ _ _ _ _ M C Y; have [t' [Lt' [B' ->]]] := conv_inv _ N _ _ _ _ _ _ M' C Y'.
have G := gain_pos (5815 / 100); apply: Rmult_lt_compat_l; first exact: G.
have F : 0 < Iso7730.get_f_cl (Iso7730.convert_clo_to_m2kw clo) by have := f_pos clo C; lra.
have M0 : - 273 <= mrt by lra.
have [W St] := through_clothing _ _ _ _ _ _ _ _ _ _ (i_nonneg clo C) F M0 Lt Lt' T MM B B'.
rewrite /Iso7730.latent_skin /Iso7730.latent_breath /Iso7730.sensible_breath.
case: D => [D|[D|D]]; try (have := St (or_introl D)); try (have := St (or_intror D)); lra.
Qed.

(* method 'constant' *)
Lemma const_h : h_hum_c RF = 4 /\ 3 < h_hum_r RF.
Proof.
rewrite /h_hum_r /h_hum_c !(R_mulE, R_addE) R_natE R_expE !R_decE /= ?(R_mulE, R_addE).
by split; [change (40 / (10 * 1) = 4); lra|change (3 < (1 + 1 + 1 + 1) * (396 / (10 * (10 * 1))) * (1 / (10 * (10 * (10 * (10 * (10 * (10 * (10 * (10 * 1))))))))) *
  ((200 / (10 * 1) + 27315 / (10 * (10 * 1))) * ((200 / (10 * 1) + 27315 / (10 * (10 * 1))) * ((200 / (10 * 1) + 27315 / (10 * (10 * 1))) * 1)))); lra].
Qed.

Lemma const_pmv pa tr mrt clo v :
  get_h_hum_and_pmv newton pa tr mrt clo v "constant" = Ok (@OtTarget.get_h_hum_and_pmv RF exp_m pa tr mrt clo).
Proof.
rewrite /get_h_hum_and_pmv /get_h_hum /= /OtTarget.get_h_hum_and_pmv !(R_addE, R_mulE) R_invE //.
by have [-> ] := const_h; change (3 < h_hum_r RF -> (h_hum_r RF : R) + 4 <> 0); lra.
Qed.

Lemma const_target x m rh rc tr mrt ac :
  ot_target_with newton x m rh rc tr mrt ac "constant" =
  match @ot_target_pmv RF exp_m x m tr mrt ac with
  | Some (om, t) => Ok (h_hum_c RF : R, h_hum_r RF : R, om, t)
  | None => Err ValueError
  end.
Proof.
rewrite /ot_target_with !const_pmv /= /ot_target_pmv; case: get_operation_mode => [om|] //=.
Qed.

Lemma other_method pa tr mrt clo v method : method <> "convergence"%string -> method <> "constant"%string ->
  get_h_hum_and_pmv newton pa tr mrt clo v method = Err OtherError.
Proof.
move=> A B; rewrite /get_h_hum_and_pmv /get_h_hum.
by destruct (string_dec method "convergence"); [contradiction|]; destruct (string_dec method "constant"); [contradiction|].
Qed.

Lemma other_target x m rh rc tr mrt ac method : method <> "convergence"%string -> method <> "constant"%string ->
  ot_target_with newton x m rh rc tr mrt ac method = Err OtherError.
Proof. by move=> A B; rewrite /ot_target_with other_method. Qed.

(* what a converged step returns *)
Lemma conv_target x m rh rc tr mrt ac hc hr om target : - 273 < mrt ->
  ot_target_with newton x m rh rc tr mrt ac "convergence" = Ok (hc, hr, om, target) ->
  0 < hc + hr /\
  (om = HEATING -> @get_pmv RF exp_m target (clo_heavy RF) (@get_p_v_r RF x) (hc + hr) target = - (1 / 2)) /\
  (om = COOLING -> @get_pmv RF exp_m target (clo_light RF) (@get_p_v_r RF x) (hc + hr) target = 1 / 2).
Proof.
move=> M; rewrite /ot_target_with; do 3 (case: get_h_hum_and_pmv => //= ?).
case: get_operation_mode => //= m'; rewrite /get_h_hum /=; case E : newton => [t|] //= [<- <- <- <-].
have [T _] := N _ _ E.
have H : 0 < get_h_hum_c tr t (get_v_hum m' rh rc) + get_h_hum_r t mrt by rewrite Rplus_comm; exact: h_pos.
split=> //; have e0 : (0 <= exp_m :> RF)%R by apply/R_leP; left; apply: exp_pos.
have hp : (0 < get_h_hum_c tr t (get_v_hum m' rh rc) + get_h_hum_r t mrt :> RF)%R by apply/R_ltP.
have ch : (0 <= clo_heavy RF)%R by apply/R_leP; rewrite /clo_heavy R_decE /= R_0E; lra.
have cl : (0 <= clo_light RF)%R by apply/R_leP; rewrite /clo_light R_decE /= R_0E; lra.
have P y : get_v_hum m' rh rc = y -> (0 < get_h_hum_c tr t y + get_h_hum_r t mrt :> RF)%R by move=> <-.
split=> mE'; move: P; rewrite mE' /= => P; rewrite (pmv_at_target e0 _ (P _ erefl)) //; rewrite ?R_oppE R_decE /=; rlra.
Qed.

Lemma conv_transfer x m rh rc tr mrt ac hc hr om target :
  ot_target_with newton x m rh rc tr mrt ac "convergence" = Ok (hc, hr, om, target) ->
  exists t, let v := match om with HEATING => if rh then 0 else 1 / 5 | COOLING => if rc then 0 else 1 / 5 | STOP_OPEN => 1 / 10 | _ => 0 end in
    clothing_map mrt tr (get_clo RF om) v t = t /\
    hc = Rmax (121 / 10 * sqrt v) (238 / 100 * sqrt (sqrt (Rabs (t - tr)))) /\
    hr * (t - mrt) = 396 / 100 / 100000000 * ((t + 273) ^ 4 - (mrt + 273) ^ 4).
Proof.
rewrite /ot_target_with; do 3 (case: get_h_hum_and_pmv => //= ?).
case: get_operation_mode => //= m'; rewrite /get_h_hum /=; case E : newton => [t|] //= [<- <- <- _].
have [_ Z] := N _ _ E; exists t.
have V : get_v_hum m' rh rc = match m' with HEATING => if rh then 0 else 1 / 5 | COOLING => if rc then 0 else 1 / 5 | STOP_OPEN => 1 / 10 | _ => 0 end.
  by rewrite /get_v_hum; case: m' {E Z} => //; case: rh; case: rc => //; lra.
rewrite /= -V; split; first by lra.
by split=> //; rewrite /get_h_hum_r; field.
Qed.
End Monotone.
