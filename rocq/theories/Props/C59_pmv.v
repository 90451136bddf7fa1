(* C59: the comfort index of ISO 7730 is well determined and follows the surroundings *)
From Coq Require Import Reals Lra String List.
From Coquelicot Require Import Coquelicot.
From Verif Require Import Model.Py Model.Psychro Model.Iso7730 Spec.IsoSpec Lemmas.PyL Lemmas.PsychroL Lemmas.Iso7730L Lemmas.IsoL.
Local Open Scope R_scope.

(* The equation solved for the clothing temperature has exactly one solution not below -273 degree C, and it lies between
   the lowest and the highest of skin, air and mean radiant temperature. *)
Theorem C59_clothing_temperature : forall i_cl t_a t_r m w v, 0 <= i_cl -> 0 <= v ->
  - 273 <= t_a -> - 273 <= t_r -> - 273 <= get_skin_temperature m w ->
  exists t, get_t_cl (get_f_cl i_cl) i_cl t_a t v t_r m w = Ok t /\
    Rmin (get_skin_temperature m w) (Rmin t_a t_r) <= t <= Rmax (get_skin_temperature m w) (Rmax t_a t_r) /\
    forall t', - 273 <= t' -> get_t_cl (get_f_cl i_cl) i_cl t_a t' v t_r m w = Ok t' -> t' = t.
Proof.
intros i_cl t_a t_r m w v I V A B C; assert (Fp := f_cl_ge1 i_cl I).
assert (G : 0 <= i_cl * get_f_cl i_cl) by (apply Rmult_le_pos; lra).
destruct (balance_zero _ (121 / 10 * sqrt v) t_a t_r (get_skin_temperature m w) G A B C) as (t & T & Z).
exists t; split; [rewrite (t_cl_ok _ _ _ _ _ _ _ _ V); f_equal; unfold balance in Z; lra|split; [exact T|]].
intros t' T' E; apply (balance_unique (i_cl * get_f_cl i_cl) (121 / 10 * sqrt v) t_a t_r (get_skin_temperature m w) t' t G T'); [|  |exact Z].
- apply Rle_trans with (2 := proj1 T); apply least_ge; assumption.
- rewrite (t_cl_ok _ _ _ _ _ _ _ _ V) in E; injection E as E; unfold balance; lra.
Qed.
Print Assumptions C59_clothing_temperature.

(* Whenever the equation is solved exactly, PMV grows strictly with air temperature, mean radiant temperature and relative humidity. *)
Theorem C59_pmv_increasing : forall newton met p_eff t_a t_r clo v rh t_a' t_r' rh' r r',
  (forall g t, newton g = Ok t -> - 273 <= t /\ g t = Ok 0) -> 0 <= met -> 0 <= clo -> 0 <= v ->
  - 273 <= t_a <= t_a' -> - 273 <= t_r <= t_r' -> 0 <= rh <= rh' ->
  t_a < t_a' \/ t_r < t_r' \/ rh < rh' ->
  get_pmv_ppd newton met p_eff t_a t_r clo v rh = Ok r -> get_pmv_ppd newton met p_eff t_a' t_r' clo v rh' = Ok r' ->
  fst r < fst r'.
Proof. exact pmv_incr. Qed.
Print Assumptions C59_pmv_increasing.

(* PMV and PPD are those of the equations of the standard, for the clothing temperature the solver finds, at 58.15 W/m2 for a met and 0.155 m2K/W for a clo. *)
Theorem C59_standard : forall newton met p_eff t_a t_r clo v rh pmv ppd,
  (forall g t, newton g = Ok t -> g t = Ok 0) -> 0 <= t_a ->
  get_pmv_ppd newton met p_eff t_a t_r clo v rh = Ok (pmv, ppd) ->
  exists p_s t_cl, get_p_vs t_a = Ok p_s /\
    let m := 5815 / 100 * met in let w := 5815 / 100 * p_eff in let i_cl := 155 / 1000 * clo in
    iso_clothing m w i_cl v t_a t_r t_cl /\ pmv = iso_pmv m w i_cl v t_a t_r (rh / 100 * p_s) t_cl /\ ppd = iso_ppd pmv.
Proof. exact iso_standard. Qed.
Print Assumptions C59_standard.

(* Negative air velocities are rejected, whatever the solver does with the exception it meets first. *)
Theorem C59_velocity : forall f_cl i_cl t_a t v t_r m w, v < 0 -> get_t_cl f_cl i_cl t_a t v t_r m w = Err ValueError.
Proof. intros f_cl i_cl t_a t v t_r m w V; unfold get_t_cl; rewrite (h_c_neg t_a t v V); reflexivity. Qed.
Print Assumptions C59_velocity.

(* The second value returned with the saturation pressure is its derivative, over water and over ice. *)
Theorem C59_differential : forall status t p d, 0 < t -> sonntag status t = Ok (p, d) ->
  is_derive (fun u => match sonntag status u with Ok (q, _) => q | Err _ => 0 end) t d.
Proof. exact sonntag_derive. Qed.
Print Assumptions C59_differential.

(* The saturation pressure is that of the psychrometric functions, over water from 0 degree C and over ice below. *)
Theorem C59_same_pressure : forall theta p d, - 27315 / 100 < theta ->
  sonntag (if Rle_dec 0 theta then "water" else "ice") (theta + 27315 / 100) = Ok (p, d) -> get_p_vs theta = Ok p.
Proof.
intros theta p d T E; rewrite (p_vs_above theta T); destruct (Rle_dec 0 theta).
- rewrite (sonntag_ok "water" a_1 a_2 a_3 a_4 a_5) in E; [|left; split; reflexivity|lra]; injection E as <- _; reflexivity.
- rewrite (sonntag_ok "ice" b_1 b_2 b_3 b_4 b_5) in E; [|right; split; reflexivity|lra]; injection E as <- _; reflexivity.
Qed.
Print Assumptions C59_same_pressure.

(* Other media are rejected. *)
Theorem C59_media : forall status t, status <> "water"%string -> status <> "ice"%string -> sonntag status t = Err KeyError.
Proof.
intros s t A B; unfold sonntag; destruct (string_dec s "water"); [contradiction|]; destruct (string_dec s "ice"); [contradiction|reflexivity].
Qed.
Print Assumptions C59_media.

(* The cases at the end of the file: 1.1 met, 0.5 clo, 0.1 m/s, 60 %; 22 degree C against 27 degree C *)
Example C59_example : exists newton r r', (forall g t, newton g = Ok t -> - 273 <= t /\ g t = Ok 0) /\
  get_pmv_ppd newton (11 / 10) 0 22 22 (1 / 2) (1 / 10) 60 = Ok r /\
  get_pmv_ppd newton (11 / 10) 0 27 27 (1 / 2) (1 / 10) 60 = Ok r' /\ fst r < fst r'.
Proof.
assert (I : 0 <= convert_clo_to_m2kw (1 / 2)) by (unfold convert_clo_to_m2kw; lra).
assert (V : 0 <= 1 / 10) by lra.
assert (S : 0 <= get_skin_temperature (convert_met_to_wm2 (11 / 10)) (convert_met_to_wm2 0)) by (unfold get_skin_temperature, convert_met_to_wm2; lra).
destruct (C59_clothing_temperature _ 22 22 (convert_met_to_wm2 (11 / 10)) (convert_met_to_wm2 0) (1 / 10) I V) as (t & E & [L _] & _); [lra|lra|lra|].
destruct (C59_clothing_temperature _ 27 27 (convert_met_to_wm2 (11 / 10)) (convert_met_to_wm2 0) (1 / 10) I V) as (t' & E' & [L' _] & _); [lra|lra|lra|].
assert (T : - 273 <= t) by (apply Rle_trans with (2 := L); apply least_ge; lra).
assert (T' : - 273 <= t') by (apply Rle_trans with (2 := L'); apply least_ge; lra).
set (zero := fun (g : R -> res R) t => match g t with Ok z => if Req_EM_T z 0 then true else false | Err _ => false end).
assert (Z : forall g t, zero g t = true -> g t = Ok 0).
{ intros g u; unfold zero; destruct (g u) as [z|e]; [destruct (Req_EM_T z 0) as [-> |_]; [reflexivity|discriminate]|discriminate]. }
assert (Z' : forall g t, g t = Ok 0 -> zero g t = true) by (intros g u H; unfold zero; rewrite H; destruct (Req_EM_T 0 0); [reflexivity|contradiction]).
pose (newton := fun g => if zero g t then Ok t else if zero g t' then Ok t' else Err OtherError).
assert (N : forall g u, newton g = Ok u -> - 273 <= u /\ g u = Ok 0).
{ intros g u; unfold newton; destruct (zero g t) eqn:A; [intro H; injection H as <-; exact (conj T (Z _ _ A))|].
  destruct (zero g t') eqn:B; [intro H; injection H as <-; exact (conj T' (Z _ _ B))|discriminate]. }
assert (K : forall ta tr u, - 27315 / 100 < ta -> (u = t \/ u = t') ->
  get_t_cl (get_f_cl (convert_clo_to_m2kw (1 / 2))) (convert_clo_to_m2kw (1 / 2)) ta u (1 / 10) tr (convert_met_to_wm2 (11 / 10)) (convert_met_to_wm2 0) = Ok u ->
  exists r, get_pmv_ppd newton (11 / 10) 0 ta tr (1 / 2) (1 / 10) 60 = Ok r).
{ intros ta tr u A O H; unfold get_pmv_ppd; rewrite (p_a_ok 60 ta A); cbn [bind].
  match goal with |- context [newton ?g] => set (gg := g); assert (G : gg u = Ok 0) by (unfold gg; rewrite H; cbn [bind]; f_equal; ring) end.
  assert (M : exists s, newton gg = Ok s).
  { unfold newton; destruct (zero gg t) eqn:B; [eexists; reflexivity|]; destruct (zero gg t') eqn:C; [eexists; reflexivity|].
    apply Z' in G; destruct O as [-> | ->]; congruence. }
  destruct M as (s & ->); cbn [bind]; rewrite (h_c_ok ta s (1 / 10) V); eexists; reflexivity. }
destruct (K 22 22 t ltac:(lra) (or_introl eq_refl) E) as (r & R1); destruct (K 27 27 t' ltac:(lra) (or_intror eq_refl) E') as (r' & R2).
exists newton, r, r'; split; [exact N|split; [exact R1|split; [exact R2|]]].
apply (C59_pmv_increasing newton (11 / 10) 0 22 22 (1 / 2) (1 / 10) 60 27 27 60 r r' N); try lra; assumption.
Qed.
