(* The comfort index as computed, against the equations of the standard. *)
From Coq Require Import Reals Lra String.
From Verif Require Import Model.Py Model.Psychro Model.Iso7730 Spec.IsoSpec Lemmas.PyL Lemmas.PsychroL Lemmas.Iso7730L.
Local Open Scope R_scope.

Lemma iso_f_clE i : get_f_cl i = iso_f_cl i.
Proof. unfold get_f_cl, iso_f_cl; destruct (Rle_dec i (78 / 1000)); lra. Qed.

Lemma iso_h_cE t_a t v h : get_h_c t_a t v = Ok h -> h = iso_h_c t t_a v.
Proof.
unfold get_h_c, math_sqrt, iso_h_c; destruct (Rlt_dec v 0); cbn [bind]; [discriminate|]; intro E; injection E as <-.
destruct (Rlt_dec _ _); unfold Rmax; destruct (Rle_dec _ _); lra.
Qed.

Lemma iso_dryE f h t t_a t_r : radiative_loss f t t_r + convective_loss f h t_a t = iso_dry f h t t_a t_r.
Proof. reflexivity. Qed.

Lemma iso_ppdE v : get_ppd v = iso_ppd v.
Proof. unfold get_ppd, iso_ppd; do 3 f_equal; lra. Qed.

Lemma iso_sweat m w : sweating m w = if Rle_dec (m - w) (5815 / 100) then 0 else 42 / 100 * ((m - w) - 5815 / 100).
Proof. unfold sweating, Rmax; destruct (Rle_dec (m - w) (5815 / 100)), (Rle_dec _ 0); lra. Qed.

Lemma iso_pmvE f h m p_a t_a t t_r w i v : f = iso_f_cl i -> h = iso_h_c t t_a v ->
  get_pmv f h m p_a t_a t t_r w = (iso_pmv m w i v t_a t_r p_a t, iso_ppd (iso_pmv m w i v t_a t_r p_a t)).
Proof.
intros -> ->; unfold get_pmv; rewrite iso_ppdE.
assert (E : m - w - latent_skin m p_a w - sweating m w - latent_breath m p_a - sensible_breath m t_a -
  radiative_loss (iso_f_cl i) t t_r - convective_loss (iso_f_cl i) (iso_h_c t t_a v) t_a t =
  (m - w) - 305 / 100000 * (5733 - 699 / 100 * (m - w) - p_a)
   - (if Rle_dec (m - w) (5815 / 100) then 0 else 42 / 100 * ((m - w) - 5815 / 100))
   - 17 / 1000000 * m * (5867 - p_a) - 14 / 10000 * m * (34 - t_a)
   - iso_dry (iso_f_cl i) (iso_h_c t t_a v) t t_a t_r).
{ rewrite <- iso_dryE, iso_sweat; unfold latent_skin, latent_breath, sensible_breath; ring. }
rewrite E; reflexivity.
Qed.

Lemma iso_standard newton met p_eff t_a t_r clo v rh pmv ppd :
  (forall g t, newton g = Ok t -> g t = Ok 0) -> 0 <= t_a ->
  get_pmv_ppd newton met p_eff t_a t_r clo v rh = Ok (pmv, ppd) ->
  exists p_s t_cl, get_p_vs t_a = Ok p_s /\
    let m := 5815 / 100 * met in let w := 5815 / 100 * p_eff in let i_cl := 155 / 1000 * clo in
    iso_clothing m w i_cl v t_a t_r t_cl /\ pmv = iso_pmv m w i_cl v t_a t_r (rh / 100 * p_s) t_cl /\ ppd = iso_ppd pmv.
Proof.
intros N T H; unfold get_pmv_ppd in H; rewrite (p_a_ok rh t_a) in H by lra; cbn [bind] in H.
destruct (newton _) as [t|] eqn:E in H; cbn [bind] in H; [|discriminate]; apply N in E.
destruct (get_h_c t_a t v) as [h|] eqn:C; cbn [bind] in H; [|discriminate].
unfold get_t_cl in E; rewrite C in E; cbn [bind] in E; injection E as E.
assert (Hh := iso_h_cE _ _ _ _ C).
exists (exp (ea (t_a + 27315 / 100))), t; split; [rewrite (p_vs_above t_a) by lra; destruct (Rle_dec 0 t_a); [reflexivity|lra]|].
unfold convert_clo_to_m2kw, convert_met_to_wm2 in *.
rewrite !(Rmult_comm _ (5815 / 100)), !(Rmult_comm _ (155 / 1000)) in *.
rewrite (iso_pmvE _ _ _ _ _ _ _ _ (155 / 1000 * clo) v (iso_f_clE _) Hh) in H; injection H as <- <-.
cbv zeta; split; [|split; reflexivity].
unfold iso_clothing; rewrite <- Hh, <- iso_f_clE, <- iso_dryE; unfold get_skin_temperature in E; lra.
Qed.
