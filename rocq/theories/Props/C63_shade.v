From Coq Require Import Reals ZArith List Lra.
From Verif Require Import Model.Py Model.FactorNu Model.FactorF Model.EesHouse Model.CheckUa Model.Lv3 Spec.EnvelopeSpec Spec.ShadeSpec
  Lemmas.ShadeL Examples.EnvelopeEx.
Import ListNotations.
Local Open Scope R_scope.

(* C63: the factor of a window under an overhang lies between 0.05 and 0.72 in the heating period and between 0.16 and 0.93 in the cooling period *)
Theorem C63_factor : forall depth d_h d_e region s d, season_of region s -> compass d -> 0 < depth -> 0 <= d_h -> 0 <= d_e ->
  exists f, get_f (TrSimple depth d_h d_e) region s d = Ok f /\
    match s with Heating => 5 / 100 <= f <= 72 / 100 | Cooling => 16 / 100 <= f <= 93 / 100 end.
Proof. exact face_range. Qed.
Print Assumptions C63_factor.

(* deeper shades over lower windows: UA stays, no eta_A grows, and every house that could be checked still can be *)
Theorem C63_deeper : forall region gps ws ws' ds eps ecs ua eta_h eta_c, Forall2 deeper ws ws' -> Forall window_data ws ->
  0 < envelope_total_area gps ws ds ecs ->
  check_u_a_and_eta_a region gps ws ds eps ecs = Ok (ua, eta_h, eta_c) ->
  exists eta_h' eta_c', check_u_a_and_eta_a region gps ws' ds eps ecs = Ok (ua, eta_h', eta_c') /\ eta_c' <= eta_c /\
    match eta_h, eta_h' with None, None => True | Some a, Some b => b <= a | _, _ => False end.
Proof. exact shaded_check. Qed.
Print Assumptions C63_deeper.

(* The share of the sun on a face: all of it from above, none from below, and least on the north face; in the heating period most
   on the south face. *)
Theorem C63_faces : forall region s d x, get_nu d region s = Ok x ->
  0 <= x <= 1023 / 1000 /\ (d = DTop -> x = 1) /\ (d = DBottom -> x = 0) /\
  (compass d -> (exists n, get_nu DN region s = Ok n /\ n <= x) /\
    (s = Heating -> exists m, get_nu DS region s = Ok m /\ x <= m)).
Proof. exact nu_faces. Qed.
Print Assumptions C63_faces.

(* a shade 1 m deep instead of 50 cm *)
Definition ex_under (depth : R) : window := {| w_ns := {| w_env := w_env (w_ns ex_window); w_shade := TrSimple depth 1 (1 / 2) |}; w_spec := w_spec ex_window |}.
Example C63_example : Forall2 deeper [ex_under (1 / 2)] [ex_under 1] /\ Forall window_data [ex_under (1 / 2)] /\
  0 < envelope_total_area (ps_gps ex_upper) [ex_under (1 / 2)] (ps_ds ex_upper) (ps_ecs ex_upper) /\
  exists ua eta_h eta_c, check_u_a_and_eta_a 6 (ps_gps ex_upper) [ex_under (1 / 2)] (ps_ds ex_upper) (ps_eps ex_upper) (ps_ecs ex_upper) = Ok (ua, eta_h, eta_c).
Proof.
split; [constructor; [split; [reflexivity|split; [reflexivity|right; exists (1 / 2), 1, (1 / 2), 1, 1, (1 / 2); repeat split; lra]]|constructor]|].
split; [constructor; [split; [unfold w_area; simpl; lra|split; simpl; lra]|constructor]|].
split; [unfold envelope_total_area, gp_area, w_area, d_area; simpl; lra|].
assert (K : forall s, exists m, w_m 6 s (ex_under (1 / 2)) = Ok m).
{ intros []; unfold w_m, w_f; simpl; unfold f_simple; destruct (Req_EM_T (1 / 2) 0); [lra| |lra|]; simpl; eexists; reflexivity. }
destruct (K Heating) as (mh & MH), (K Cooling) as (mc & MC); unfold check_u_a_and_eta_a, envelope_total_area, total_q, total_m, sumM, ex_upper; simpl; unfold fdiv, gp_area, w_area, d_area; simpl.
destruct (Req_EM_T (50 + (10 + (2 + 0))) 0); [lra|]; rewrite MH, MC; simpl; do 3 eexists; reflexivity.
Qed.
