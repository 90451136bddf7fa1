(* C77: sunlight in a stack of panes *)
From Coq Require Import Reals ZArith List Lra.
From Verif Require Import Model.Py Model.EesHouse Model.Glazing Spec.GlassLight Lemmas.GlazingL.
Import ListNotations.
Local Open Scope R_scope.

(* The results are those of the light that goes back and forth between the panes: each pane lets through and reflects
   its share of the light on both of its sides, one unit comes from outside and none from inside.  The total
   transmittance is what arrives inside, the total reflectance what returns outside, and the absorptance of a pane is
   what it keeps.  No calculation fails. *)
Theorem C77_light : forall ss, (forall p, In p ss -> real_pane p) -> ss <> [] ->
  exists t a, get_total_solar_spec ss = Ok t /\ get_abs_multi_layer ss = Ok a /\ length a = length ss /\
  exists f b, sunlight ss f b /\ tau_f t = f (length ss) /\ rho_f t = b 0%nat /\
  forall j p, nth_error ss j = Some p -> nth_error a j = Some (kept p f b j).
Proof. exact glass_light. Qed.
Print Assumptions C77_light.

(* There is one such light only. *)
Theorem C77_unique : forall ss f b f' b', (forall p, In p ss -> real_pane p) ->
  sunlight ss f b -> sunlight ss f' b' -> forall j, (j <= length ss)%nat -> f j = f' j /\ b j = b' j.
Proof.
intros ss f b f' b' H [L [F B]] [L' [F' B']]; apply light_unique; try assumption; congruence.
Qed.
Print Assumptions C77_unique.

(* Sunlight that falls on the glazing is transmitted, reflected or absorbed in one of the panes, and nothing else. *)
Theorem C77_conserved : forall ss t a, (forall p, In p ss -> real_pane p) ->
  get_total_solar_spec ss = Ok t -> get_abs_multi_layer ss = Ok a ->
  tau_f t + rho_f t + fold_right Rplus 0 a = 1.
Proof. exact glass_conserved. Qed.
Print Assumptions C77_conserved.

(* All shares lie between none and all. *)
Theorem C77_shares : forall ss t a, (forall p, In p ss -> real_pane p) ->
  get_total_solar_spec ss = Ok t -> get_abs_multi_layer ss = Ok a ->
  0 <= tau_f t <= 1 /\ 0 <= rho_f t < 1 /\ 0 <= tau_b t <= 1 /\ 0 <= rho_b t < 1 /\
  forall x, In x a -> 0 <= x <= 1.
Proof. exact glass_range. Qed.
Print Assumptions C77_shares.

(* One more pane on the inside never lets more sun in and never reflects less. *)
Theorem C77_pane_inside : forall ss p t t', (forall q, In q ss -> real_pane q) -> real_pane p ->
  get_total_solar_spec ss = Ok t -> get_total_solar_spec (ss ++ [p]) = Ok t' ->
  tau_f t' <= tau_f t /\ rho_f t <= rho_f t'.
Proof. exact glass_more. Qed.
Print Assumptions C77_pane_inside.

(* Nor does one more pane on the outside let more sun in, if the panes transmit alike both ways (as real glass does). *)
Theorem C77_pane_outside : forall ss p t t', (forall q, In q ss -> real_pane q) -> real_pane p ->
  (forall q, In q (p :: ss) -> tau_f q = tau_b q) ->
  get_total_solar_spec ss = Ok t -> get_total_solar_spec (p :: ss) = Ok t' -> tau_f t' <= tau_f t.
Proof. exact glass_front. Qed.
Print Assumptions C77_pane_outside.

(* The glazing turned round: front and back change places. *)
Theorem C77_turned : forall ss t, (forall q, In q ss -> real_pane q) -> get_total_solar_spec ss = Ok t ->
  get_total_solar_spec (rev (map turn ss)) = Ok (turn t).
Proof. exact glass_turn. Qed.
Print Assumptions C77_turned.

(* A glazing of panes that transmit alike both ways transmits alike both ways. *)
Theorem C77_both_ways : forall ss t, (forall q, In q ss -> real_pane q) -> (forall p, In p ss -> tau_f p = tau_b p) ->
  get_total_solar_spec ss = Ok t -> tau_f t = tau_b t.
Proof. exact glass_same. Qed.
Print Assumptions C77_both_ways.

(* Pane numbers outside the glazing, or in the wrong order, are refused; so is a glazing without panes. *)
Theorem C77_numbers : forall ss i j, (i < 0 \/ j < i \/ Z.of_nat (length ss) <= j)%Z ->
  get_solar_spec_multi_layer ss i j = Err ValueError.
Proof.
intros ss i j H; unfold get_solar_spec_multi_layer.
destruct (Z.ltb_spec i 0); [reflexivity|destruct (Z.ltb_spec j 0); [reflexivity|]].
destruct (Z.ltb_spec j i); [reflexivity|].
destruct (Z.leb_spec (Z.of_nat (length ss)) j); [reflexivity|].
destruct H as [|[]]; exfalso; Lia.lia.
Qed.
Print Assumptions C77_numbers.

Theorem C77_no_pane : get_total_solar_spec [] = Err ValueError.
Proof. reflexivity. Qed.
Print Assumptions C77_no_pane.

(* the double glazing of window.py 56-64: two panes of float glass *)
Definition float3 : pane := {| tau_f := 859 / 1000; tau_b := 859 / 1000; rho_f := 77 / 1000; rho_b := 77 / 1000 |}.
Lemma float3_real : real_pane float3.
Proof. unfold real_pane, float3; cbn [tau_f tau_b rho_f rho_b]; lra. Qed.

Example C77_example : (forall p, In p [float3; float3] -> real_pane p) /\
  exists t, get_total_solar_spec [float3; float3] = Ok t /\ tau_f t = (859 * 859) / (1000 * 1000 - 77 * 77).
Proof.
assert (H : forall p, In p [float3; float3] -> real_pane p) by (intros p [<-|[<-|[]]]; exact float3_real).
split; [exact H|]; exists (join float3 float3); split.
- unfold get_total_solar_spec; simpl length.
  change (get_solar_spec_multi_layer [float3; float3] 0 (Z.of_nat 2 - 1)) with (add_pane float3 float3).
  apply add_pane_ok; exact float3_real.
- unfold join, float3; cbn [tau_f rho_b rho_f]; field.
Qed.

(* two mirrors that reflect everything: the program divides by zero *)
Example C77_mirrors :
  let m := {| tau_f := 0; tau_b := 0; rho_f := 1; rho_b := 1 |} in
  get_total_solar_spec [m; m] = Err ZeroDivisionError.
Proof.
change (add_pane {| tau_f := 0; tau_b := 0; rho_f := 1; rho_b := 1 |} {| tau_f := 0; tau_b := 0; rho_f := 1; rho_b := 1 |} = Err ZeroDivisionError).
unfold add_pane, fdiv; cbn [tau_f tau_b rho_f rho_b].
destruct (Req_EM_T (1 - 1 * 1) 0) as [_|N]; [reflexivity|exfalso; apply N; ring].
Qed.
