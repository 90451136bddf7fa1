(* C28: diffuse radiation through windows *)
From Coq Require Import Reals List String Lra.
From Coquelicot Require Import Coquelicot.
From Verif Require Import Model.Py Model.Trig Model.BoundaryDict Model.Inclined Model.SolarShading Model.Transmission
  Spec.Sky Spec.Sunlight Lemmas.SolarL Lemmas.GlassDiffuseL.
Import ListNotations.
Local Open Scope R_scope.

(* Without direct radiation an unshaded window passes the share eta * c of the radiation it receives, where c is within 0.005
   the mean over the hemisphere of the transmittance for direct radiation from the angle t. *)
Theorem C28_diffuse : forall d n area g eta w q, In (d, n) compass -> i_dn w = 0 -> get_qgt_n d area NotShaded g eta w = Ok (Some q) ->
  exists c tau m, q = eta * c * area * total w n /\ (forall t, get_tau_d_j_n (Some t) g = Ok (Some (tau t))) /\
    is_RInt (fun t => 2 * tau t * cos t * sin t) 0 (PI / 2) m /\ Rabs (c - m) <= 5 / 1000.
Proof. exact overcast. Qed.
Print Assumptions C28_diffuse.

(* a double-glazed window to the south on an overcast day *)
Example C28_diffuse_example : exists n q, In ("s"%string, n) compass /\
  get_qgt_n "s" 2 NotShaded "multiple" (1 / 2)
    {| theta_o := 10; i_dn := 0; i_sky := 200; r_n := 0; h_sun := 1; a_sun := Some 0 |} = Ok (Some q).
Proof.
destruct (qgt_defined "s" 2 NotShaded "multiple" (1 / 2) {| theta_o := 10; i_dn := 0; i_sky := 200; r_n := 0; h_sun := 1; a_sun := Some 0 |} (radians 0) (radians 90))
  as (q & Q).
- reflexivity.
- exact I.
- discriminate.
- right; reflexivity.
- discriminate.
- discriminate.
- eexists; exists q; split; [|exact Q]; unfold compass; simpl; tauto.
Qed.
