From Coq Require Import Reals List String Lra.
From Verif Require Import Model.Py Model.BoundaryDict Model.ResponseFactor Spec.WallResponse Lemmas.GaussL Lemmas.ResponseFactorL Lemmas.ResponseFitL.
Import ListNotations.
Local Open Scope R_scope.

(* C30: the response factors of an outer or inner wall add up to 1 (transmission) and to the total resistance
   (absorption), whatever the numbers np.linalg.inv returns; every term shrinks by a ratio strictly between 0 and 1, and
   the unused ones of the 12 terms are zero. *)
Theorem C30_wall : forall inv cs rs r_o rf f', right_size inv -> get_response_factors inv (Envelope cs rs r_o) = Ok (rf, f') ->
  infinite_sum (response_at (rft0 rf) (rft1 rf) (row rf)) 1 /\
  infinite_sum (response_at (rfa0 rf) (rfa1 rf) (row rf)) (add_up rs + r_o) /\
  List.length (rft1 rf) = 12%nat /\ List.length (rfa1 rf) = 12%nat /\ List.length (row rf) = 12%nat /\
  (forall k q, nth_error (row rf) k = Some q -> if (k <? n_root rf)%nat then 0 < q < 1 else q = 0) /\
  (forall k x, (n_root rf <= k)%nat -> nth_error (rft1 rf) k = Some x \/ nth_error (rfa1 rf) k = Some x -> x = 0).
Proof. intros inv cs rs r_o rf f' Rs H; exact (factory_sums inv (Envelope cs rs r_o) rf f' Rs H). Qed.
Print Assumptions C30_wall.

(* Floors on the ground: with 3 m of earth, 3 m2K/W. *)
Theorem C30_ground : forall inv cs rs rf f', right_size inv -> get_response_factors inv (GroundF cs rs) = Ok (rf, f') ->
  infinite_sum (response_at (rft0 rf) (rft1 rf) (row rf)) 1 /\
  infinite_sum (response_at (rfa0 rf) (rfa1 rf) (row rf)) (add_up rs + 3) /\
  List.length (rft1 rf) = 12%nat /\ List.length (rfa1 rf) = 12%nat /\ List.length (row rf) = 12%nat /\
  (forall k q, nth_error (row rf) k = Some q -> if (k <? n_root rf)%nat then 0 < q < 1 else q = 0) /\
  (forall k x, (n_root rf <= k)%nat -> nth_error (rft1 rf) k = Some x \/ nth_error (rfa1 rf) k = Some x -> x = 0).
Proof. intros inv cs rs rf f' Rs H; exact (factory_sums inv (GroundF cs rs) rf f' Rs H). Qed.
Print Assumptions C30_ground.

(* The fit never fails: for every wall with sound layers the matrix of the normal equations can be inverted, no
   division by zero and no square root of a negative number occurs. *)
Theorem C30_completes : forall inv cs rs r_o, inverts inv -> List.length cs = List.length rs -> sound_layers (combine rs cs) -> 0 <= r_o ->
  (exists rf f', get_response_factors inv (Envelope cs rs r_o) = Ok (rf, f')) /\
  (exists rf f', get_response_factors inv (GroundF cs rs) = Ok (rf, f')).
Proof.
intros inv cs rs r_o Iv L Sl Ho; split; [destruct (envelope_ok inv cs rs r_o Iv L Sl Ho) as [rf E]|destruct (ground_ok inv cs rs Iv L Sl) as [rf E]]; eauto.
Qed.
Print Assumptions C30_completes.

(* The coefficients are the unique best fit of the sum of s / (s + alpha_j) to the transfer functions of the wall. *)
Theorem C30_best_fit : forall inv g cs rs a0 b0 at_ aa gs, inverts inv ->
  let alp := get_alpha_m g in let f := map (fun s => map (fun a => s / (s + a)) alp) (get_laps alp) in
  get_step_reps_of_wall inv cs rs (get_laps alp) alp = Ok (a0, b0, at_, aa) -> mapM (get_g rs cs) (get_laps alp) = Ok gs ->
  forall y, List.length y = List.length alp ->
  (misfit f (map snd gs) at_ <= misfit f (map snd gs) y /\ (misfit f (map snd gs) y <= misfit f (map snd gs) at_ -> y = at_)) /\
  (misfit f (map fst gs) aa <= misfit f (map fst gs) y /\ (misfit f (map fst gs) y <= misfit f (map fst gs) aa -> y = aa)).
Proof. exact step_reps_best. Qed.
Print Assumptions C30_best_fit.

(* A wall without heat capacity responds at once, with its resistance. *)
Theorem C30_massless : forall inv g cs rs rf, right_size inv -> List.length rs = List.length cs -> rs <> [] -> (forall c, In c cs -> c = 0) ->
  calc_response_factor inv g cs rs = Ok rf ->
  rft0 rf = 1 /\ rfa0 rf = add_up rs /\ rft1 rf = repeat 0 12 /\ rfa1 rf = repeat 0 12.
Proof. exact calc_massless. Qed.
Print Assumptions C30_massless.

(* Held at a constant excitation theta, the recursion with the terms and ratios of a wall tends to theta times their
   sum, from any start. *)
Theorem C30_steady_state : forall inv cs rs r_o rf f' theta x, right_size inv -> get_response_factors inv (Envelope cs rs r_o) = Ok (rf, f') ->
  List.length x = 12%nat ->
  Un_cv (fun k => rft0 rf * theta + add_up (iterate (rft1 rf) (row rf) theta k x)) theta /\
  Un_cv (fun k => rfa0 rf * theta + add_up (iterate (rfa1 rf) (row rf) theta k x)) ((add_up rs + r_o) * theta).
Proof.
intros inv cs rs r_o rf f' theta x Rs H Lx; destruct (C30_wall _ _ _ _ _ _ Rs H) as [A [B [L1 [L2 [L3 [Q _]]]]]].
assert (X : Un_cv (fun k => rft0 rf * theta + add_up (iterate (rft1 rf) (row rf) theta k x)) (1 * theta)).
{ apply steady_state; try congruence; try assumption; exact (row_range rf Q). }
rewrite Rmult_1_l in X; split; [exact X|]; apply steady_state; try congruence; try assumption; exact (row_range rf Q).
Qed.
Print Assumptions C30_steady_state.

(* Openings: exactly the resistance that is left of 1/U behind the inner surface; no delay. *)
Theorem C30_opening : forall inv u r_i rf f', get_response_factors inv (Steady u r_i) = Ok (rf, f') ->
  rft0 rf = 1 /\ rfa0 rf = 1 / u - r_i /\ u <> 0 /\ 1 / u - r_i <> 0 /\ f' = Steady u r_i /\
  rft1 rf = repeat 0 12 /\ rfa1 rf = repeat 0 12 /\ row rf = repeat 0 12.
Proof. exact opening_ok. Qed.
Print Assumptions C30_opening.

(* Which description of a boundary gives which kind of wall. *)
Theorem C30_create : forall s t m, s_method s = Some m -> m <> "response_factor"%string -> s_boundary_type s = Some t ->
  (t = "external_general_part" \/ t = "internal")%string ->
  forall l r_o, s_layers s = Some l -> s_outside_heat_transfer_resistance s = Some r_o ->
  create_factory s = Ok (Envelope (map thermal_capacity l) (map thermal_resistance l) r_o).
Proof. exact create_envelope. Qed.
Print Assumptions C30_create.

(* 120 mm of concrete and 50 mm of insulation, with an inverse computed by elimination *)
Example C30_example : inverts gauss /\ right_size gauss /\
  exists rf f', get_response_factors gauss (Envelope [240; 1] [75 / 1000; 15 / 10] (4 / 100)) = Ok (rf, f').
Proof.
split; [exact gauss_inverts|split; [exact gauss_size|]].
apply (C30_completes gauss [240; 1] [75 / 1000; 15 / 10] (4 / 100)); [exact gauss_inverts|reflexivity| |lra].
intros r c I; simpl in I; destruct I as [[= <- <-]|[[= <- <-]|[]]]; (split; [lra|split; [lra|left; lra]]).
Qed.
