From Coq Require Import Reals List ZArith Lra Lia.
From Verif Require Import Model.Py Model.BoundaryDict Model.BoundarySimple Model.HouseDict Model.Schedule Model.Initializer Spec.HouseSpec Spec.CompleteSpec
  Lemmas.ScheduleL Lemmas.SolarSumL Lemmas.SolarHouseL Examples.MakeHouseEx.
Import ListNotations.
Local Open Scope R_scope.

(* C56: at every step, the sun transmitted into all rooms is the sun transmitted by all boundaries, if every boundary
   belongs to a room of the house *)
Theorem C56_conserved_partial : forall round1 tbl cal ws d m rooms bds bss, make_house round1 tbl cal ws d = Ok m ->
  h_rooms d = Some rooms -> h_boundaries d = Some bds -> mapM (get_boundary_simple ws) bds = Ok bss ->
  (forall bs, In bs bss -> (0 <= bs_connected_room_id bs < Z.of_nat (length rooms))%Z) ->
  forall t x, sum_at t (m_q_trs_sol m) x <-> sum_at t (map bs_q_trs_sol bss) x.
Proof. exact solar_conserved. Qed.
Print Assumptions C56_conserved_partial.

(* each room gets the sun of its own boundaries *)
Theorem C56_each_room : forall round1 tbl cal ws d m rooms bds bss i row, make_house round1 tbl cal ws d = Ok m ->
  h_rooms d = Some rooms -> h_boundaries d = Some bds -> mapM (get_boundary_simple ws) bds = Ok bss ->
  nth_error (m_q_trs_sol m) i = Some row ->
  forall t x, nth t row None = Some x <-> sum_at t (map bs_q_trs_sol (parts (Z.of_nat i) bss)) x.
Proof. exact solar_of_room. Qed.
Print Assumptions C56_each_room.

(* the sun through a window of a room that does not exist is lost without an error *)
Theorem C56_lost_refuted : exists tbl cal ws d, forall round1, exists m bds bss,
  make_house round1 tbl cal ws d = Ok m /\ h_boundaries d = Some bds /\ mapM (get_boundary_simple ws) bds = Ok bss /\
  sum_at 0 (map bs_q_trs_sol bss) 90 /\ sum_at 0 (m_q_trs_sol m) 0.
Proof. exact solar_lost. Qed.
Print Assumptions C56_lost_refuted.

(* a house with one window, through which 90 W come at the first step *)
Example C56_example : exists tbl cal ws d, forall round1, exists m bds bss,
  make_house round1 tbl cal ws d = Ok m /\ h_boundaries d = Some bds /\ mapM (get_boundary_simple ws) bds = Ok bss /\
  sum_at 0 (map bs_q_trs_sol bss) 90 /\ sum_at 0 (m_q_trs_sol m) 90.
Proof. exact solar_kept. Qed.
