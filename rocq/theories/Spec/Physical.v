(* Specification: what "physically meaningful input" means for the properties about a time step. *)
From mathcomp Require Import all_ssreflect ssralg ssrnum zmodp matrix.
From Verif Require Import Model.OperationMode Model.Numpy Model.PreCalc.
Set Implicit Arguments. Unset Strict Implicit. Unset Printing Implicit Defensive.
Import Order.TTheory GRing.Theory Num.Theory.
Local Open Scope ring_scope.

Section Physical.
Variable F : realFieldType.
Variables ni nj nm : nat.

(* Boundaries: every boundary faces an existing room, has positive area and positive heat transfer
   coefficients; its initial response factors are non-negative, and the weight it gives to the other
   side of the boundary through the building is at most one. *)
Record physical_boundaries (h : house F ni nj nm) : Prop := {
  ph_conn : forall j, (conn h j < ni)%N;
  ph_area : forall j, 0 < a_srf h j 0;
  ph_hc : forall j, 0 < h_c h j 0;
  ph_hr : forall j, 0 < h_r h j 0;
  ph_phi_a0 : forall j, 0 <= phi_a0 h j 0;
  ph_phi_t0 : forall j, 0 <= phi_t0 h j 0;
  ph_k : forall j k coef, k_ei h j = Some (k, coef) -> 0 <= coef /\ phi_t0 h j 0 * coef <= 1
}.

(* Rooms: positive volume, furniture with positive capacities, air exchange between rooms that
   replaces less than one room volume per time step, cooling data of an ordinary air conditioner. *)
Record physical_rooms (dt : F) (h : house F ni nj nm) : Prop := {
  ph_dt : 0 < dt;
  ph_room : forall i, 0 < v_room h i 0;
  ph_c_sh : forall i, 0 < c_sh h i 0;
  ph_g_sh : forall i, 0 <= g_sh h i 0;
  ph_c_lh : forall i, 0 < c_lh h i 0;
  ph_g_lh : forall i, 0 <= g_lh h i 0;
  ph_v_int : forall i k, 0 <= v_int h i k;
  ph_v_int_sum : forall i, \sum_k v_int h i k < v_room h i 0 / dt;
  ph_q : forall i, 0 <= q_min h i 0 < q_max h i 0;
  ph_v : forall i, 0 <= v_min h i 0 <= v_max h i 0;
  ph_qv : forall i, q_min h i 0 * (v_max h i 0 - v_min h i 0)
                    <= v_min h i 0 * (q_max h i 0 - q_min h i 0)
}.

(* The weights of the surfaces around the occupant are non-negative and at most one in total. *)
Record physical_hum (h : house F ni nj nm) : Prop := {
  ph_fh : forall j, 0 <= f_mrt_hum h j 0;
  ph_fh_sum : forall i : 'I_ni, \sum_(j | conn h j == i) f_mrt_hum h j 0 <= 1
}.

(* Radiant equipment: not all its heat is convective, it heats (or cools) surfaces with non-negative
   shares, and in every room at least one surface that responds to heat gets a share. *)
Record physical_radiant (h : house F ni nj nm) : Prop := {
  ph_beta : forall i, 0 <= beta h i 0 < 1;
  ph_flr : forall j, 0 <= flr h j 0;
  ph_flr_ex : forall i : 'I_ni, exists j, [/\ conn h j = i :> nat, 0 < flr h j 0 & 0 < phi_a0 h j 0]
}.

(* Air change with outside is never negative. *)
Definition physical_air (h : house F ni nj nm) (s : step_data F ni nj) : Prop :=
  forall i, 0 <= v_vent_ex h i 0 + v_mec_local s i 0 /\ 0 <= v_ntrl h i 0.

End Physical.
