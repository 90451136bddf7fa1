(* What the core holds of a room, a boundary and a step of the files it reads *)
From Coq Require Import Reals ZArith List String.
From mathcomp Require Import all_ssreflect ssralg ssrnum zmodp matrix.
From Verif Require Import Model.Py Model.RealNumbers Model.PreCalc.
From Verif Require Model.HouseDict Model.ResponseFactor Model.Schedule.
Set Implicit Arguments. Unset Strict Implicit. Unset Printing Implicit Defensive.
Import HouseDict.
Local Open Scope ring_scope.

Section Carry.
Variables ni nj nm : nat.
Variable h : house R_realFieldType ni nj nm.

(* room i of the core is the room of the file *)
Record holds_room (s : space) (i : 'I_ni) : Prop := {
  hr_volume : v_room h i 0 = sp_volume s;
  hr_beta : PreCalc.beta h i 0 = sp_beta s;
  hr_vent : v_vent_ex h i 0 = sp_mechanical s;
  hr_paths : forall (k : 'I_ni) x, nth_error (sp_next_spaces s) k = Some x -> v_int h i k = x;
  hr_natural : v_ntrl h i 0 = sp_natural s;
  hr_furniture : c_sh h i 0 = sp_heat_capacity s /\ g_sh h i 0 = sp_heat_cond s /\ c_lh h i 0 = sp_moisture_capacity s /\ g_lh h i 0 = sp_moisture_cond s;
  hr_heating : is_rad_h h i = ro_installed (o_radiative (sp_heating s));
  hr_heating_cap : if is_rad_h h i then ro_max_capacity (o_radiative (sp_heating s)) = Some (cap_h h i 0) else cap_h h i 0 = R0;
  hr_cooling : is_rad_c h i = ro_installed (o_radiative (sp_cooling s));
  hr_coil : let c := o_convective (sp_cooling s) in
    co_q_min c = Some (q_min h i 0) /\ co_q_max c = Some (q_max h i 0) /\ co_v_min c = Some (v_min h i 0) /\ co_v_max c = Some (v_max h i 0)
}.

(* boundary j of the core is the boundary of the file; ground tells whether the core takes it for a boundary to the ground *)
Record holds_boundary (ground : 'I_nj -> bool) (b : bdry) (j : 'I_nj) : Prop := {
  hb_ground : bd_is_ground b = (if ground j then "true" else "false")%string;
  hb_room : (0 <= bd_connected_space_id b)%Z -> Z.of_nat (conn h j) = bd_connected_space_id b;
  hb_area : a_srf h j 0 = bd_area b;
  hb_h_c : h_c h j 0 = bd_h_c b;
  hb_floor : bd_flr b = Some (flr h j 0);
  hb_sun : bd_is_solar_absorbed b = (if is_solar_abs h j then "True" else "False")%string;
  hb_occupants : bd_f_mrt_hum b = Some (f_mrt_hum h j 0);
  hb_outside : k_eo h j 0 = bd_k_outside b;
  hb_rear : forall k c, (0 <= k < Z.of_nat nj)%Z -> bd_k_inside b = Some (k, c) -> exists o, k_ei h j = Some (o, c) /\ Z.of_nat (nat_of_ord o) = k;
  hb_no_rear : bd_k_inside b = None -> k_ei h j = None
}.

(* the wall behind boundary j responds as rf *)
Definition holds_response (rf : ResponseFactor.response) (j : 'I_nj) : Prop :=
  phi_a0 h j 0 = ResponseFactor.rfa0 rf /\ phi_t0 h j 0 = ResponseFactor.rft0 rf /\
  forall (m : 'I_nm) x,
    (nth_error (ResponseFactor.rfa1 rf) m = Some x -> phi_a1 h j m = x) /\
    (nth_error (ResponseFactor.rft1 rf) m = Some x -> phi_t1 h j m = x) /\
    (nth_error (ResponseFactor.row rf) m = Some x -> r_ms h j m = x).
End Carry.

(* x is value n of row i *)
Definition at_step {A} (rows : list (list A)) (n i : nat) (x : A) : Prop := exists row, nth_error rows i = Some row /\ nth_error row n = Some x.

(* step n of the core holds the schedules, the solar gains and the outdoor temperatures of step n of the files *)
Record holds_step ni nj (sch : Schedule.compiled) (q th : list (list (option R))) (n : nat) (weather : R * R)
    (s : step_data R_realFieldType ni nj) : Prop := {
  hs_theta_o : theta_o s = weather.1;
  hs_x_o : x_o s = weather.2;
  hs_vent : forall (i : 'I_ni) x, at_step (Schedule.v_local sch) n i x -> v_mec_local s i 0 = x;
  hs_heat : forall (i : 'I_ni) x, at_step (Schedule.q_gen sch) n i x -> PreCalc.q_gen s i 0 = x;
  hs_vapour : forall (i : 'I_ni) x, at_step (Schedule.x_gen sch) n i x -> PreCalc.x_gen s i 0 = x;
  hs_people : forall (i : 'I_ni) x, at_step (Schedule.n_people sch) n i x -> n_hum s i 0 = x;
  hs_demand : forall (i : 'I_ni) x, at_step (Schedule.demand sch) n i x -> ac_demand s i 0 = x;
  hs_sun : forall i : 'I_ni, (i < List.length q)%coq_nat -> at_step q n i (Some (q_trs_sol s i 0));
  hs_outside : forall j : 'I_nj, (j < List.length th)%coq_nat -> at_step th n j (Some (theta_o_sol s j 0))
}.
