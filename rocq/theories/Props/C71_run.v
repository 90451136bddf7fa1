From Coq Require Import Reals List ZArith String.
From mathcomp Require Import ssreflect ssrfun ssrbool fintype ssralg matrix.
From Verif Require Import Model.Py Model.RealNumbers Model.PreCalc Model.Infiltration Model.CoreCalc Model.HouseDict Model.ReadHouse Model.Initializer Model.ResponseFactor Model.ShapeFactor Model.Assemble
  Spec.HouseholdSpec Spec.HouseSpec Spec.CompleteSpec Spec.SensibleSpec Spec.AssembleSpec Lemmas.ScheduleL Lemmas.AssembleL Lemmas.CarryL Examples.MakeHouseEx Examples.AssembleEx.
Import GRing.Theory.
Import HouseDict ReadHouse Initializer PreCalc.
Local Open Scope R_scope.

(* C71: from the description of a house to the result. For a complete and sensible description of a house (m: the files
   that are written; h, g: the house as the core reads it; weather: outdoor temperature and humidity of every step), with
   warm air heating or with one room only, the whole calculation ends with a result. round1 rounds to one decimal, inv
   inverts the matrices of the wall responses, f_ver stands for fsolve, x_sat for the saturation humidity; d_main,
   d_run_up and d_build are numbers of days. *)
Theorem C71_runs : forall round1 tbl cal ws d inv f_ver,
  to_nearest_tenth round1 -> (forall room type, complete tbl room type) -> sensible_tables tbl cal -> List.length cal = 365%nat ->
  List.length ws = (24 * 365 * 4)%nat -> sensible_weather ws d -> complete_house d -> sensible_house inv d -> solver_works f_ver d ->
  convective_heating d \/ one_room d ->
  exists m, make_house round1 tbl cal ws d = Ok m /\
  exists h g, core_input f_ver inv m = Ok (h, g) /\
  forall (e0 : R) (x_sat : R -> R) (x0 : R) weather d_main d_run_up d_build s c p,
  List.length weather = (365 * 96)%nat -> m_building m = (s, c, p) ->
  (0 <= d_main <= 365)%Z -> (0 <= d_build <= d_run_up)%Z -> (d_run_up <= 365)%Z ->
  exists data, steps_of _ _ m weather = Ok data /\
  exists infil, (forall theta o, infiltration_residential (F := R_rcfType) c (v_room h) s p theta o = Ok (infil theta o)) /\
  exists cf log, core_calc (F := R_realFieldType) e0 infil x_sat x0 h g data 4 d_main d_run_up d_build = Ok (cf, log).
Proof.
move=> round1 tbl cal ws d inv f_ver N T St Lc Lw W C S V H; have [m [Hm [h [g [Hh [_ [_ [_ R]]]]]]]] := runs N T St Lc Lw W C S V H.
by exists m; split=> //; exists h, g.
Qed.
Print Assumptions C71_runs.

(* The matrices of the core are the ones that are read from the files, entry by entry. *)
Theorem C71_matrices : forall inv cr cb bs h_r ni (h : house R_realFieldType ni (List.length bs) 12),
  read_boundaries inv ni bs = Ok cb -> assemble ni (List.length bs) cr cb bs h_r = Ok h ->
  (forall (i : 'I_ni) (j : 'I_(List.length bs)), nth_error (nth i (cb_p_is_js cb) nil) j = Some (p_is_js h i j)) /\
  (forall j k : 'I_(List.length bs), nth_error (nth j (cb_k_ei cb) nil) k = Some (k_ei_js_js h j k)) /\
  (forall (j : 'I_(List.length bs)) (i : 'I_ni), nth_error (nth j (cb_flr_js_is cb) nil) i = Some (Some (flr_js_is h j i))) /\
  (forall (i : 'I_ni) (j : 'I_(List.length bs)), nth_error (nth i (cb_f_mrt_hum_is_js cb) nil) j = Some (Some (f_mrt_hum_is_js h i j))).
Proof. by move=> inv cr cb bs h_r ni h A B; have [H1 H2 H3 H4] := matrices A B. Qed.
Print Assumptions C71_matrices.

(* The core holds the rooms and boundaries of the files. Radiation coefficients are the ones of C14, responses those of the
   walls described (C30, C55). *)
Theorem C71_carries : forall f_ver inv m h g, core_input f_ver inv m = Ok (h, g) ->
  (forall (i : 'I_(List.length (m_spaces m))) s, nth_error (m_spaces m) i = Some s -> holds_room h s i) /\
  (forall (j : 'I_(List.length (m_boundaries m))) b, nth_error (m_boundaries m) j = Some b ->
     holds_boundary h g b j /\
     (exists f rf f', create_factory (bd_spec b) = Ok f /\ get_response_factors inv f = Ok (rf, f') /\ holds_response h rf j) /\
     PreCalc.h_r h j ord0 = nth j (h_r_js f_ver (List.length (m_spaces m))
       (map (fun b => room_of (List.length (m_spaces m)) (bd_connected_space_id b)) (m_boundaries m)) (map bd_area (m_boundaries m))) 0).
Proof. by move=> f_ver inv m h g H; split; [exact: rooms_held H|exact: boundaries_held H]. Qed.
Print Assumptions C71_carries.

(* Step n of the core holds line n of the files. *)
Theorem C71_steps : forall ni nj m weather data, steps_of ni nj m weather = Ok data ->
  List.length data = List.length weather /\
  forall n w, nth_error weather n = Some w -> exists s, nth_error data n = Some s /\
    holds_step (m_schedules m) (m_q_trs_sol m) (m_theta_o_sol m) n w s.
Proof. exact: steps_held. Qed.
Print Assumptions C71_steps.

(* A hut with floor heating, a window in the roof and an air conditioner for cooling: the theorems apply. *)
Example C71_example : forall inv, complete_house hut /\ sensible_house inv hut /\ solver_works (fun _ => 2) hut /\ sensible_weather ex_weather hut /\
  one_room hut /\ (forall room type, complete cook_tables room type) /\ sensible_tables cook_tables cook_calendar /\
  List.length cook_calendar = 365%nat /\ List.length ex_weather = (24 * 365 * 4)%nat.
Proof.
move=> inv; split; [exact hut_complete|split; [exact (hut_sensible inv)|split; [exact hut_solver|split; [exact hut_weather|]]]].
split; first by exists (ex_room ex_cooling).
by split; [exact cook_complete|split; [exact cook_sensible|split; apply: repeat_length]].
Qed.
