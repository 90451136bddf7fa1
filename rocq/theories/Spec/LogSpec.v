(* What the digest should say, in terms of the detailed values *)
From Coq Require Import Reals ZArith List String.
From Verif Require Import Model.Py Model.OperationMode Model.Log.
Import ListNotations.
Local Open Scope R_scope.

(* a, b, c, e are the values of the four quarters of hour h *)
Definition quarter_values {A} (l : list A) (h : nat) (a b c e : A) : Prop :=
  nth_error l (4 * h) = Some a /\ nth_error l (4 * h + 1) = Some b /\ nth_error l (4 * h + 2) = Some c /\ nth_error l (4 * h + 3) = Some e.

(* the nearest number with d decimals, within half a unit of the last one *)
Definition rounded (d : nat) (x y : R) : Prop := (exists k : Z, y = IZR k / 10 ^ d) /\ Rabs (y - x) <= / 10 ^ d / 2.

(* row h of a digest column is the mean (the sum) of the four values of the hour, rounded *)
Definition shows_mean (d : nat) (l : list R) (col : list (option R)) (h : nat) : Prop :=
  forall a b c e, quarter_values l h a b c e -> exists y, nth_error col h = Some (Some y) /\ rounded d ((a + b + c + e) / 4) y.
Definition shows_sum (d : nat) (l : list R) (col : list (option R)) (h : nat) : Prop :=
  forall a b c e, quarter_values l h a b c e -> exists y, nth_error col h = Some (Some y) /\ rounded d (a + b + c + e) y.

(* the numeric columns of a room *)
Definition room_quantities (r : room_log) : list (string * list R) :=
  [("_occupancy", lg_ac_demand r); ("_hc_hum", lg_h_hum_c r); ("_hr_hum", lg_h_hum_r r); ("_t_r", lg_theta_r r); ("_rh_r", lg_rh r);
   ("_x_r", lg_x_r r); ("_mrt", lg_theta_mrt_hum r); ("_ot", lg_theta_ot r); ("_q_sol_t", lg_q_trs_sol r); ("_q_s_except_hum", lg_q_gen r);
   ("_q_l_except_hum", lg_x_gen r); ("_q_hum_s", lg_q_hum r); ("_q_hum_l", lg_x_hum r); ("_l_s_c", lg_l_cs r); ("_l_s_r", lg_l_rs r);
   ("_l_l_c", lg_l_cl r); ("_t_fun", lg_theta_frt r); ("_q_s_fun", lg_q_frt r); ("_q_s_sol_fun", lg_q_sol_frt r); ("_x_fun", lg_x_frt r);
   ("_q_l_fun", lg_q_l_frt r); ("_v_reak", lg_v_reak r); ("_v_ntrl", lg_v_ntrl r)]%string.

(* the columns of a boundary *)
Definition bdry_quantities (b : bdry_log) : list (string * list R) :=
  [("_t_s", bl_theta_s b); ("_t_e", bl_theta_ei b); ("_t_b", bl_theta_rear b); ("_hir_s", bl_h_r_s b); ("_qir_s", bl_qr b);
   ("_hic_s", bl_h_c_s b); ("_qic_s", bl_qc b); ("_qisol_s", bl_qisol_s b); ("_qiall_s", bl_qiall_s b)]%string.

(* every series of the logger covers n steps, and every boundary knows all rooms *)
Definition covers (n : nat) (lg : logger) : Prop :=
  (n <= List.length (lg_theta_o lg))%nat /\ (n <= List.length (lg_x_o lg))%nat /\
  (forall r, In r (lg_rooms lg) -> (n <= List.length (lg_operation_mode r))%nat /\ (n <= List.length (lg_space_remarks r))%nat /\
     forall k l, In (k, l) (room_quantities r) -> (n <= List.length l)%nat) /\
  (forall b, In b (lg_bdries lg) -> (List.length (lg_rooms lg) <= List.length (bl_p b))%nat /\
     forall k l, In (k, l) (bdry_quantities b) -> (n <= List.length l)%nat).

(* boundary b belongs to room i *)
Definition belongs (i : nat) (b : bdry_log) : bool :=
  match nth_error (bl_p b) i with Some x => if Req_EM_T x 1 then true else false | None => false end.

(* a numeric digest column with one row per hour *)
Definition digest_shows (ds : list (string * digest_column)) (key : string) (hours : nat) (row : list (option R) -> nat -> Prop) : Prop :=
  exists col, In (key, DNum col) ds /\ List.length col = hours /\ forall h, (h < hours)%nat -> row col h.
