(* heat_load_calc/core/sequence_ground.py 8-26 run_tick, core/conditions.py 60-151 (initial states and
   hand-over) and core/pre_calc_parameters.py 611-620 (selection of the ground boundaries). *)
From mathcomp Require Import all_ssreflect ssralg ssrnum zmodp matrix.
From Verif Require Import Model.OperationMode Model.Numpy Model.PreCalc Model.Tick.
Set Implicit Arguments. Unset Strict Implicit. Unset Printing Implicit Defensive.
Import Order.TTheory GRing.Theory Num.Theory.
Local Open Scope ring_scope.

Section Mask.
Variable F : realFieldType.
Variables (nj m : nat).
Variable mask : pred 'I_nj.

(* a[mask, :] : the rows where mask holds, in their order (enum_val lists them by increasing index) *)
Definition mask_get (a : 'M[F]_(nj, m)) : 'M[F]_(#|mask|, m) := \matrix_(k, l) a (enum_val k) l.

(* a[mask, :] = b : row k of b goes to the k-th row where mask holds *)
Definition mask_set (a : 'M[F]_(nj, m)) (b : 'M[F]_(#|mask|, m)) : 'M[F]_(nj, m) :=
  \matrix_(j, l) (if [pick k | enum_val k == j] is Some k then b k l else a j l).
End Mask.

Section Ground.
Variable F : realFieldType.

(* core/pre_calc_parameters.py class PreCalcParametersGround; theta_o_ave (530) is the mean outdoor
   temperature, theta_o_ns[n] is passed separately *)
Record ground_pp (ng nm : nat) := GroundPP {
  g_r : 'M[F]_(ng, nm);
  g_phi_a0 : 'cV[F]_ng;
  g_phi_a1 : 'M[F]_(ng, nm);
  g_h_r : 'cV[F]_ng;
  g_h_c : 'cV[F]_ng;
  g_theta_ave : F
}.

(* core/conditions.py 60-68 *)
Record ground_conditions (ng nm : nat) := GroundConditions {
  g_dsh : 'M[F]_(ng, nm);
  g_q : 'cV[F]_ng
}.

(* core/sequence_ground.py 8-26; a division by 1 + phi_a0 h_i = 0 is inf/nan in the code and 0 here *)
Definition ground_tick (ng nm : nat) (p : ground_pp ng nm) (theta_o : F) (g : ground_conditions ng nm)
    : ground_conditions ng nm :=
  let h_i := g_h_r p + g_h_c p in                                                 (* 10 *)
  let dsh' := cmul (g_q g) (g_phi_a1 p) + emul (g_r p) (g_dsh g) in               (* 12 *)
  let theta_s : 'cV[F]_ng := \matrix_(j, _)                                       (* 14-16 *)
    ((g_phi_a0 p j 0 * h_i j 0 * theta_o + rowsum dsh' j 0 + g_theta_ave p)
     / (1 + g_phi_a0 p j 0 * h_i j 0)) in
  let q : 'cV[F]_ng := \matrix_(j, _) (h_i j 0 * (theta_o - theta_s j 0)) in      (* 19 *)
  GroundConditions dsh' q.                                                        (* 21-24 *)

(* core/conditions.py 129-142 *)
Definition ground_init (ng nm : nat) : ground_conditions ng nm := GroundConditions 0 0.

Section House.
Variables ni nj nm : nat.
Variable mask : pred 'I_nj.      (* is_ground_js *)

(* core/pre_calc_parameters.py 611-620 *)
Definition make_ground (h : house F ni nj nm) (theta_ave : F) : ground_pp #|mask| nm :=
  GroundPP (mask_get mask (r_ms h)) (mask_get mask (phi_a0 h)) (mask_get mask (phi_a1 h))
    (mask_get mask (h_r h)) (mask_get mask (h_c h)) theta_ave.

(* core/conditions.py 71-126; x0 stands for get_x(get_p_vs(20.0) * 0.4) *)
Definition conditions_init (x0 : F) : conditions F ni nj nm :=
  Conditions (fun _ => STOP_CLOSE) (const_mx 15%:R) (const_mx 15%:R) (const_mx x0) 0 0 0
    (const_mx 15%:R) (const_mx x0) (const_mx 15%:R).

(* core/conditions.py 145-151 *)
Definition hand_over (c : conditions F ni nj nm) (g : ground_conditions #|mask| nm) : conditions F ni nj nm :=
  Conditions (operation_mode c) (theta_r c) (theta_mrt_hum c) (x_r c)
    (mask_set (mask := mask) (theta_dsh_a c) (g_dsh g)) (theta_dsh_t c) (mask_set (mask := mask) (q_srf c) (g_q g))
    (theta_frt c) (x_frt c) (theta_ei c).
End House.
End Ground.
