From Coq Require Import ZArith List Lia.
From mathcomp Require Import all_ssreflect ssralg ssrnum zmodp matrix.
From Verif Require Import Model.PreCalc Model.Tick Model.Ground Model.Py Model.CoreLoop Model.CoreCalc Spec.Simulation Spec.GroundSpec.
From Verif Require Import Lemmas.GroundL Lemmas.CoreLoopL Lemmas.CoreCalcL Examples.House2 Examples.House2Ex Examples.RunEx.
Set Implicit Arguments. Unset Strict Implicit. Unset Printing Implicit Defensive.
Import Order.TTheory GRing.Theory Num.Theory.
Local Open Scope ring_scope.

(* C16: for every set of ground boundaries, the hand-over gives each ground boundary what the ground steps
   computed from its own data, and changes nothing else. *)
Theorem C16_hand_over : forall (F : realFieldType) (ni nj nm : nat) (h : house F ni nj nm) (is_ground : pred 'I_nj)
    (td : F) (tos : seq F) (c : conditions F ni nj nm),
  let c' := hand_over c (foldl (fun g to => ground_tick (make_ground is_ground h td) to g)
                           (ground_init F #|is_ground| nm) tos) in
  (forall j, is_ground j -> (row j (theta_dsh_a c'), q_srf c' j 0) = advances (house_ground h j) td tos (0, 0)) /\
  (forall j, ~~ is_ground j -> (forall m, theta_dsh_a c' j m = theta_dsh_a c j m) /\ q_srf c' j 0 = q_srf c j 0) /\
  [/\ operation_mode c' = operation_mode c, theta_r c' = theta_r c, theta_mrt_hum c' = theta_mrt_hum c & x_r c' = x_r c] /\
  [/\ theta_dsh_t c' = theta_dsh_t c, theta_frt c' = theta_frt c, x_frt c' = x_frt c & theta_ei c' = theta_ei c].
Proof.
move=> F ni nj nm h is_ground td tos c c'; split; first by move=> j gj; exact: hand_over_in.
by split=> // j gj; split=> [m|]; exact: mask_set_out.
Qed.
Print Assumptions C16_hand_over.

(* The same for a calculation: the building part starts from the initial state with exactly the ground
   boundaries replaced by the result of the ground steps under the outdoor temperatures of their time. *)
Theorem C16_calculation : forall (F : realFieldType) (ni nj nm : nat) (e0 : F) (infil : infil_fun F ni) (x_sat : F -> F)
    (x0 : F) (h : house F ni nj nm) (is_ground : pred 'I_nj) (data : seq (step_data F ni nj))
    (hourly d_main d_run_up d_build : Z) (cf : conditions F ni nj nm) (log : seq (option (conditions F ni nj nm * outputs F ni nj))),
  (0 < hourly)%Z -> (0 <= d_main)%Z -> (0 <= d_build)%Z -> (d_build <= d_run_up)%Z ->
  core_calc e0 infil x_sat x0 h is_ground data hourly d_main d_run_up d_build = Ok (cf, log) ->
  let n_main := (d_main * hourly * 24)%Z in
  let n_run_up := (d_run_up * hourly * 24)%Z in
  let n_build := (d_build * hourly * 24)%Z in
  exists sec td g c, [/\ sec * (Z.to_nat hourly)%:R = 3600%:R, td * (size data)%:R = \sum_(s <- data) theta_o s &
    simulation data e0 infil x_sat sec h td (conditions_init ni nj nm x0)
      n_main n_run_up n_build (is_ground := is_ground) g c log] /\
    exists tos, [/\ size tos = Z.to_nat (n_run_up - n_build),
      (forall i, (i < size tos)%N -> exists s, List.nth_error tos i = Some (theta_o s) /\ column data (Z.of_nat i - n_run_up) s),
      (forall j, is_ground j -> (row j (theta_dsh_a (c (- n_build)%Z)), q_srf (c (- n_build)%Z) j 0)
         = advances (house_ground h j) td tos (0, 0)) &
      (forall j, ~~ is_ground j -> (forall m, theta_dsh_a (c (- n_build)%Z) j m = 0) /\ q_srf (c (- n_build)%Z) j 0 = 0)].
Proof.
move=> F ni nj nm e0 infil x_sat x0 h is_ground data hourly d_main d_run_up d_build cf log h0 m0 b0 bu E n_main n_run_up n_build.
have [sec [td [g [c [T1 T2 S _]]]]] := core_calc_spelt h0 m0 b0 bu E; exists sec, td, g, c; split=> //.
have [|ss [s1 s2 s3]] := simulation_ground _ S; first by nia.
have [H1 [H2 _]] := C16_hand_over h is_ground td (map (@theta_o F ni nj) ss) (conditions_init ni nj nm x0).
exists (map (@theta_o F ni nj) ss); rewrite size_map; split=> //.
- move=> i ik; have [s [e cs]] := s2 i ik; exists s; split=> //.
  by rewrite -[map _ _]/(List.map _ _) List.nth_error_map e.
- by move=> j gj; rewrite s3; exact: H1.
by move=> j gj; rewrite s3; have [a b] := H2 j gj; split=> [m|]; rewrite ?a ?b mxE.
Qed.
Print Assumptions C16_calculation.

Example C16_example (F : realFieldType) (x0 : F) : (exists cf log,
  core_calc (1 / 8%:R) (@infil2 F) (@x_sat2 F) x0 (hv F) ground2 (day2 F) 4 1 1 1 = Ok (cf, log))
  /\ ground2 0 /\ ~~ ground2 1.
Proof. by split; [exact: hv_calc_ex | split]. Qed.
