(* The operation modes and the leakage of the steps of a calculation. *)
From Coq Require Import ZArith Lia String.
From mathcomp Require Import all_ssreflect ssralg ssrnum zmodp matrix.
From Verif Require Import Model.OperationMode Model.Numpy Model.Py Model.PreCalc Model.Tick Model.Step Model.OtTarget Model.CoreStep
  Model.Ground Model.Infiltration Spec.Automaton Spec.Simulation Spec.InfiltrationSpec.
From Verif Require Import Lemmas.TickL Lemmas.StepL Lemmas.StepProps Lemmas.InfiltrationL.
Set Implicit Arguments. Unset Strict Implicit. Unset Printing Implicit Defensive.
Import Order.TTheory GRing.Theory Num.Theory.
Local Open Scope ring_scope.

Section RunMode.
Variable F : realFieldType.
Variables ni nj nm : nat.
Variables (e0 : F) (infil : infil_fun F ni) (x_sat : F -> F) (dt : F) (h : house F ni nj nm).

Lemma step_mode s (c c' : conditions F ni nj nm) o i : core_step e0 infil x_sat dt h s c = Some (c', o) ->
  modes (operation_mode c i) [:: room_situation e0 (ac_demand s i 0) (x_r c i 0) (theta_r c i 0) (theta_mrt_hum c i 0)]
    = Some [:: operation_mode c' i].
Proof.
move=> Hs; have [q [Hq Ht]] := stepP Hs.
case: (run_tickP Ht) => md lo up ? ? v_out ? ? xot kc kr ? ? ? ? ? ? ? ?.
move=> otE -> *; move: otE; rewrite /get_ot_target_and_h_hum; case: ifP => // /forallP A [_ _ <- _ _].
have := A i; rewrite /ot_target_pmv /room_situation /=.
by case: (get_operation_mode _ _ _ _ _).
Qed.

Lemma step_leak s (c c' : conditions F ni nj nm) o : core_step e0 infil x_sat dt h s c = Some (c', o) ->
  o_v_leak o = infil (theta_r c) (theta_o s).
Proof.
move=> Hs; have [q [Hq Ht]] := stepP Hs; case: (run_tickP Ht) => *.
by match goal with E : o_v_leak o = _ |- _ => rewrite E end.
Qed.

Variable data : seq (step_data F ni nj).
Variable is_ground : pred 'I_nj.
Variables (td x0 : F) (n_main n_run_up n_build : Z).
Variables (g : Z -> ground_conditions F #|is_ground| nm) (c : Z -> conditions F ni nj nm)
  (log : seq (option (conditions F ni nj nm * outputs F ni nj))).
Hypothesis sim : simulation data e0 infil x_sat dt h (is_ground := is_ground) td (conditions_init ni nj nm x0) n_main n_run_up n_build g c log.

Lemma run_modes_from i N : forall n, (- n_build <= n)%Z -> (n + Z.of_nat N <= n_main)%Z ->
  exists hist, [/\ size hist = N,
    (forall k s0, (k < N)%N -> exists s, let m := (n + Z.of_nat k)%Z in column data m s /\
      nth s0 hist k = room_situation e0 (ac_demand s i 0) (x_r (c m) i 0) (theta_r (c m) i 0) (theta_mrt_hum (c m) i 0))
    & modes (operation_mode (c n) i) hist = Some [seq operation_mode (c (n + Z.of_nat k.+1)%Z) i | k <- iota 0 N]].
Proof.
elim: N => [|N IH] n n1 n2; first by exists [::].
have n3 : (- n_build <= n < n_main)%Z by lia.
have [s [o [Cs [E _]]]] := sim_c sim n3.
have [||hist [S1 S2 S3]] := IH (n + 1)%Z; [lia|lia|].
exists (room_situation e0 (ac_demand s i 0) (x_r (c n) i 0) (theta_r (c n) i 0) (theta_mrt_hum (c n) i 0) :: hist).
split; first by rewrite /= S1.
  move=> [|k] s0 Hk; first by exists s; rewrite /= Z.add_0_r.
  have [s' /= S'] := S2 k s0 Hk; exists s'; rewrite /=.
  by have -> : (n + Z.pos (Pos.of_succ_nat k) = n + 1 + Z.of_nat k)%Z by lia.
have := step_mode i E; rewrite /=; case: (get_operation_mode _ _ _ _ _) => //= m [->]; rewrite S3 /=.
congr (Some (_ :: _)); rewrite (iotaDl 1 0) -map_comp; apply: eq_map => k /=.
by have -> : (n + 1 + Z.pos (Pos.of_succ_nat k) = n + Z.pos (Pos.succ (Pos.of_succ_nat k)))%Z by lia.
Qed.

Lemma run_modes i : (0 <= n_build)%Z -> (0 <= n_main)%Z -> exists hist, [/\ size hist = Z.to_nat (n_build + n_main),
    (forall k s0, (k < size hist)%N -> exists s, let n := (Z.of_nat k - n_build)%Z in column data n s /\
      nth s0 hist k = room_situation e0 (ac_demand s i 0) (x_r (c n) i 0) (theta_r (c n) i 0) (theta_mrt_hum (c n) i 0))
    & modes STOP_CLOSE hist = Some [seq operation_mode (c (Z.of_nat k.+1 - n_build)%Z) i | k <- iota 0 (size hist)]].
Proof.
move=> b0 m0; have [||hist [S1 S2 S3]] := @run_modes_from i (Z.to_nat (n_build + n_main)) (- n_build)%Z; [lia|lia|].
exists hist; split=> //.
  by move=> k s0; rewrite S1 => Hk; have [s] := S2 k s0 Hk; exists s; rewrite /= -[(_ - _)%Z]/(_ + - _)%Z Z.add_comm.
rewrite (sim_c0 sim) /= in S3; rewrite S3 S1; congr Some; apply: eq_map => k.
by rewrite -[(_ - _)%Z]/(_ + - _)%Z Z.add_comm.
Qed.
End RunMode.

Lemma step_leakage (F : rcfType) (ni nj nm : nat) (e0 : F) (infil : infil_fun F ni) (x_sat : F -> F) (dt : F) (h : house F ni nj nm)
    (s : step_data F ni nj) (cn cn' : conditions F ni nj nm) (o : outputs F ni nj) (c : F) (v : 'cV[F]_ni) (st : Z) (p : string) :
  (forall theta t, infiltration_residential c v st p theta t = Ok (infil theta t)) ->
  core_step e0 infil x_sat dt h s cn = Some (cn', o) ->
  exists a b : F, table st p a b /\ forall i,
    o_v_leak o i 0 = Num.max (a * c * Num.sqrt `|difference v (theta_r cn) (theta_o s)| - b) 0 * v i 0 / 3600%:R.
Proof. by move=> fE Hs; rewrite (step_leak Hs); exact: infil_value. Qed.
