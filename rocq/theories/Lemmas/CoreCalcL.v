From Coq Require Import ZArith Lia.
From mathcomp Require Import all_ssreflect ssralg ssrnum zmodp matrix.
From Verif Require Import Model.OperationMode Model.Numpy Model.PreCalc Model.Tick Model.Step Model.OtTarget
  Model.CoreStep Model.Ground Model.Dec Model.Py Model.CoreLoop Model.CoreCalc.
From Verif Require Import Spec.Physical Spec.Run Spec.Simulation.
From Verif Require Import Lemmas.CoreLoopL Lemmas.TickTotal Lemmas.StepProps Lemmas.CoreStepL.
From Verif Require Import Model.Dec Lemmas.DecL.
Set Implicit Arguments. Unset Strict Implicit. Unset Printing Implicit Defensive.
Import Order.TTheory GRing.Theory Num.Theory.
Local Open Scope ring_scope.

Lemma py_get_mod A (l : seq A) n a : py_get l n = Ok a ->
  List.nth_error l (Z.to_nat (n mod Z.of_nat (size l))%Z) = Some a.
Proof.
rewrite /py_get /py_index -/(size l); set N := Z.of_nat (size l).
have N0 : (0 <= N)%Z by exact: Nat2Z.is_nonneg.
have fin k : bind (Ok k) (fun k => of_option IndexError (List.nth_error l k)) = Ok a -> List.nth_error l k = Some a.
  by rewrite /=; case: List.nth_error => //= b [->].
case: ifP => [/andP[/Z.leb_le h0 /Z.ltb_lt h1]|_]; first by rewrite Z.mod_small //; exact: fin.
case: ifP => [/andP[/Z.leb_le h0 /Z.ltb_lt h1]|_] //.
have -> : (n mod N)%Z = (n + N)%Z; last exact: fin.
have E : (n + N = n + 1 * N)%Z by lia.
rewrite -(Z.mod_small (n + N) N); last by lia.
by rewrite E Z_mod_plus_full.
Qed.

Lemma py_get_ok A (l : seq A) n : (- Z.of_nat (size l) <= n < Z.of_nat (size l))%Z -> exists a, py_get l n = Ok a /\ List.In a l.
Proof.
rewrite /py_get /py_index -/(size l) => H.
have nt k : (k < size l)%coq_nat -> exists a, List.nth_error l k = Some a /\ List.In a l.
  move=> hk; case E : (List.nth_error l k) => [a|]; first by exists a; split=> //; exact: List.nth_error_In E.
  move: E => /List.nth_error_None E; exfalso; apply: (Nat.lt_irrefl k); exact: Nat.lt_le_trans hk E.
case: (Z.leb_spec 0 n) => [h0|h0] /=.
  case: (Z.ltb_spec n (Z.of_nat (size l))) => [h1|h1] /=; last by lia.
  by have [|a [E I]] := nt (Z.to_nat n); [lia | rewrite E; exists a].
case: (Z.leb_spec (- Z.of_nat (size l)) n) => [h1|h1] /=; last by lia.
case: (Z.ltb_spec n 0) => [h2|h2] /=; last by lia.
by have [|a [E I]] := nt (Z.to_nat (n + Z.of_nat (size l))); [lia | rewrite E; exists a].
Qed.

Section CoreCalcL.
Variable F : realFieldType.
Variables ni nj nm : nat.
Variables (e0 : F) (infil : infil_fun F ni) (x_sat : F -> F) (x0 : F).
Variable h : house F ni nj nm.
Variable is_ground : pred 'I_nj.
Variable data : seq (step_data F ni nj).
Variables hourly d_main d_run_up d_build : Z.
Hypothesis h0 : (0 < hourly)%Z.
Hypothesis m0 : (0 <= d_main)%Z.
Hypothesis b0 : (0 <= d_build)%Z.
Hypothesis bu : (d_build <= d_run_up)%Z.
Local Notation dt := (delta_t F hourly).
Local Notation cc := (core_calc e0 infil x_sat x0 h is_ground data).

Lemma core_calc_run cf log : cc hourly d_main d_run_up d_build = Ok (cf, log) ->
  exists g c, simulation data e0 infil x_sat dt h (theta_o_ave data) (conditions_init ni nj nm x0)
    (d_main * hourly * 24) (d_run_up * hourly * 24) (d_build * hourly * 24) (is_ground := is_ground) g c log
    /\ cf = c (d_main * hourly * 24)%Z.
Proof.
move=> H; have [q [g [c [o [Hm [[r1 r2 r3 r4] [E [L1 L2]]]]]]]] := calc_run _ _ _ _ _ _ _ _ _ _ _ _ _ _ h0 m0 b0 bu _ _ H.
have Hq : make_pp h dt = Some q by case E' : (make_pp h dt) Hm => [q'|] //= [->].
exists g, c; split=> //; split=> //.
- move=> n Hn; have := r2 n Hn; case Es : (py_get data n) => [s|] //= [<-].
  by exists s; split=> //; exact: py_get_mod.
- move=> n Hn; have [x [Hx Ho]] := r4 n Hn; move: Hx; case Es : (py_get data n) => [s|] //=.
  case Et : (run_tick _ _ _ _ _ _ _ _) => [[c' o']|] //= [ec ex]; exists s, o'.
  split; first exact: py_get_mod.
  split; first by rewrite /core_step (stepI Hq Et) ec.
  by move=> n0; rewrite L2; [rewrite Ho -ex ec | lia].
Qed.

(* with the step length and the deep ground temperature spelt out *)
Lemma theta_o_aveE : theta_o_ave data * (size data)%:R = \sum_(s <- data) theta_o s.
Proof.
rewrite /theta_o_ave; case: (data) => [|s l]; first by rewrite big_nil !mul0r.
by rewrite divfK // pnatr_eq0.
Qed.

Lemma delta_tE : dt * (Z.to_nat hourly)%:R = 3600%:R.
Proof.
move: h0; case: (hourly) => [|p|p] // _; rewrite /delta_t /z2f p2fE divfK // pnatr_eq0 -lt0n; apply/ssrnat.ltP; exact: Pos2Nat.is_pos.
Qed.

Lemma core_calc_spelt cf log : cc hourly d_main d_run_up d_build = Ok (cf, log) ->
  exists sec td g c, [/\ sec * (Z.to_nat hourly)%:R = 3600%:R, td * (size data)%:R = \sum_(s <- data) theta_o s,
    simulation data e0 infil x_sat sec h td (conditions_init ni nj nm x0)
      (d_main * hourly * 24) (d_run_up * hourly * 24) (d_build * hourly * 24) (is_ground := is_ground) g c log
    & cf = c (d_main * hourly * 24)%Z].
Proof.
move=> H; have [g [c [Hs E]]] := core_calc_run H; exists dt, (theta_o_ave data), g, c; split=> //;
  [exact: delta_tE|exact: theta_o_aveE].
Qed.

(* the whole calculation completes *)
Section Total.
Hypothesis ch : forall i, 0 <= cap_h h i 0.
Hypothesis cc0 : forall i, 0 <= cap_c h i 0.
Hypothesis Hb : physical_boundaries h.
Hypothesis Hr : physical_rooms dt h.
Hypothesis Ha : forall s, List.In s data -> physical_air h s.
Hypothesis Hh : physical_hum h.
Hypothesis i0 : forall tr to i, 0 <= infil tr to i 0.
Hypothesis rad : forall s, List.In s data -> (forall i, is_rad_h h i || is_rad_c h i -> ac_demand s i 0 <= 0) \/
  [/\ physical_radiant h, (forall i k, i != k -> v_int h i k = 0) & exists i, forall k, k != i -> ac_demand s k 0 <= 0].
Hypothesis len_main : (d_main * hourly * 24 <= Z.of_nat (size data))%Z.
Hypothesis len_run_up : (d_run_up * hourly * 24 <= Z.of_nat (size data))%Z.

Definition legal (c : conditions F ni nj nm) := forall i, operation_mode c i <> HEATING_AND_COOLING.

Lemma tick_ok q n c : make_pp h dt = Some q -> legal c ->
  (- Z.of_nat (size data) <= n < Z.of_nat (size data))%Z -> exists c' x,
  bind (py_get data n) (fun s => bind (of_option OtherError
    (run_tick (get_ot_target_and_h_hum e0 (ni := ni)) infil x_sat dt h q s c)) (fun '(c', o) => Ok (c', (c', o))))
  = Ok (c', x) /\ legal c'.
Proof.
move=> Hq lc Hn; have [s [-> Is]] := py_get_ok Hn; rewrite /=.
have [c' [o [Hs l]]] := step_completes e0 x_sat ch cc0 Hb Hr (Ha Is) Hh i0 (fun i _ => lc i) (rad Is).
have [q' [Hq' Ht]] := stepP Hs; rewrite Hq in Hq'; case: Hq' Ht => <- ->.
by exists c', (c', o).
Qed.

Lemma core_calc_total : exists cf log, cc hourly d_main d_run_up d_build = Ok (cf, log).
Proof.
have nm0 : (0 <= d_main * hourly * 24)%Z by nia.
have nb0 : (0 <= d_build * hourly * 24)%Z by nia.
have nr0 : (d_build * hourly * 24 <= d_run_up * hourly * 24)%Z by nia.
have [q Hq] := make_pp_total dt Hb.
have [||g0|n c Hn lc|cf [log [E _]]] := @calc_total (pp F ni nj) (ground_conditions F #|is_ground| nm)
  (conditions F ni nj nm) (conditions F ni nj nm * outputs F ni nj)
  (fun _ => of_option LinAlgError (make_pp h dt))
    (fun _ => ground_init F #|is_ground| nm)
    (fun _ n g => bind (py_get data n) (fun s =>
       Ok (ground_tick (make_ground is_ground h (theta_o_ave data)) (theta_o s) g)))
    (fun _ => conditions_init ni nj nm x0)
    (fun _ c g => hand_over c g)
    (fun q n c => bind (py_get data n) (fun s =>
       bind (of_option OtherError
         (run_tick (get_ot_target_and_h_hum e0 (ni := ni)) infil x_sat dt h q s c))
         (fun '(c', o) => Ok (c', (c', o))))) _ _ _ _ h0 m0 b0 bu q legal.
- by rewrite Hq.
- move=> n g Hn; have [|s [Es _]] := @py_get_ok _ data n; first by lia.
  by rewrite Es; eexists.
- by move=> i.
- by apply: tick_ok => //; lia.
- by exists cf, log.
Qed.
End Total.
End CoreCalcL.

Section GroundRun.
Variable F : realFieldType.
Variables ni nj nm : nat.
Variable data : seq (step_data F ni nj).
Variables (e0 : F) (infil : infil_fun F ni) (x_sat : F -> F) (dt : F) (h : house F ni nj nm).
Variable is_ground : pred 'I_nj.
Variables (td : F) (c0 : conditions F ni nj nm).

Lemma ground_fold (g : Z -> ground_conditions F #|is_ground| nm) a (k : nat) :
  (forall n, (a <= n < a + Z.of_nat k)%Z -> exists s, column data n s /\
    g (n + 1)%Z = ground_tick (make_ground is_ground h td) (theta_o s) (g n)) ->
  exists ss, [/\ size ss = k,
    (forall i, (i < k)%N -> exists s, List.nth_error ss i = Some s /\ column data (a + Z.of_nat i) s) &
    g (a + Z.of_nat k)%Z = foldl (fun g to => ground_tick (make_ground is_ground h td) to g) (g a) (map (@theta_o F ni nj) ss)].
Proof.
elim: k => [|k IH] H; first by exists [::]; split=> //=; rewrite Z.add_0_r.
have [|ss [s1 s2 s3]] := IH; first by move=> n Hn; apply: H; lia.
have [|s [cs gs]] := H (a + Z.of_nat k)%Z; first by lia.
have s1' : List.length ss = k by exact: s1.
exists (rcons ss s); split.
- by rewrite size_rcons s1.
- move=> i; rewrite ltnS leq_eqVlt => /orP[/eqP ->|ik].
    exists s; split=> //; rewrite -cats1 List.nth_error_app2; last by rewrite s1'.
    by rewrite s1' Nat.sub_diag.
  have [s' [e c]] := s2 i ik; exists s'; split=> //; rewrite -cats1 List.nth_error_app1 //.
  by rewrite s1'; apply/ssrnat.ltP.
by rewrite map_rcons foldl_rcons -s3 -gs; congr (g _); lia.
Qed.

Lemma simulation_ground n_main n_run_up n_build g c log :
  (n_build <= n_run_up)%Z ->
  simulation data e0 infil x_sat dt h td c0 n_main n_run_up n_build (is_ground := is_ground) g c log ->
  exists ss, [/\ size ss = Z.to_nat (n_run_up - n_build),
    (forall i, (i < size ss)%N -> exists s, List.nth_error ss i = Some s /\ column data (Z.of_nat i - n_run_up) s) &
    c (- n_build)%Z = hand_over c0 (foldl (fun g to => ground_tick (make_ground is_ground h td) to g)
                        (ground_init F #|is_ground| nm) (map (@theta_o F ni nj) ss))].
Proof.
move=> le [g1 g2 c1 _ _].
have [|ss [s1 s2 s3]] := @ground_fold g (- n_run_up)%Z (Z.to_nat (n_run_up - n_build)).
  by move=> n Hn; apply: g2; lia.
exists ss; split=> //.
  rewrite s1 => i ik; have [s [e cs]] := s2 i ik; exists s; split=> //.
  by have -> : (Z.of_nat i - n_run_up = - n_run_up + Z.of_nat i)%Z by lia.
rewrite c1; congr (hand_over _ _); rewrite -g1 -s3; congr (g _); lia.
Qed.
End GroundRun.
