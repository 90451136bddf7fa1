(* C78: heat through glazing, and the part of the sun it absorbs that comes in *)
From Coq Require Import Reals ZArith List Lia Lra.
From Verif Require Import Model.Py Model.EesHouse Model.Glazing Model.GlassBalance Spec.GlassLight Spec.GlassHeat Spec.GlassResist.
From Verif Require Import Lemmas.GlazingL Lemmas.GlassFlowL Lemmas.GlassUL Lemmas.GlassExactL Lemmas.GlassRangeL.
Import ListNotations.
Local Open Scope R_scope.

(* A glazing has a U value: the inverse of the sum of its resistances, all of which are positive. *)
Theorem C78_u_value : forall g, real_glass g -> exists reg u,
  get_r_fixed g = Ok reg /\ length reg = (2 * S (length (g_more g)) + 1)%nat /\ (forall x, In x reg -> 0 < x) /\
  get_heat_transmittance g = Ok u /\ 0 < u /\ u * total reg = 1.
Proof.
intros g G; destruct (r_fixed_ok g G) as [reg [E [P L]]]; destruct (u_ok g G) as [reg' [E' [_ [S U]]]].
rewrite E in E'; injection E' as <-.
exists reg, (1 / py_sum reg); repeat split; try assumption; [apply inv_pos, S|].
change (1 / py_sum reg * py_sum reg = 1); field; lra.
Qed.
Print Assumptions C78_u_value.

(* The resistances are those of the standard: surface, pane, gap, pane, ..., surface; with fixed temperatures every gap
   is at 283 K with a difference of 15 K. *)
Theorem C78_resistances : forall g, real_glass g -> exists reg e e', get_r_fixed g = Ok reg /\
  has_eps (gl_sff (g_first g)) e /\ has_eps (gl_sfb (last (panes g) (g_first g))) e' /\
  resistances g (outside JIS_R3107 e 0 0) (inside JIS_R3107 e' 0 0) (fun _ => 283) (fun _ => 15) reg.
Proof. exact fixed_exact. Qed.
Print Assumptions C78_resistances.

(* With calculated temperatures every gap is at the temperatures of the two surfaces it touches.  The emissivity on the
   inside is that of the outermost surface with JIS_A2103, see C78_inside_refuted. *)
Theorem C78_resistances_calc : forall g m te ti theta, real_glass g -> -40 <= te <= 60 -> -40 <= ti <= 60 ->
  (forall x, In x theta -> -40 <= x <= 60) ->
  exists (reg : list R) (e e' : R), get_r_calc g m te ti theta = Ok reg /\ has_eps (gl_sff (g_first g)) e /\
  has_eps (match m with JIS_R3107 => gl_sfb (last (panes g) (g_first g)) | JIS_A2103 _ => gl_sff (g_first g) end) e' /\
  resistances g (outside m e (hd 0 theta) te) (inside m e' (last theta 0) ti) (mean_of theta) (drop_of theta) reg.
Proof. exact calc_exact. Qed.
Print Assumptions C78_resistances_calc.

(* The temperatures of the surfaces at which the heat flows balance: the heat that enters the room is the U value times
   the temperature difference plus the share of the absorbed sun that the program computes from the resistances; what
   does not come in goes out.  With resistances at 10 degrees ('fixed') and with resistances at the temperatures found,
   as long as these lie between -40 and 60 degrees. *)
Theorem C78_heat_in : forall g calc te ti ia theta reg, real_glass g ->
  (calc <> None -> -40 <= te <= 60 /\ -40 <= ti <= 60 /\ forall x, In x theta -> -40 <= x <= 60) ->
  balanced g calc te ti ia theta reg ->
  heat_in theta reg ti = 1 / total reg * (te - ti) + get_r_qin ia reg /\
  heat_in theta reg ti + heat_out theta reg te = total ia.
Proof.
intros g calc te ti ia theta reg G M [LT [LI [R H]]].
assert (X : positive reg /\ length reg = (2 * S (length (g_more g)) + 1)%nat).
{ destruct calc as [m|].
  - destruct (M ltac:(discriminate)) as [A [B C]]; destruct (r_calc_all g m te ti theta G A B C) as [reg' [E P]].
    rewrite R in E; injection E as <-; exact P.
  - destruct (r_fixed_ok g G) as [reg' [E P]]; rewrite R in E; injection E as <-; exact P. }
destruct X as [P L]; split.
- apply (balance_in reg ia theta te ti (S (length (g_more g)))); try assumption; lia.
- apply (balance_all reg ia theta te ti (S (length (g_more g)))); try assumption; lia.
Qed.
Print Assumptions C78_heat_in.

(* No surface is then colder than the colder of the two sides, and without sun none is warmer than the warmer one. *)
Theorem C78_temperatures : forall g calc te ti ia theta reg, real_glass g ->
  (calc <> None -> -40 <= te <= 60 /\ -40 <= ti <= 60 /\ forall x, In x theta -> -40 <= x <= 60) ->
  balanced g calc te ti ia theta reg ->
  ((forall x, In x ia -> 0 <= x) -> forall x, In x theta -> Rmin te ti <= x) /\
  ((forall x, In x ia -> x = 0) -> forall x, In x theta -> x <= Rmax te ti).
Proof.
intros g calc te ti ia theta reg G M [LT [LI [R H]]].
assert (X : positive reg /\ length reg = (2 * S (length (g_more g)) + 1)%nat).
{ destruct calc as [m|].
  - destruct (M ltac:(discriminate)) as [A [B C]]; destruct (r_calc_all g m te ti theta G A B C) as [reg' [E P]].
    rewrite R in E; injection E as <-; exact P.
  - destruct (r_fixed_ok g G) as [reg' [E P]]; rewrite R in E; injection E as <-; exact P. }
destruct X as [P L]; split; intro Q.
- apply (theta_low reg ia theta te ti (S (length (g_more g)))); try assumption; lia.
- apply (theta_high reg ia theta te ti (S (length (g_more g)))); try assumption; lia.
Qed.
Print Assumptions C78_temperatures.

(* There are such temperatures, and only one set of them, when the resistances are fixed. *)
Theorem C78_balance : forall g te ti ia, real_glass g -> length ia = S (length (g_more g)) ->
  exists reg theta, balanced g None te ti ia theta reg /\
  forall reg' theta', balanced g None te ti ia theta' reg' -> theta' = theta.
Proof.
intros g te ti ia G L; destruct (r_fixed_ok g G) as [reg [E [P LR]]].
destruct (root_exists reg ia te ti (S (length (g_more g))) ltac:(lia) LR P) as [theta [LT H]].
exists reg, theta; split; [repeat split; assumption|].
intros reg' theta' [LT' [_ [E' H']]]; rewrite E in E'; injection E' as <-.
apply (root_unique reg ia theta' theta te ti (S (length (g_more g)))); try assumption; lia.
Qed.
Print Assumptions C78_balance.

(* Between none and all of the absorbed sun comes in. *)
Theorem C78_share : forall ia reg n, length ia = n -> length reg = (2 * n + 1)%nat -> (forall x, In x reg -> 0 < x) ->
  (forall x, In x ia -> 0 <= x) -> 0 <= get_r_qin ia reg <= total ia.
Proof. exact qin_range. Qed.
Print Assumptions C78_share.

(* The solar heat gain coefficient lies between the transmittance and what is not reflected, whatever the strength of
   the sun. *)
Theorem C78_shgc : forall ss t abs reg i_solar, (forall p, In p ss -> real_pane p) ->
  get_total_solar_spec ss = Ok t -> get_abs_multi_layer ss = Ok abs ->
  length reg = (2 * length ss + 1)%nat -> (forall x, In x reg -> 0 < x) -> 0 < i_solar ->
  tau_f t <= shgc (tau_f t) abs reg i_solar <= 1 - rho_f t /\
  forall i', 0 < i' -> shgc (tau_f t) abs reg i' = shgc (tau_f t) abs reg i_solar.
Proof.
intros ss t abs reg i H T A L P I.
assert (C := glass_conserved ss t abs H T A).
destruct (glass_range ss t abs H T A) as [_ [_ [_ [_ RA]]]].
assert (LA : length abs = length ss).
{ rewrite abs_ok in A by exact H; injection A as <-; rewrite map_length, seq_length; reflexivity. }
assert (Q := qin_range abs reg (length ss) LA L P (fun x X => proj1 (RA x X))).
assert (E : forall k, 0 < k -> shgc (tau_f t) abs reg k = get_r_qin abs reg + tau_f t).
{ intros k K; unfold shgc; rewrite qin_scale; field; lra. }
split; [rewrite E by exact I; change (total abs) with (py_sum abs) in Q; lra|].
intros i' I'; rewrite !E by assumption; reflexivity.
Qed.
Print Assumptions C78_shgc.

(* Sun on a window, light and heat together: what comes in, as light and as heat, is the solar heat gain coefficient times
   the sun plus the heat flow without sun at these resistances; and all sun is accounted for as light reflected, light let
   through, heat to the room and heat to outside. *)
Theorem C78_sun : forall ss t abs g calc te ti theta reg i_solar, (forall p, In p ss -> real_pane p) ->
  get_total_solar_spec ss = Ok t -> get_abs_multi_layer ss = Ok abs -> real_glass g ->
  (calc <> None -> -40 <= te <= 60 /\ -40 <= ti <= 60 /\ forall x, In x theta -> -40 <= x <= 60) ->
  0 < i_solar -> balanced g calc te ti (map (fun a => a * i_solar) abs) theta reg ->
  tau_f t * i_solar + heat_in theta reg ti = shgc (tau_f t) abs reg i_solar * i_solar + (te - ti) / total reg /\
  rho_f t * i_solar + tau_f t * i_solar + heat_in theta reg ti + heat_out theta reg te = i_solar.
Proof.
intros ss t abs g calc te ti theta reg i H T A G M I B.
destruct (C78_heat_in g calc te ti _ theta reg G M B) as [E1 E2]; split.
- rewrite E1; unfold shgc; field; split; [|lra].
  assert (X : exists r, match calc with None => get_r_fixed g | Some m => get_r_calc g m te ti theta end = Ok r /\ 0 < py_sum r).
  { destruct calc as [m|].
    - destruct (M ltac:(discriminate)) as [Ma [Mb Mc]]; destruct (r_calc_all g m te ti theta G Ma Mb Mc) as [r [R [P L]]].
      exists r; split; [exact R|apply positive_sum; [exact P|intros ->; simpl in L; lia]].
    - destruct (r_fixed_ok g G) as [r [R [P L]]]; exists r; split; [exact R|apply positive_sum; [exact P|intros ->; simpl in L; lia]]. }
  destruct X as [r [R P]]; destruct B as [_ [_ [R' _]]]; rewrite R in R'; injection R' as <-; change (total r) with (py_sum r); lra.
- assert (C := glass_conserved ss t abs H T A).
  assert (S : total (map (fun a => a * i) abs) = py_sum abs * i).
  { clear; unfold total, py_sum; induction abs as [|a l IH]; simpl; [ring|]; rewrite IH; ring. }
  rewrite S in E2; assert (Y : py_sum abs = 1 - tau_f t - rho_f t) by lra; rewrite Y in E2; lra.
Qed.
Print Assumptions C78_sun.

(* A coating that emits less, or a thicker pane, never raises the U value. *)
Theorem C78_coating : forall g h u u', real_glass g -> real_glass h -> better_coated g h ->
  get_heat_transmittance g = Ok u -> get_heat_transmittance h = Ok u' -> u' <= u.
Proof. exact u_coated. Qed.
Print Assumptions C78_coating.

(* One more gap and pane on the inside lowers the U value, if the innermost surface is of the same kind as before. *)
Theorem C78_more_panes : forall g al gl u u', real_glass g -> real_gap al -> real_layer gl -> gl_sfb gl = gl_sfb (g_last g) ->
  get_heat_transmittance g = Ok u ->
  get_heat_transmittance {| g_first := g_first g; g_more := g_more g ++ [(al, gl)] |} = Ok u' -> u' < u.
Proof. exact u_more. Qed.
Print Assumptions C78_more_panes.

(* The corrected emissivity exists exactly for vertical emissivities from 0.03 to below 0.89, lies between 0 and that of
   bare glass, and rises with the vertical emissivity. *)
Theorem C78_emissivity : forall a,
  ((exists e, eps (LowE a) = Ok e) <-> 3 / 100 <= a < 89 / 100) /\
  (forall e, eps (LowE a) = Ok e -> 0 < e < 837 / 1000) /\
  (forall b e e', a < b -> eps (LowE a) = Ok e -> eps (LowE b) = Ok e' -> e < e').
Proof.
intro a; split; [split|split].
- intros [e E]; exact (eps_only _ _ E).
- intro H; apply (eps_total (LowE a)), H.
- intros e E; split; [apply (eps_range _ _ E)|apply (eps_coating _ _ E)].
- intros b e e' L; apply eps_mono, L.
Qed.
Print Assumptions C78_emissivity.

(* At the points of the table of the standard it is the vertical emissivity times the factor there. *)
Theorem C78_emissivity_table : forall x y,
  In (x, y) [(3 / 100, 122 / 100); (5 / 100, 118 / 100); (10 / 100, 114 / 100); (20 / 100, 110 / 100); (30 / 100, 106 / 100);
    (40 / 100, 103 / 100); (50 / 100, 100 / 100); (60 / 100, 98 / 100); (70 / 100, 96 / 100); (80 / 100, 95 / 100)] ->
  eps (LowE x) = Ok (x * y).
Proof.
intros x y H; cbn [In] in H.
repeat (destruct H as [H|H]; [injection H as <- <-; unfold eps, correction_table; cbn [correction];
  repeat (destruct (Rlt_dec _ _); try (exfalso; lra)); cbn [bind]; apply f_equal; field; lra|]); contradiction.
Qed.
Print Assumptions C78_emissivity_table.

(* Warmer gas is thinner, more viscous and conducts better, at every temperature, and so across the points of the table;
   the property of a mixture lies between those of its parts. *)
Theorem C78_gas : forall t t' g, t < t' ->
  gas_rho t' g < gas_rho t g /\ gas_mu t g < gas_mu t' g /\ gas_lambda t g < gas_lambda t' g.
Proof. exact gas_trend. Qed.
Print Assumptions C78_gas.

Theorem C78_table : forall v1 v2 v3 v4, interpolate (-10) v1 v2 v3 v4 = v1 /\ interpolate 0 v1 v2 v3 v4 = v2 /\
  interpolate 10 v1 v2 v3 v4 = v3 /\ interpolate 20 v1 v2 v3 v4 = v4.
Proof. exact interpolate_nodes. Qed.
Print Assumptions C78_table.

Theorem C78_mixture : forall m f lo hi, 0 <= c_air m -> 0 <= c_argon m -> 0 <= c_sf6 m -> 0 <= c_krypton m ->
  make_mix m = Ok m -> (forall g, lo <= f g <= hi) -> lo <= mixed m f <= hi.
Proof.
intros m f lo hi A B C D M; apply mixed_between; repeat split; try assumption.
unfold make_mix in M; destruct (Req_EM_T _ 100) as [E|]; [exact E|discriminate].
Qed.
Print Assumptions C78_mixture.

(* Gas in motion never insulates better than gas at rest. *)
Theorem C78_gap : forall l delta t, real_gap l -> -40 <= t - 27315 / 100 <= 60 ->
  exists h, get_h_g l delta t = Ok h /\ mixed (al_air l) (gas_lambda (t - 27315 / 100)) / al_s l <= h /\ 0 < h.
Proof. exact h_g_ok. Qed.
Print Assumptions C78_gap.

(* How much better follows the law of convection of the standard; a greater temperature difference never lowers it. *)
Theorem C78_convection : forall l delta t h, real_gap l -> -40 <= t - 27315 / 100 <= 60 -> get_h_g l delta t = Ok h ->
  gas_gap l delta t h /\ forall delta' h', Rabs delta <= Rabs delta' -> get_h_g l delta' t = Ok h' -> h <= h'.
Proof.
intros l delta t h G M H; split; [exact (h_g_exact l delta t h G M H)|].
intros delta' h' D H'; exact (h_g_up l delta delta' t h h' G M D H H').
Qed.
Print Assumptions C78_convection.

(* The fill gases conduct less than air, in the order argon, sulphur hexafluoride, krypton; their values at 10 degrees. *)
Theorem C78_fill : forall t, -40 <= t <= 60 ->
  gas_lambda t KRYPTON < gas_lambda t SF6 < gas_lambda t ARGON /\ gas_lambda t ARGON < gas_lambda t AIR.
Proof. exact lambda_order. Qed.
Print Assumptions C78_fill.

Theorem C78_at_10 : forall g,
  gas_rho 10 g = match g with AIR => 1232 / 1000 | ARGON => 1699 / 1000 | SF6 => 6360 / 1000 | KRYPTON => 3560 / 1000 end /\
  gas_mu 10 g * 10 ^ 8 = match g with AIR => 1761 | ARGON => 2164 | SF6 => 1459 | KRYPTON => 2400 end /\
  gas_lambda 10 g * 10 ^ 5 = match g with AIR => 2496 | ARGON => 1684 | SF6 => 1275 | KRYPTON => 900 end /\
  gas_c g = match g with AIR => 1008 | ARGON => 519 | SF6 => 614 | KRYPTON => 245 end.
Proof.
assert (I := fun a b c d => proj1 (proj2 (proj2 (interpolate_nodes a b c d)))).
intros []; unfold gas_rho, gas_mu, gas_lambda, gas_c; rewrite !I; repeat split; lra.
Qed.
Print Assumptions C78_at_10.

(* As many gaps as panes less one, or the glazing is refused. *)
Theorem C78_counts : forall gls als,
  (exists g, make_glass gls als = Ok g) <-> length gls = S (length als).
Proof.
intros [|g rest] als; cbn [make_glass length]; split.
- intros [x X]; discriminate.
- discriminate.
- intros [x X]; destruct (Nat.eqb_spec (length rest) (length als)) as [E|]; [congruence|discriminate].
- intro E; destruct (Nat.eqb_spec (length rest) (length als)) as [|N]; [eauto|exfalso; apply N; congruence].
Qed.
Print Assumptions C78_counts.

(* ---- a house window: two panes of 3 mm, 6 mm of air (window.py 52-77) ---- *)
Definition pane3 : glass_layer :=
  {| gl_units := [{| gu_d := 3 / 1000; gu_lmd := 1 |}]; gl_sff := NonLowE; gl_sfb := NonLowE |}.
Definition gap6 : air_layer :=
  {| al_air := {| c_air := 100; c_argon := 0; c_sf6 := 0; c_krypton := 0 |}; al_direction := VERTICAL; al_s := 6 / 1000 |}.
Definition double3 : glass := {| g_first := pane3; g_more := [(gap6, pane3)] |}.
(* the inner pane with a coating towards the gap *)
Definition pane3e : glass_layer :=
  {| gl_units := [{| gu_d := 3 / 1000; gu_lmd := 1 |}]; gl_sff := LowE (5 / 100); gl_sfb := NonLowE |}.
Definition double3e : glass := {| g_first := pane3; g_more := [(gap6, pane3e)] |}.

Lemma pane3_real : real_layer pane3.
Proof.
split; [discriminate|split; [|split; exact I]]; intros u [<-|[]]; cbn [gu_d gu_lmd]; lra.
Qed.
Lemma pane3e_real : real_layer pane3e.
Proof.
split; [discriminate|split; [|split; [cbn; lra|exact I]]]; intros u [<-|[]]; cbn [gu_d gu_lmd]; lra.
Qed.
Lemma gap6_real : real_gap gap6.
Proof. unfold real_gap, gap6; cbn; lra. Qed.

Example C78_example : real_glass double3 /\ real_glass double3e /\ better_coated double3 double3e /\
  make_glass [pane3; pane3] [gap6] = Ok double3.
Proof.
split; [|split; [|split]].
- split; [exact pane3_real|]; intros al gl [E|[]]; injection E as <- <-; split; [exact gap6_real|exact pane3_real].
- split; [exact pane3_real|]; intros al gl [E|[]]; injection E as <- <-; split; [exact gap6_real|exact pane3e_real].
- assert (S : forall s e e', has_eps s e -> has_eps s e' -> e' <= e).
  { unfold has_eps; intros s e e' H H'; rewrite H in H'; injection H' as <-; lra. }
  split; [split; [right; reflexivity|split; apply S]|].
  constructor; [|constructor]; split; [reflexivity|]; split; [right; reflexivity|split; [|apply S]].
  intros e e' H H'; cbn in H; injection H as <-; left; exact (eps_coating _ _ H').
- reflexivity.
Qed.

(* the two theorems on U values are not empty: the double glazing, its coated version and one pane *)
Example C78_example_u : exists u u' u1,
  get_heat_transmittance double3 = Ok u /\ get_heat_transmittance double3e = Ok u' /\
  get_heat_transmittance {| g_first := pane3; g_more := [] |} = Ok u1 /\ u' <= u < u1.
Proof.
destruct C78_example as [G [H [B _]]].
assert (G1 : real_glass {| g_first := pane3; g_more := [] |}) by (split; [exact pane3_real|intros al gl []]).
destruct (C78_u_value _ G) as [_ [u [_ [_ [_ [U _]]]]]], (C78_u_value _ H) as [_ [u' [_ [_ [_ [U' _]]]]]],
  (C78_u_value _ G1) as [_ [u1 [_ [_ [_ [U1 _]]]]]].
exists u, u', u1; repeat split; try assumption; [exact (C78_coating _ _ _ _ G H B U U')|].
exact (C78_more_panes _ gap6 pane3 u1 u G1 gap6_real pane3_real eq_refl U1 U).
Qed.

(* the double glazing of window.py with 300 W/m2 of sun, 0 degrees outside and 20 inside *)
Definition clear3 : pane := {| tau_f := 859 / 1000; tau_b := 859 / 1000; rho_f := 77 / 1000; rho_b := 77 / 1000 |}.
Example C78_example_sun : exists t abs theta reg, (forall p, In p [clear3; clear3] -> real_pane p) /\
  get_total_solar_spec [clear3; clear3] = Ok t /\ get_abs_multi_layer [clear3; clear3] = Ok abs /\ real_glass double3 /\
  balanced double3 None 0 20 (map (fun a => a * 300) abs) theta reg /\
  tau_f t * 300 + heat_in theta reg 20 = shgc (tau_f t) abs reg 300 * 300 + (0 - 20) / total reg.
Proof.
assert (H : forall p, In p [clear3; clear3] -> real_pane p).
{ intros p [<-|[<-|[]]]; unfold real_pane, clear3; cbn [tau_f tau_b rho_f rho_b]; lra. }
destruct (glass_light [clear3; clear3] H ltac:(discriminate)) as (t & abs & T & A & L & _).
destruct C78_example as [G _].
destruct (C78_balance double3 0 20 (map (fun a => a * 300) abs) G) as (reg & theta & B & _); [rewrite map_length; exact L|].
exists t, abs, theta, reg; repeat (split; [assumption|]).
exact (proj1 (C78_sun _ t abs double3 None 0 20 theta reg 300 H T A G ltac:(intro X; contradiction) ltac:(lra) B)).
Qed.

(* One would expect the heat transfer at the inside surface to depend on the innermost pane only.  With the method
   JIS_A2103 it takes the emissivity of the outside surface of the outermost pane instead (line 782). *)
Theorem C78_inside_refuted : exists g h, real_glass g /\ real_glass h /\ g_last g = g_last h /\
  exists x y, get_h_i g (JIS_A2103 WINTER) 20 20 = Ok x /\ get_h_i h (JIS_A2103 WINTER) 20 20 = Ok y /\ x <> y.
Proof.
exists double3, {| g_first := pane3e; g_more := [(gap6, pane3)] |}.
destruct C78_example as [G _]; split; [exact G|split; [|split; [reflexivity|]]].
- split; [exact pane3e_real|]; intros al gl [E|[]]; injection E as <- <-; split; [exact gap6_real|exact pane3_real].
- destruct (eps_total (LowE (5 / 100))) as [e E]; [cbn; lra|].
  unfold get_h_i; cbn [double3 g_first pane3 pane3e gl_sff]; rewrite E; cbn [bind eps].
  eexists; eexists; split; [reflexivity|split; [reflexivity|]].
  assert (L := eps_coating _ _ E).
  assert (P := radiative_pos 1 (20 + absolute_zero) (20 + absolute_zero) ltac:(lra) ltac:(unfold absolute_zero; lra) ltac:(unfold absolute_zero; lra)).
  assert (D : forall k, radiative k (20 + absolute_zero) (20 + absolute_zero) = k * radiative 1 (20 + absolute_zero) (20 + absolute_zero))
    by (intro k; unfold radiative; ring).
  rewrite (D (837 / 1000)), (D e).
  assert (e * radiative 1 (20 + absolute_zero) (20 + absolute_zero) < 837 / 1000 * radiative 1 (20 + absolute_zero) (20 + absolute_zero))
    by (apply Rmult_lt_compat_r; [exact P|exact L]); lra.
Qed.
Print Assumptions C78_inside_refuted.

(* With the method JIS_R3107 it does. *)
Theorem C78_inside_partial : forall g h a b c d, g_last g = g_last h -> get_h_i g JIS_R3107 a b = get_h_i h JIS_R3107 c d.
Proof. intros g h a b c d E; unfold get_h_i; rewrite E; reflexivity. Qed.
Print Assumptions C78_inside_partial.
