From Coq Require Import Reals List String ZArith Bool Lra Lia.
From Verif Require Import Model.Py Model.BoundaryDict Model.BoundarySimple Model.HouseDict Model.Schedule Model.Initializer Spec.HouseSpec
  Lemmas.PyL Lemmas.CoreLoopL Lemmas.ScheduleL Lemmas.SolarSumL Examples.MakeHouseEx.
Import ListNotations.
Local Open Scope R_scope.

Lemma solar_conserved round1 tbl cal ws d m rooms bds bss : make_house round1 tbl cal ws d = Ok m ->
  h_rooms d = Some rooms -> h_boundaries d = Some bds -> mapM (get_boundary_simple ws) bds = Ok bss ->
  (forall bs, In bs bss -> (0 <= bs_connected_room_id bs < Z.of_nat (List.length rooms))%Z) ->
  forall t x, sum_at t (m_q_trs_sol m) x <-> sum_at t (map bs_q_trs_sol bss) x.
Proof.
intros H A B C D t x; destruct (house_solar _ _ _ _ _ _ H) as [r [b [s [A' [B' [C' S]]]]]].
rewrite A in A'; injection A' as <-; rewrite B in B'; injection B' as <-; rewrite C in C'; apply ok_inj in C'; subst s.
rewrite (S t x), all_below by exact D; reflexivity.
Qed.

Lemma solar_of_room round1 tbl cal ws d m rooms bds bss i row : make_house round1 tbl cal ws d = Ok m ->
  h_rooms d = Some rooms -> h_boundaries d = Some bds -> mapM (get_boundary_simple ws) bds = Ok bss ->
  nth_error (m_q_trs_sol m) i = Some row ->
  forall t x, nth t row None = Some x <-> sum_at t (map bs_q_trs_sol (parts (Z.of_nat i) bss)) x.
Proof.
intros H A B C E t x; destruct (house_parts _ _ _ _ _ _ H) as [r [b [s [A' [B' [C' [S _]]]]]]].
rewrite A in A'; injection A' as <-; rewrite B in B'; injection B' as <-; rewrite C in C'; apply ok_inj in C'; subst s.
destruct (mapM_ok _ _ _ _ _ S) as [L N].
assert (Li : (i < List.length rooms)%nat).
{ assert (X : (i < List.length (m_q_trs_sol m))%nat) by (apply nth_error_Some; congruence); rewrite L, length_range in X; lia. }
assert (Ei : nth_error (range 0 (Z.of_nat (List.length rooms))) i = Some (Z.of_nat i)) by (rewrite nth_range by lia; f_equal; lia).
destruct (N i _ Ei) as [y [Y J]]; rewrite E in J; injection J as <-.
apply (sum_series_at _ _ Y).
Qed.

Lemma solar_house w : exists tbl cal ws d, forall round1, exists m bds bss,
  make_house round1 tbl cal ws d = Ok m /\ h_boundaries d = Some bds /\ mapM (get_boundary_simple ws) bds = Ok bss /\
  sum_at 0 (map bs_q_trs_sol bss) 90 /\ sum_at 0 (m_q_trs_sol m) (if (w =? 0)%Z then 90 else 0).
Proof.
exists cook_tables, cook_calendar, ex_weather, (ex_house ex_cooling 1 w); intro round1.
destruct (ex_house_made round1 ex_cooling 1 w ex_cooling_complete) as [m H].
destruct (house_parts _ _ _ _ _ _ H) as [rooms [bds [bss [_ [B [M _]]]]]].
exists m, bds, bss; split; [exact H|]; split; [exact B|]; split; [exact M|].
cbn in B; injection B as <-; apply (ex_solar round1 _ _ _ _ _ _ _ _ ex_weather_start H M).
Qed.
Lemma solar_lost : exists tbl cal ws d, forall round1, exists m bds bss,
  make_house round1 tbl cal ws d = Ok m /\ h_boundaries d = Some bds /\ mapM (get_boundary_simple ws) bds = Ok bss /\
  sum_at 0 (map bs_q_trs_sol bss) 90 /\ sum_at 0 (m_q_trs_sol m) 0.
Proof. exact (solar_house 7). Qed.
Lemma solar_kept : exists tbl cal ws d, forall round1, exists m bds bss,
  make_house round1 tbl cal ws d = Ok m /\ h_boundaries d = Some bds /\ mapM (get_boundary_simple ws) bds = Ok bss /\
  sum_at 0 (map bs_q_trs_sol bss) 90 /\ sum_at 0 (m_q_trs_sol m) 90.
Proof. exact (solar_house 0). Qed.
