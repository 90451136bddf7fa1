From Coq Require Import Reals List String Lra.
From Verif Require Import Model.Py Model.Schedule Spec.HouseholdSpec Lemmas.ScheduleL.
Import ListNotations.
Local Open Scope R_scope.

(* C22: what the compiled schedules of room i contain at step n. Everything is in its place except cooking:
   proved where the numbers of the heat (W) and vapour (g/h) schedules of cooking coincide, in particular in
   rooms without cooking. Missing: rooms with cooking, see C22_cooking_refuted. *)
Theorem C22_places_partial : forall (d : tables) (cal : list string) (n_p : R) (rooms : list string) (a : list R) (c : compiled)
    i room area n heat vapour,
  get_compiled_schedules d cal n_p rooms a = Ok c ->
  nth_error rooms i = Some room -> nth_error a i = Some area -> (n < 365 * 96)%nat ->
  slot d cal n_p room "heat_generation_cooking" n heat -> slot d cal n_p room "vapor_generation_cooking" n vapour ->
  heat = vapour ->
  exists app light vent people ac,
    slot d cal n_p room "heat_generation_appliances" n app /\ slot d cal n_p room "heat_generation_lighting" n light /\
    slot d cal n_p room "local_vent_amount" n vent /\ slot d cal n_p room "number_of_people" n people /\
    slot d cal n_p room "is_temp_limit_set" n ac /\
    at2 (q_gen c) i n (app + heat + light * area) /\ at2 (x_gen c) i n (vapour / (1000 * 3600)) /\
    at2 (v_local c) i n (vent / 3600) /\ at2 (n_people c) i n people /\ at2 (demand c) i n ac.
Proof.
intros d cal n_p rooms a c i room area n heat vapour E Hi Ha Hn Sh Sv <-.
destruct (compiled_ok d cal n_p rooms a c i room area n E Hi Ha Hn)
  as [app [heat' [vap' [light [vent [people [ac [T1 [T2 [T3 [T4 [T5 [T6 [T7 [Q1 [Q2 [Q3 [Q4 Q5]]]]]]]]]]]]]]]]]].
pose proof (slot_fun _ _ _ _ _ _ _ _ T2 Sh); pose proof (slot_fun _ _ _ _ _ _ _ _ T3 Sv); subst heat' vap'.
exists app, light, vent, people, ac; repeat (split; [assumption|]).
replace (heat / (1000 * 3600)) with (heat * (/ 1000 / 3600)) by field; tauto.
Qed.
Print Assumptions C22_places_partial.

(* In general the two cooking schedules are exchanged: the heat gain contains the vapour numbers and the
   moisture gain the heat numbers. *)
Theorem C22_exchanged : forall (d : tables) (cal : list string) (n_p : R) (rooms : list string) (a : list R) (c : compiled)
    i room area n heat vapour,
  get_compiled_schedules d cal n_p rooms a = Ok c ->
  nth_error rooms i = Some room -> nth_error a i = Some area -> (n < 365 * 96)%nat ->
  slot d cal n_p room "heat_generation_cooking" n heat -> slot d cal n_p room "vapor_generation_cooking" n vapour ->
  exists app light,
    slot d cal n_p room "heat_generation_appliances" n app /\ slot d cal n_p room "heat_generation_lighting" n light /\
    at2 (q_gen c) i n (app + vapour + light * area) /\ at2 (x_gen c) i n (heat / (1000 * 3600)).
Proof.
intros d cal n_p rooms a c i room area n heat vapour E Hi Ha Hn Sh Sv.
destruct (compiled_ok d cal n_p rooms a c i room area n E Hi Ha Hn)
  as [app [heat' [vap' [light [vent [people [ac [T1 [T2 [T3 [T4 [T5 [T6 [T7 [Q1 [Q2 [Q3 [Q4 Q5]]]]]]]]]]]]]]]]]].
pose proof (slot_fun _ _ _ _ _ _ _ _ T2 Sh); pose proof (slot_fun _ _ _ _ _ _ _ _ T3 Sv); subst heat' vap'.
exists app, light; replace (heat / (1000 * 3600)) with (heat * (/ 1000 / 3600)) by field; tauto.
Qed.
Print Assumptions C22_exchanged.

Theorem C22_cooking_refuted : exists (d : tables) (cal : list string) (rooms : list string) (a : list R) (c : compiled),
  get_compiled_schedules d cal 1 rooms a = Ok c /\ nth_error rooms 0 = Some "main_occupant_room"%string /\
  nth_error a 0 = Some 20 /\
  forall app heat light v, slot d cal 1 "main_occupant_room" "heat_generation_appliances" 0 app ->
  slot d cal 1 "main_occupant_room" "heat_generation_cooking" 0 heat ->
  slot d cal 1 "main_occupant_room" "heat_generation_lighting" 0 light ->
  at2 (q_gen c) 0 0 v -> v <> app + heat + light * 20.
Proof.
destruct cook_refuted as [c [E H]].
exists cook_tables, cook_calendar, ["main_occupant_room"%string], [20], c; auto.
Qed.
Print Assumptions C22_cooking_refuted.

Example C22_example : exists c, get_compiled_schedules cook_tables cook_calendar 1 ["main_occupant_room"%string] [20] = Ok c.
Proof. exact cook_compiled. Qed.
