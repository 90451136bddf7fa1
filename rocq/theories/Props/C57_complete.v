From Coq Require Import Reals List ZArith Lra Lia.
From Verif Require Import Model.Py Model.HouseDict Model.Schedule Model.Initializer Spec.HouseholdSpec Spec.HouseSpec Spec.CompleteSpec
  Lemmas.ScheduleL Lemmas.MakeHouseL Examples.MakeHouseEx.
Import ListNotations.
Local Open Scope R_scope.

(* C57: a complete description of a house is processed without an error *)
Theorem C57_complete : forall round1 tbl cal ws d,
  (forall room type, complete tbl room type) -> length cal = 365%nat -> length ws = (24 * 365 * 4)%nat ->
  complete_house d -> exists m, make_house round1 tbl cal ws d = Ok m.
Proof. exact house_total. Qed.
Print Assumptions C57_complete.

(* a house with floor, wall and window; convective cooling, radiant heating or nothing *)
Example C57_example : forall h w, complete_house (ex_house ex_cooling h w) /\ complete_house (ex_house ex_floor_heating h w) /\ complete_house (ex_house ex_no_equipment h w).
Proof. intros h w; split; [|split]; apply ex_complete; [exact ex_cooling_complete|exact ex_floor_heating_complete|exact ex_none_complete]. Qed.
