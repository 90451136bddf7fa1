From Coq Require Import ZArith.
From mathcomp Require Import all_ssreflect ssralg ssrnum zmodp matrix.
From Verif Require Import Model.OperationMode Model.Numpy Model.PreCalc Model.Tick Model.Step Model.OtTarget Model.CoreStep
  Model.Ground Model.CoreCalc Model.Py Spec.Physical Spec.Simulation.
From Verif Require Import Lemmas.RunawayL.
Set Implicit Arguments. Unset Strict Implicit. Unset Printing Implicit Defensive.
Import Order.TTheory GRing.Theory Num.Theory.
Local Open Scope ring_scope.

(* C73 is false with air paths between rooms. Two equal rooms exchange air, nobody is at home, nothing is heated or
   cooled, and an appliance of 100 W runs in the first. The calculation completes, and the difference between the
   rooms is more than 10 ((11/10)^n - 1) kelvin after n steps of a quarter of an hour: more than 40 000 kelvin after a
   day. The air that comes from a warmer room cools, because its term has the wrong sign. *)
Theorem C73_runaway_refuted : forall (F : realFieldType) (e0 : F) (x_sat : F -> F) (x T x0 : F) (k : nat) (d b : Z), (0 <= d)%Z -> (0 <= b)%Z ->
  (d * 4 * 24 <= Z.of_nat k)%Z -> (b * 4 * 24 <= Z.of_nat k)%Z ->
  exists cf log,
  [/\ core_calc e0 (@draught F) x_sat x0 (twins F) pred0 (nseq k (appliance x T)) 4 d b b = Ok (cf, log),
      10%:R * ((11%:R / 10%:R) ^+ Z.to_nat ((d + b) * 4 * 24) - 1) <= theta_r cf 0 0 - theta_r cf 1 0
    & (0 < d + b)%Z -> 40%:R * 1000%:R <= theta_r cf 0 0 - theta_r cf 1 0].
Proof. by move=> F e0 x_sat x T x0 k d b d0 b0 l1 l2; exact: twins_apart. Qed.
Print Assumptions C73_runaway_refuted.

(* Two calculations of the same period, one without run-up and one with a day of run-up, do not approach each other:
   what they differ by grows by a factor of 11/10 in every step. *)
Theorem C73_air_paths_refuted : forall (F : realFieldType) (e0 : F) (x_sat : F -> F) (x T x0 : F) (k : nat) (d : Z), (0 <= d)%Z ->
  (d * 4 * 24 <= Z.of_nat k)%Z -> (1 * 4 * 24 <= Z.of_nat k)%Z ->
  exists cf log cf2 log2,
  [/\ core_calc e0 (@draught F) x_sat x0 (twins F) pred0 (nseq k (appliance x T)) 4 d 0 0 = Ok (cf, log),
      core_calc e0 (@draught F) x_sat x0 (twins F) pred0 (nseq k (appliance x T)) 4 d 1 1 = Ok (cf2, log2)
    & 40%:R * 1000%:R * (11%:R / 10%:R) ^+ Z.to_nat (d * 4 * 24)
      <= theta_r cf2 0 0 - theta_r cf2 1 0 - (theta_r cf 0 0 - theta_r cf 1 0)].
Proof. by move=> F e0 x_sat x T x0 k d d0 l1 l2; exact: twins_two. Qed.
Print Assumptions C73_air_paths_refuted.

(* the house of these theorems meets every physical condition of the other theorems *)
Example C73_example_twins (F : realFieldType) (x T : F) :
  [/\ physical_boundaries (twins F), physical_rooms 900%:R (twins F), physical_air (twins F) (appliance x T), physical_hum (twins F)
    & forall t to i, 0 <= draught t to i 0 :> F].
Proof. split; [exact: twins_boundaries | exact: twins_rooms | exact: twins_air | exact: twins_hum | exact: draught_ge0]. Qed.
