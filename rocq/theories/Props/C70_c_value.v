From Coq Require Import ZArith String List.
From mathcomp Require Import all_ssreflect ssralg ssrnum zmodp matrix.
From Verif Require Import Model.Dec Model.Py Model.Infiltration Model.CValue Spec.InfiltrationSpec Spec.CValueSpec Lemmas.InfiltrationL Lemmas.CValueL.
Set Implicit Arguments. Unset Strict Implicit. Unset Printing Implicit Defensive.
Import Order.TTheory GRing.Theory Num.Theory.
Local Open Scope ring_scope.

(* C70: the estimated C value is 4.16 times UA for concrete and 8.28 times UA for frame structures *)
Theorem C70_value : forall (F : realFieldType) (ua : F) s,
  estimate_c_value ua s * 100%:R = (if concrete s then 416%:R else 828%:R) * ua /\ (0 <= ua -> 0 <= estimate_c_value ua s).
Proof. by move=> F ua s; split; [exact: c_value|exact: c_ge0]. Qed.
Print Assumptions C70_value.

(* it never falls with UA and is never smaller for a frame than for concrete *)
Theorem C70_order : forall (F : realFieldType) (ua ua' : F) s s', 0 <= ua -> ua <= ua' -> tighter s s' ->
  estimate_c_value ua s <= estimate_c_value ua' s'.
Proof. by move=> F ua ua' s s'; exact: c_le. Qed.
Print Assumptions C70_order.

Theorem C70_frame : forall (F : realFieldType) (ua : F) s s', 0 < ua -> concrete s -> ~~ concrete s' -> estimate_c_value ua s < estimate_c_value ua s'.
Proof. by move=> F ua s s'; exact: c_strict. Qed.
Print Assumptions C70_frame.

(* so a better insulated or tighter house has no more infiltration in any room at any time *)
Theorem C70_infiltration : forall (F : rcfType) (ni : nat) (ua ua' : F) st st' (v : 'cV[F]_ni) s p theta o (q q' : 'cV[F]_ni),
  (forall i, 0 <= v i 0) -> 0 <= ua -> ua <= ua' -> tighter st st' ->
  infiltration_residential (estimate_c_value ua st) v s p theta o = Ok q ->
  infiltration_residential (estimate_c_value ua' st') v s p theta o = Ok q' -> forall i, q i 0 <= q' i 0.
Proof. by move=> F ni ua ua' st st' v s p theta o q q'; exact: infil_c_value. Qed.
Print Assumptions C70_infiltration.

(* the four structures are known by name, other names are a ValueError *)
Theorem C70_structures :
  (structure_of "rc" = Ok RC /\ structure_of "src" = Ok SRC /\ structure_of "wooden" = Ok WOODEN /\ structure_of "steel" = Ok STEEL) /\
  forall s, ((exists t, structure_of s = Ok t) <-> (s = "rc" \/ s = "src" \/ s = "wooden" \/ s = "steel")%string) /\
  forall e, structure_of s = Err e -> e = ValueError.
Proof. by split=> // s; split; [exact: structure_known|exact: structure_error]. Qed.
Print Assumptions C70_structures.

(* two rooms of 36 m3: concrete with UA 0.5 against wood with UA 0.87 *)
Example C70_example (F : rcfType) : tighter RC WOODEN /\ dec F 5 1 <= dec F 87 2 /\
  exists q q', infiltration_residential (estimate_c_value (dec F 5 1) RC) (const_mx 36%:R : 'cV[F]_2) 1 "balanced" (const_mx 25%:R) 0 = Ok q /\
    infiltration_residential (estimate_c_value (dec F 87 2) WOODEN) (const_mx 36%:R : 'cV[F]_2) 1 "balanced" (const_mx 25%:R) 0 = Ok q'.
Proof.
split=> //; split; first exact: DecL.dec_le.
have t0 : 0 < \sum_i (const_mx 36%:R : 'cV[F]_2) i 0 by rewrite !big_ord_recl big_ord0 !mxE addr0 -natrD ltr0Sn.
have A c : exists q, infiltration_residential c (const_mx 36%:R : 'cV[F]_2) 1 "balanced" (const_mx 25%:R) 0 = Ok q.
  by apply/infil_fails => //; split; left.
by have [q e] := A (estimate_c_value (dec F 5 1) RC); have [q' e'] := A (estimate_c_value (dec F 87 2) WOODEN); exists q, q'.
Qed.
