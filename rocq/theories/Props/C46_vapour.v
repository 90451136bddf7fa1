(* C46: the vapour pressure from which PMV is calculated *)
From mathcomp Require Import all_ssreflect ssralg ssrnum zmodp matrix.
From Coq Require Import ZArith.
From Verif Require Import Model.Dec Model.OtTarget Lemmas.DecL Lemmas.VapourL.
Set Implicit Arguments. Unset Strict Implicit. Unset Printing Implicit Defensive.
Import Order.TTheory GRing.Theory Num.Theory.
Local Open Scope ring_scope.

(* In the PMV calculation too, the vapour pressure lies between 0 and atmospheric pressure, is 0 for dry air, strictly
   increasing in the humidity ratio, and gives the humidity ratio back as 0.62198 p / (101325 - p). *)
Theorem C46_pmv_vapour_pressure : forall F : realFieldType,
  get_p_v_r (0 : F) = 0 /\
  (forall x : F, 0 <= x -> 0 <= get_p_v_r x < dec F 101325 0) /\
  (forall x y : F, 0 <= x -> x < y -> get_p_v_r x < get_p_v_r y) /\
  (forall x : F, 0 <= x -> dec F 62198 5 * get_p_v_r x / (dec F 101325 0 - get_p_v_r x) = x).
Proof. move=> F; split; [exact: vapour_zero|split; [exact: vapour_range|split; [exact: vapour_incr|exact: vapour_inverse]]]. Qed.
Print Assumptions C46_pmv_vapour_pressure.

(* a humidity ratio of 10 g/kg *)
Example C46_vapour_example : forall F : realFieldType, 0 < get_p_v_r (dec F 1 2) < dec F 101325 0.
Proof.
move=> F; have p : 0 < dec F 1 2 by apply: dec_gt0.
have [z [r [i _]]] := C46_pmv_vapour_pressure F.
by rewrite -{1}z i //=; case/andP: (r _ (ltW p)).
Qed.
