(* C30: the transfer functions behind the response factors *)
From Coq Require Import Reals List Lra.
From Verif Require Import Model.Py Model.ResponseFactor Spec.Conduction Lemmas.ConductionL.
Import ListNotations.
Local Open Scope R_scope.

(* The functions fitted by the response factors are those of heat conduction: for every solution of Fourier's law and the heat
   balance in all layers with outer surface temperature 0, the inner surface temperature is (R + GA) times the inner heat flow
   and the outer heat flow 1 + GT times the inner one. *)
Theorem C30_transfer : forall rs cs s ga gt t0 q0 q1, 0 < s -> (forall rc, In rc (combine rs cs) -> layer_ok rc) ->
  get_g rs cs s = Ok (ga, gt) -> wall_conducts s (heeded_layers (combine rs cs)) t0 q0 0 q1 ->
  t0 = (fold_right Rplus 0 rs + ga) * q0 /\ q1 = (1 + gt) * q0.
Proof. exact transfer. Qed.
Print Assumptions C30_transfer.

(* Such solutions exist for every heat flow at the outer surface. *)
Theorem C30_solutions : forall layers s t1 q1, 0 < s -> (forall rc, In rc layers -> layer_ok rc) ->
  exists t0 q0, wall_conducts s (heeded_layers layers) t0 q0 t1 q1.
Proof. intros layers s t1 q1; exact (wall_solution s layers t1 q1). Qed.
Print Assumptions C30_solutions.

(* a concrete wall: 10 cm of concrete behind insulation, with the outer surface resistance *)
Example C30_conduction_example : forall rc, In rc (combine [2; 6 / 100; 4 / 100] [1000; 200000; 0]) -> layer_ok rc.
Proof. intros rc [<- |[<- |[<- |[]]]]; unfold layer_ok; simpl; lra. Qed.
