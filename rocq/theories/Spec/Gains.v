(* Specification: two steps that differ in the internal heat gains only, and rooms at which equipment is at work (C76). *)
From mathcomp Require Import all_ssreflect ssralg ssrnum zmodp matrix.
From Verif Require Import Model.OperationMode Model.Numpy Model.PreCalc Model.Tick.
Set Implicit Arguments. Unset Strict Implicit. Unset Printing Implicit Defensive.
Import GRing.Theory Num.Theory.
Local Open Scope ring_scope.

Section Gains.
Variable F : realFieldType.
Variables ni nj : nat.

(* everything but the heat from appliances, lighting etc. is the same *)
Record same_but_gains (s s2 : step_data F ni nj) : Prop := {
  sg_theta_o : theta_o s2 = theta_o s;
  sg_x_o : x_o s2 = x_o s;
  sg_vent : v_mec_local s2 = v_mec_local s;
  sg_x_gen : x_gen s2 = x_gen s;
  sg_people : n_hum s2 = n_hum s;
  sg_demand : ac_demand s2 = ac_demand s;
  sg_sun : q_trs_sol s2 = q_trs_sol s;
  sg_outer : theta_o_sol s2 = theta_o_sol s
}.

(* the operative temperature with the equipment switched off (natural) would miss the target of the mode *)
Definition heated (md : 'I_ni -> mode) (lo natural : 'cV[F]_ni) (i : 'I_ni) : Prop := md i = HEATING /\ natural i 0 < lo i 0.
Definition cooled (md : 'I_ni -> mode) (up natural : 'cV[F]_ni) (i : 'I_ni) : Prop := md i = COOLING /\ up i 0 < natural i 0.
End Gains.
