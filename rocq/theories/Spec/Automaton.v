(* Specification for C17: how a room's mode of operation evolves over a history of demands and PMV values. *)
From mathcomp Require Import all_ssreflect ssralg ssrnum.
From Verif Require Import Model.OperationMode Model.OtTarget.
Set Implicit Arguments. Unset Strict Implicit. Unset Printing Implicit Defensive.
Local Open Scope ring_scope.

Section Automaton.
Variable F : realFieldType.

(* what the mode decision of one step looks at *)
Record situation := Situation { demand : F; pmv_heavy : F; pmv_middle : F; pmv_light : F }.

(* the modes after 1, 2, ... steps of a history, None as soon as the program raises *)
Fixpoint modes (m : mode) (hist : seq situation) : option (seq mode) :=
  if hist is s :: rest then
    if get_operation_mode (demand s) m (pmv_heavy s) (pmv_middle s) (pmv_light s) is Some m'
    then omap (cons m') (modes m' rest) else None
  else Some [::].

(* what the decision sees in a room: PMV with heavy, middle and light clothing *)
Definition room_situation (e0 ac x_r theta_r theta_mrt : F) : situation :=
  let pmv := get_h_hum_and_pmv e0 (get_p_v_r x_r) theta_r theta_mrt in
  Situation ac (pmv (clo_heavy F)) (pmv (clo_middle F)) (pmv (clo_light F)).

End Automaton.
