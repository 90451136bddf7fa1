From Coq Require Import Reals List ZArith String Lra Lia.
From Verif Require Import Model.Py Model.JsonValue Model.FactorH Model.FactorNu Model.FactorF Model.EesHouse Model.CheckUa Model.Lv3 Spec.EnvelopeSpec
  Lemmas.Lv3L Lemmas.CheckUaL.
Import ListNotations.
Local Open Scope R_scope.

Definition ex_env (n : string) (a : R) : envelope :=
  {| e_name := n; e_next_space := OUTDOOR; e_direction := DS; e_area := a; e_space_type := UNDEFINED |}.
Definition ex_wall : general_part :=
  {| gp_ns := {| gp_env := ex_env "wall" 50; gp_kind := WALL; gp_shade := OpNotInput |}; gp_spec_of := SpecOther WALL (1 / 2) "light" |}.
Definition ex_window : window :=
  {| w_ns := {| w_env := ex_env "window" 10; w_shade := TrNotInput |};
     w_spec := {| ws_u := 3; ws_eta_d_h := 1 / 2; ws_eta_d_c := 1 / 2; ws_glass := DOUBLE; ws_flame := RESIN |} |}.
Definition ex_door : door := {| d_ns := {| d_env := ex_env "door" 2; d_shade := OpNotInput |}; d_u := 4 |}.
Definition ex_bridge : heatbridge :=
  {| hb_name := "corner"; hb_next_spaces := [OUTDOOR; OUTDOOR]; hb_directions := ["s"; "e"]%string; hb_length := 6; hb_space_type := UNDEFINED; hb_psi := 1 / 10 |}.
Definition ex_perimeter : perimeter :=
  {| ep_ns := {| ep_name := "perimeter"; ep_next_space := OUTDOOR; ep_length := 30; ep_space_type := UNDEFINED |}; ep_psi := 1 |}.
Definition ex_center : center := {| ec_ns := {| ec_name := "center"; ec_area := 40; ec_space_type := "undefined" |}; ec_layers := VList [] |}.

Definition ex_parts : parts :=
  {| ps_gps := [ex_wall]; ps_ws := [ex_window]; ps_ds := [ex_door]; ps_hbs := [ex_bridge]; ps_eps := [ex_perimeter]; ps_ecs := [ex_center] |}.

(* without earth floor *)
Definition ex_upper : parts :=
  {| ps_gps := [ex_wall]; ps_ws := [ex_window]; ps_ds := [ex_door]; ps_hbs := []; ps_eps := []; ps_ecs := [] |}.

Lemma ex_upper_check : exists eh ec, check 6 ex_upper = Ok (63 / 62, eh, ec).
Proof.
unfold check, check_u_a_and_eta_a, envelope_total_area, total_q, total_m, sumM, ex_upper; simpl.
unfold fdiv, gp_area, w_area, d_area; simpl.
destruct (Req_EM_T (50 + (10 + (2 + 0))) 0); [lra|]; simpl; do 2 eexists.
replace ((50 * (1 / 2) * 1 + 0 + (10 * 3 * 1 + 0) + (2 * 4 * 1 + 0) + 0) / (50 + (10 + (2 + 0)))) with (63 / 62) by field; reflexivity.
Qed.

(* one wall with U = 1/2 and an earth floor perimeter *)
Definition ex_earth : parts :=
  {| ps_gps := [ex_wall]; ps_ws := []; ps_ds := []; ps_hbs := []; ps_eps := [ex_perimeter]; ps_ecs := [] |}.
Lemma ex_earth_check : exists eh ec, check 6 ex_earth = Ok (55 / 50, eh, ec).
Proof.
unfold check, check_u_a_and_eta_a, envelope_total_area, total_q, total_m, sumM, ex_earth; simpl.
unfold fdiv, gp_area, w_area, d_area; simpl.
destruct (Req_EM_T (50 + 0) 0); [lra|]; simpl; do 2 eexists.
replace ((50 * (1 / 2) * 1 + 0 + 0 + 0 + (30 * 1 * 1 + 0)) / (50 + 0)) with (55 / 50) by field; reflexivity.
Qed.
