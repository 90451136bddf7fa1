(* Houses for the conversions *)
From Coq Require Import Reals ZArith List String Lra.
From Verif Require Import Model.Py Model.JsonValue Model.FactorH Model.FactorNu Model.FactorF Model.EesHouse Model.EesDict Model.Lv3 Model.Convert
  Spec.EnvelopeSpec Spec.ConvertSpec Lemmas.Lv3L.
Import ListNotations.
Local Open Scope string_scope.

(* the example at the end of convert_lv4_to_h_hlc.py, 737-755, with its total floor area *)
Definition ex_common : value :=
  VDict [("region", VInt 6); ("house_type", VStr "detached"); ("main_occupant_room_floor_area", VNum 30); ("other_occupant_room_floor_area", VNum 30);
         ("total_floor_area", VNum 90)].
Definition ex_index : value :=
  VDict [("common", ex_common);
         ("envelope", VDict [("input_method", VStr "index"); ("total_area", VNum (266096 / 1000));
                             ("indices", VDict [("u_a", VNum (87 / 100)); ("eta_a_h", VNum (28 / 10)); ("eta_a_c", VNum (14 / 10))])])].
Definition ex_d : value := VDict [("ventilation", VDict [("air_change_rate", VNum (1 / 2))])].
Definition ex_natural : value :=
  VDict [("main_occupant_room_natural_vent_time", VStr "5ACH"); ("other_occupant_room_natural_vent_time", VStr "5ACH")].

(* a house whose only wall has a sunshade given by its lengths *)
Definition ex_kernel : list (string * value) :=
  [("x1", VNum 1); ("x2", VNum 2); ("x3", VNum 1); ("y1", VNum 1); ("y2", VNum 2); ("y3", VNum 1);
   ("z_x_pls", VNum 0); ("z_x_mns", VNum 0); ("z_y_pls", VNum 1); ("z_y_mns", VNum 0)].
Definition ex_wall : value :=
  VDict [("name", VStr "wall"); ("general_part_type", VStr "wall"); ("next_space", VStr "outdoor"); ("direction", VStr "s"); ("area", VNum 20);
         ("space_type", VStr "undefined"); ("spec", VDict [("structure", VStr "other"); ("u_value_other", VNum (1 / 2)); ("weight", VStr "light")]);
         ("sunshade", VDict (("is_defined", VBool true) :: ("input", VStr "complex") :: ex_kernel))].
Definition ex_shaded : value :=
  VDict [("general_parts", VList [ex_wall]); ("windows", VList []); ("doors", VList []); ("earthfloor_perimeters", VList []);
         ("earthfloor_centers", VList []); ("heat_bridges", VList [])].

Lemma shaded_described : exists p, describes ex_shaded p.
Proof.
eexists {| ps_gps := [_]; ps_ws := []; ps_ds := []; ps_hbs := []; ps_eps := []; ps_ecs := [] |}.
repeat split; (eexists; split; [reflexivity|]); repeat constructor.
Qed.

Lemma shaded_lost : exists d3, lv3_convert_spec ex_common ex_shaded = Ok d3 /\ lv4_convert_spec ex_common d3 = Err KeyError.
Proof.
eexists; split.
{ unfold lv3_convert_spec.
change (floor_areas ex_common) with (Ok (30, 30, 90)%R); cbn [bind].
eassert (G : parts_at make_general_part "general_parts" ex_shaded = Ok _) by reflexivity; rewrite G; clear G; cbn [bind].
change (parts_at make_window "windows" ex_shaded) with (Ok (@nil window)); change (parts_at make_door "doors" ex_shaded) with (Ok (@nil door)).
change (parts_at make_heatbridge "heat_bridges" ex_shaded) with (Ok (@nil heatbridge)).
change (parts_at make_perimeter "earthfloor_perimeters" ex_shaded) with (Ok (@nil perimeter)).
change (parts_at make_center "earthfloor_centers" ex_shaded) with (Ok (@nil center)); cbn [bind].
rewrite lv3_ok by lra; reflexivity. }
reflexivity.
Qed.
