From Coq Require Import Reals List String Lra.
From Verif Require Import Model.Py Model.JsonValue Model.WindowEta Spec.WindowEtaSpec Lemmas.WindowEtaL.
Import ListNotations.
Local Open Scope R_scope.
Local Open Scope string_scope.

(* C68: a window lets in some of the sun and less than all of it *)
Theorem C68_share : forall f g s e, get_eta_from_specification f g s = Ok e -> 0 < e <= 704 / 1000.
Proof. exact eta_range. Qed.
Print Assumptions C68_share.

(* known frames, glasses and shades are accepted, everything else is a KeyError *)
Theorem C68_accepts : forall f g s,
  ((exists e, get_eta_from_specification f g s = Ok e) <-> In f frames /\ In g glasses /\ In s shades) /\
  forall er, get_eta_from_specification f g s = Err er -> er = KeyError.
Proof. intros f g s; split; [exact (eta_accepts f g s)|exact (eta_key f g s)]. Qed.
Print Assumptions C68_accepts.

(* shades and better glass let in less, metal frames are narrower and let in more *)
Theorem C68_shades : forall f g, In f frames -> In g glasses ->
  exists bare shoji blind, get_eta_from_specification f g "None" = Ok bare /\ get_eta_from_specification f g "Shoji" = Ok shoji /\
    get_eta_from_specification f g "ExtarnalBlind" = Ok blind /\ blind < shoji /\ shoji < bare.
Proof. exact eta_shades. Qed.
Print Assumptions C68_shades.

Theorem C68_panes : forall f s g1 g2 g3 e1 e2 e3, In g1 single_glass -> In g2 double_glass -> In g3 coated_glass ->
  get_eta_from_specification f g1 s = Ok e1 -> get_eta_from_specification f g2 s = Ok e2 -> get_eta_from_specification f g3 s = Ok e3 ->
  e3 <= e2 <= e1 /\ (s = "None" -> e3 < e2 < e1).
Proof. exact eta_panes. Qed.
Print Assumptions C68_panes.

Theorem C68_frames : forall g s e1 e2, get_eta_from_specification "WoodOrResin" g s = Ok e1 -> get_eta_from_specification "Steel" g s = Ok e2 ->
  e2 = 10 / 9 * e1.
Proof. exact eta_frames. Qed.
Print Assumptions C68_frames.

(* the dictionary of a single window is read entry by entry *)
Theorem C68_single : forall d e, says d "EtaInputMethod" "InputSpecification" -> says d "TypeWindow" "Single" ->
  get_eta d = Ok e <-> exists f g s, says d "TypeFrame" f /\ says d "TypeGlass" g /\ says d "TypeShade" s /\ get_eta_from_specification f g s = Ok e.
Proof. exact eta_single. Qed.
Print Assumptions C68_single.

(* or its gain is given *)
Theorem C68_given_single : forall d e, says d "EtaInputMethod" "InputValue" -> says d "TypeWindow" "Single" -> get_eta d = Ok e <-> gives d "Eta" e.
Proof. exact value_single. Qed.
Print Assumptions C68_given_single.

(* a double window lets in less than either of its windows alone *)
Theorem C68_double : forall d e, says d "EtaInputMethod" "InputSpecification" -> says d "TypeWindow" "Double" -> get_eta d = Ok e ->
  exists fi gi si fo go so ei eo, says d "TypeFrameInside" fi /\ says d "TypeGlassInside" gi /\ says d "TypeShadeInside" si /\
    says d "TypeFrameOutside" fo /\ says d "TypeGlassOutside" go /\ says d "TypeShadeOutside" so /\
    get_eta_from_specification fi gi si = Ok ei /\ get_eta_from_specification fo go so = Ok eo /\ 0 < e /\ e < ei /\ e < eo.
Proof. exact eta_double. Qed.
Print Assumptions C68_double.

(* the same for gains given as numbers, only if the other one is small enough *)
Theorem C68_given_partial : forall d i o, says d "EtaInputMethod" "InputValue" -> says d "TypeWindow" "Double" -> gives d "EtaInside" i -> gives d "EtaOutside" o ->
  forall e, get_eta d = Ok e -> 0 < i -> 0 < o -> 0 < e /\ (106 / 100 * o <= 72 / 100 -> e <= i) /\ (106 / 100 * i <= 72 / 100 -> e <= o).
Proof. exact value_double. Qed.
Print Assumptions C68_given_partial.

(* two windows that let in 90 % each together let in more than all of the sun *)
Definition ex_given : value := VDict [("EtaInputMethod", VStr "InputValue"); ("TypeWindow", VStr "Double"); ("EtaInside", VNum (9 / 10));
  ("EtaOutside", VNum (9 / 10)); ("TypeFrameInside", VStr "WoodOrResin"); ("TypeFrameOutside", VStr "WoodOrResin")].
Theorem C68_given_refuted : exists d e, says d "EtaInputMethod" "InputValue" /\ says d "TypeWindow" "Double" /\
  gives d "EtaInside" (9 / 10) /\ gives d "EtaOutside" (9 / 10) /\ get_eta d = Ok e /\ 1 < e.
Proof. exists ex_given, (9 / 10 * (9 / 10) * (106 / 100) / (72 / 100)); do 5 (split; [reflexivity|]); lra. Qed.
Print Assumptions C68_given_refuted.

(* other methods and other kinds of windows stop the program, the latter by reading an unbound variable *)
Theorem C68_rejected : forall d m, says d "EtaInputMethod" m ->
  (m <> "InputValue" -> m <> "InputSpecification" -> get_eta d = Err ValueError) /\
  forall t, says d "TypeWindow" t -> (m = "InputValue" \/ m = "InputSpecification") -> (t <> "Single" -> t <> "Double" -> get_eta d = Err NameError).
Proof. exact eta_rejected. Qed.
Print Assumptions C68_rejected.

(* single glass in a steel frame behind coated glass in a wooden one *)
Definition ex_pair : value := VDict [("EtaInputMethod", VStr "InputSpecification"); ("TypeWindow", VStr "Double");
  ("TypeFrameInside", VStr "WoodOrResin"); ("TypeGlassInside", VStr "2LgG"); ("TypeShadeInside", VStr "Shoji");
  ("TypeFrameOutside", VStr "Steel"); ("TypeGlassOutside", VStr "Tsingle"); ("TypeShadeOutside", VStr "None")].
Example C68_example : says ex_pair "EtaInputMethod" "InputSpecification" /\ says ex_pair "TypeWindow" "Double" /\
  (exists e, get_eta ex_pair = Ok e) /\ In "Steel" frames /\ In "3LsG" coated_glass.
Proof. do 2 (split; [reflexivity|]); split; [eexists; reflexivity|simpl; tauto]. Qed.
