(* heat_load_calc/convert/convert_lv4_to_h_hlc.py: solar gain of windows *)
From Coq Require Import Reals ZArith List String Bool.
From Verif Require Import Model.Py Model.JsonValue Model.Orientation.
Import ListNotations.
Local Open Scope R_scope.

(* 513 *)
Definition f_frame (frame : string) : res R := entry frame [("WoodOrResin", 72 / 100); ("Steel", 8 / 10)]%string.

(* 515-533, in hundredths: without shade, with shoji, with an external blind (spelt so in the source) *)
Definition glass_row (glass : string) : res (Z * Z * Z) :=
  entry glass [("3WgG", (54, 34, 12)); ("3WsG", (33, 22, 8)); ("3LgG", (59, 37, 14)); ("3LsG", (37, 25, 10));
               ("2LgG", (64, 38, 15)); ("2LsG", (40, 26, 11));
               ("2FAheatreflect1", (79, 38, 17)); ("2FAheatreflect2", (79, 38, 17)); ("2FAheatreflect3", (79, 38, 17));
               ("2FAheatabsorb2", (79, 38, 17)); ("2FAmulti", (79, 38, 17)); ("2FAsingle", (79, 38, 17));
               ("Theatreflect1", (88, 38, 19)); ("Theatreflect2", (88, 38, 19)); ("Theatreflect3", (88, 38, 19));
               ("Theatabsorb2", (88, 38, 19)); ("Tsingle", (88, 38, 19))]%string%Z.

(* get_eta_from_specification 512-535 *)
Definition get_eta_from_specification (frame glass shade : string) : res R :=
  bind (f_frame frame) (fun f =>
  bind (glass_row glass) (fun row => let '(a, b, c) := row in
  bind (entry shade [("None", a); ("Shoji", b); ("ExtarnalBlind", c)]%string) (fun e => Ok (IZR e / 100 * f)))).

(* 0.72 if ... and ... else 0.8: 544-545, 554-555; the second entry is read only if the first is 'WoodOrResin' *)
Definition frame_divisor (d : value) : res R :=
  bind (str_item "TypeFrameInside" d) (fun fi =>
  if (fi =? "WoodOrResin")%string
  then bind (str_item "TypeFrameOutside" d) (fun fo => Ok (if (fo =? "WoodOrResin")%string then 72 / 100 else 8 / 10))
  else Ok (8 / 10)).

Definition eta_of (frame glass shade : string) (d : value) : res R :=
  bind (str_item frame d) (fun f => bind (str_item glass d) (fun g => bind (str_item shade d) (fun s => get_eta_from_specification f g s))).

(* get_eta 538-559; a type of window other than the two leaves the variable eta unbound (UnboundLocalError, a NameError) *)
Definition get_eta (d : value) : res R :=
  bind (str_item "EtaInputMethod" d) (fun m =>
  if (m =? "InputValue")%string then
    bind (str_item "TypeWindow" d) (fun t =>
    if (t =? "Single")%string then num_item "Eta" d                                          (* 540-541 *)
    else if (t =? "Double")%string then                                                      (* 542-545 *)
      bind (num_item "EtaInside" d) (fun i => bind (num_item "EtaOutside" d) (fun o =>
      bind (frame_divisor d) (fun f => Ok (i * o * (106 / 100) / f))))
    else Err NameError)
  else if (m =? "InputSpecification")%string then
    bind (str_item "TypeWindow" d) (fun t =>
    if (t =? "Single")%string then eta_of "TypeFrame" "TypeGlass" "TypeShade" d              (* 547-548 *)
    else if (t =? "Double")%string then                                                      (* 549-555 *)
      bind (eta_of "TypeFrameInside" "TypeGlassInside" "TypeShadeInside" d) (fun i =>
      bind (eta_of "TypeFrameOutside" "TypeGlassOutside" "TypeShadeOutside" d) (fun o =>
      bind (frame_divisor d) (fun f => Ok (i * o * (106 / 100) / f))))
    else Err NameError)
  else Err ValueError).                                                                      (* 556-557 *)
