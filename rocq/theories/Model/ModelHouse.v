(* heat_load_calc/convert/model_house.py: the shape of a house from its floor area *)
From Coq Require Import Reals ZArith List String Bool.
From Verif Require Import Model.Py Model.FactorH Model.FactorNu Model.FactorF Model.EesHouse Model.PartSpec.
Import ListNotations.
Local Open Scope R_scope.

(* 'detached' or 'attached'; any other house type is a KeyError at line 1225 *)
Inductive house_type := Detached | Attached.

(* 'floor', 'base', 'not_exist', None, any other string *)
Inductive insulation := InsFloor | InsBase | InsNotExist | InsNone | InsOther.

(* lists with one entry for each storey *)
Inductive storeys := One (x : R) | Two (x y : R).
Definition ground (s : storeys) : R := match s with One x | Two x _ => x end.
Definition zip_with (f : R -> R -> R) (a b : storeys) : storeys :=
  match a, b with
  | Two x y, Two u v => Two (f x u) (f y v)
  | One x, One u | One x, Two u _ | Two x _, One u => One (f x u)
  end.
Definition storey_sum (s : storeys) : R := match s with One x => x | Two x y => x + y end.

(* tuples for the four directions *)
Record quad := { q000 : R; q090 : R; q180 : R; q270 : R }.
Definition zero4 : quad := {| q000 := 0; q090 := 0; q180 := 0; q270 := 0 |}.
Definition quad_sum (q : quad) : R := q000 q + q090 q + q180 q + q270 q.
Definition quad_map (f : R -> R) (q : quad) : quad := {| q000 := f (q000 q); q090 := f (q090 q); q180 := f (q180 q); q270 := f (q270 q) |}.
Definition quad_zip (f : R -> R -> R) (p q : quad) : quad :=
  {| q000 := f (q000 p) (q000 q); q090 := f (q090 p) (q090 q); q180 := f (q180 p) (q180 q); q270 := f (q270 p) (q270 q) |}.

(* _get_a_f 538-556 *)
Definition get_a_f (t : house_type) (a r_fa : R) : storeys :=
  match t with Detached => Two (a / (1 + r_fa)) (a * r_fa / (1 + r_fa)) | Attached => One a end.

(* _get_entrance 559-613: earth floor area, floor area, perimeter outside, perimeter inside *)
Definition get_entrance (t : house_type) (ins : insulation) (ms os : R) : res (R * R * quad * R) :=
  match t with
  | Detached =>
      let outside := {| q000 := 0; q090 := os; q180 := ms; q270 := 0 |} in
      match ins with
      | InsFloor => Ok (ms * os, 0, outside, ms + os)
      | InsBase => Ok (ms * os, 0, outside, 0)
      | _ => Err OtherError
      end
  | Attached => Ok (0, ms * os, zero4, 0)
  end.

(* _get_bath 616-693 *)
Definition get_bath (t : house_type) (ins bath : insulation) (ms os : R) : res (R * R * quad * R) :=
  match t with
  | Detached =>
      let outside := {| q000 := 0; q090 := os; q180 := ms; q270 := 0 |} in
      match ins, bath with
      | InsBase, _ => Ok (ms * os, 0, outside, 0)
      | InsFloor, InsBase => Ok (ms * os, 0, outside, ms + os)
      | InsFloor, InsFloor | InsFloor, InsNotExist => Ok (0, ms * os, zero4, 0)
      | _, _ => Err OtherError
      end
  | Attached => Ok (0, ms * os, zero4, 0)
  end.

(* a ** 0.5: a negative number gives a complex number, which the next max (735, 740, 773) cannot compare *)
Definition root (a : R) : res R := if Rlt_dec a 0 then Err TypeError else Ok (sqrt a).

(* _get_f_s 696-743; the second default factor is used for detached houses only *)
Definition get_f_s (t : house_type) (a_env : R) (a_f h : storeys) (h_other h_bath h_etrc : R) (bath_out : quad) (bath_in : R) (etrc_out : quad)
    (etrc_in : R) (f_default : storeys) : res storeys :=
  let l_etrc := quad_sum etrc_out + etrc_in in                                                                      (* 725 *)
  let l_bath := quad_sum bath_out + bath_in in                                                                      (* 726 *)
  let x := a_env - 2 * ground a_f - l_etrc * h_etrc - l_bath * h_bath + (l_etrc + l_bath) * h_other in              (* 728-731 *)
  match t, a_f, h, f_default with
  | Detached, Two a1 a2, Two h1 h2, Two d1 d2 =>
      bind (root a1) (fun s1 => bind (root a2) (fun s2 =>
      let y := 4 * s1 * (h1 + h_other) + 4 * s2 * d2 / d1 * h2 in                                                   (* 734 *)
      bind (fdiv x y) (fun r =>
      let f2 := Rmax (r * d2 / d1) 1 in Ok (Two (f2 * d1 / d2) f2))))                                               (* 735-737 *)
  | Attached, _, _, _ =>
      bind (root (ground a_f)) (fun s1 => bind (fdiv x (4 * s1 * ground h)) (fun r => Ok (One (Rmax r 1))))         (* 739-741 *)
  | Detached, _, _, _ => Err IndexError
  end.

(* _get_l_prm 746-758 *)
Definition get_l_prm (a_f f_s : storeys) : res storeys :=
  match a_f, f_s with
  | One a, One f | One a, Two f _ | Two a _, One f => bind (root a) (fun s => Ok (One (4 * s * f)))
  | Two a b, Two f g => bind (root a) (fun s => bind (root b) (fun r => Ok (Two (4 * s * f) (4 * r * g))))
  end.

(* _get_l 761-786 *)
Definition get_l (t : house_type) (a_f l_prm : storeys) : storeys * storeys :=
  let dif := zip_with (fun l a => sqrt (Rmax ((l / 2) ^ 2 - 4 * a) 0) / 2) l_prm a_f in                             (* 773 *)
  let long := zip_with (fun l d => l / 4 + d) l_prm dif in
  let short := zip_with (fun l d => l / 4 - d) l_prm dif in
  match t with Detached => (long, short) | Attached => (short, long) end.

(* what calc_area returns (1395-1437), as far as it is used by get_model_house_no_spec or needed to state what was produced *)
Record shape := {
  sh_type : house_type; sh_ins : insulation; sh_a_f : storeys; sh_h : storeys; sh_l_ms : storeys; sh_l_os : storeys;
  sh_ef_total : R; sh_f_total : R; sh_roof : R;
  sh_l_base_out : quad; sh_l_base_in : R; sh_base_out : quad; sh_base_in : R;
  sh_total_not_base : R; sh_total : R; sh_window : quad; sh_door : quad; sh_wall : quad
}.

(* h_base_bath 1235-1247: the inner dictionaries are built for attached houses too *)
Definition get_h_base_bath (t : house_type) (ins bath : insulation) : res R :=
  bind (match bath with InsFloor | InsNotExist | InsNone => Ok 0 | InsBase => Ok (1 / 2) | InsOther => Err KeyError end) (fun b =>
  bind (match ins with InsFloor => Ok b | InsBase => Ok (1 / 2) | InsNone => Ok 0 | _ => Err KeyError end) (fun d =>
  Ok (match t with Detached => d | Attached => 0 end))).

(* h_base_other 1250-1253 *)
Definition get_h_base_other (t : house_type) (ins : insulation) : res R :=
  bind (match ins with InsFloor => Ok 0 | InsBase => Ok (1 / 2) | InsNone => Ok 0 | _ => Err KeyError end) (fun d =>
  Ok (match t with Detached => d | Attached => 0 end)).

(* _get_l_base_other 1103-1139 *)
Definition get_l_base_other (t : house_type) (ins : insulation) (l_ms l_os : storeys) (etrc bath : quad) : quad :=
  match t, ins with
  | Detached, InsBase =>
      {| q000 := ground l_ms - q000 etrc - q000 bath; q090 := ground l_os - q090 etrc - q090 bath;
         q180 := ground l_ms - q180 etrc - q180 bath; q270 := ground l_os - q270 etrc - q270 bath |}
  | _, _ => zero4
  end.

(* _get_a_evp_ef_other 1184-1200 *)
Definition get_ef_other (t : house_type) (ins : insulation) (a_f0 ef_bath ef_etrc : R) : R :=
  match t, ins with Detached, InsBase => a_f0 - ef_etrc - ef_bath | _, _ => 0 end.

(* the three summands of _get_l_base_total 1068-1100 and _get_a_evp_base_total 939-971 *)
Definition quad_total (etrc bath other : quad) : quad := quad_zip Rplus (quad_zip Rplus other etrc) bath.

(* calc_area 1203-1437 *)
Definition calc_area (t : house_type) (a_f_total r_open : R) (ins bath : insulation) (a_env : option R) : res shape :=
  let f_default := match t with Detached => Two (108 / 100) (104 / 100) | Attached => One (1048215 / 1000000) end in       (* 1225 *)
  let h_etrc := match t with Detached => 18 / 100 | Attached => 0 end in                                                   (* 1232 *)
  bind (get_h_base_bath t ins bath) (fun h_bath =>
  bind (get_h_base_other t ins) (fun h_other =>
  let h := match t with Detached => Two (29 / 10) (27 / 10) | Attached => One (28 / 10) end in                             (* 1256 *)
  let door_entrance := match t with Detached => 189 / 100 | Attached => 1755 / 1000 end in                                 (* 1260 *)
  let door_back := match t with Detached => 162 / 100 | Attached => 0 end in                                               (* 1263 *)
  let '(etrc_ms, etrc_os) := match t with Detached => (1365 / 1000, 182 / 100) | Attached => (1, 1) end in                 (* 1267 *)
  let '(bath_ms, bath_os) := match t with Detached => (182 / 100, 182 / 100) | Attached => (21 / 10, 1365 / 1000) end in   (* 1271 *)
  let r_window := match t with                                                                                             (* 1282-1285 *)
                  | Detached => {| q000 := 6862 / 10000; q090 := 721 / 10000; q180 := 1097 / 10000; q270 := 1320 / 10000 |}
                  | Attached => {| q000 := 6330 / 10000; q090 := 1517 / 10000; q180 := 2153 / 10000; q270 := 0 |}
                  end in
  let a_f := get_a_f t a_f_total (77 / 100) in                                                                             (* 1290, 1229 *)
  bind (get_entrance t ins etrc_ms etrc_os) (fun '(ef_etrc, f_etrc, etrc_out, etrc_in) =>                                  (* 1295 *)
  bind (get_bath t ins bath bath_ms bath_os) (fun '(ef_bath, f_bath, bath_out, bath_in) =>                                 (* 1301 *)
  bind (match a_env with                                                                                                   (* 1307-1313 *)
        | None => Ok f_default
        | Some a => get_f_s t a a_f h h_other h_bath h_etrc bath_out bath_in etrc_out etrc_in f_default
        end) (fun f_s =>
  bind (get_l_prm a_f f_s) (fun l_prm =>                                                                                   (* 1316 *)
  let '(l_ms, l_os) := get_l t a_f l_prm in                                                                                (* 1321 *)
  let ef_other := get_ef_other t ins (ground a_f) ef_bath ef_etrc in                                                       (* 1324 *)
  let ef_total := ef_etrc + ef_bath + ef_other in                                                                          (* 1327, 1181 *)
  let f_other := ground a_f - ef_total - f_etrc - f_bath in                                                                (* 1330, 1168 *)
  let f_total := f_etrc + f_bath + f_other in                                                                              (* 1333, 1153 *)
  let l_other := get_l_base_other t ins l_ms l_os etrc_out bath_out in                                                     (* 1337 *)
  let l_base_out := quad_total etrc_out bath_out l_other in                                                                (* 1342 *)
  let l_base_in := 0 + etrc_in + bath_in in                                                                                (* 1098 *)
  let roof := ground a_f in                                                                                                (* 1348, 1065 *)
  let base_out := quad_total (quad_map (fun l => l * h_etrc) etrc_out) (quad_map (fun l => l * h_bath) bath_out)
                             (quad_map (fun l => l * h_other) l_other) in                                                  (* 1352-1369 *)
  let base_in := 0 + etrc_in * h_etrc + bath_in * h_bath in                                                                (* 969 *)
  let srf := {| q000 := storey_sum (zip_with Rmult l_ms h); q090 := storey_sum (zip_with Rmult l_os h);
                q180 := storey_sum (zip_with Rmult l_ms h); q270 := storey_sum (zip_with Rmult l_os h) |} in               (* 1372, 921-936 *)
  let not_base := f_total + ef_total + roof + quad_sum srf in                                                              (* 1375, 918 *)
  let total := not_base + quad_sum base_out + base_in in                                                                   (* 1378, 899 *)
  let window_total := not_base * r_open - door_entrance - door_back in                                                     (* 1381-1384, 885, 873 *)
  let window := quad_map (fun r => window_total * r) r_window in                                                           (* 1387 *)
  let door := match t with                                                                                                 (* 1390, 826-840 *)
              | Detached => {| q000 := 0; q090 := door_entrance; q180 := door_back; q270 := 0 |}
              | Attached => {| q000 := 0; q090 := 0; q180 := door_entrance; q270 := 0 |}
              end in
  let wall := quad_zip Rminus (quad_zip Rminus srf window) door in                                                         (* 1393, 806-809 *)
  Ok {| sh_type := t; sh_ins := ins; sh_a_f := a_f; sh_h := h; sh_l_ms := l_ms; sh_l_os := l_os;
        sh_ef_total := ef_total; sh_f_total := f_total; sh_roof := roof;
        sh_l_base_out := l_base_out; sh_l_base_in := l_base_in; sh_base_out := base_out; sh_base_in := base_in;
        sh_total_not_base := not_base; sh_total := total; sh_window := window; sh_door := door; sh_wall := wall |})))))).

(* the parts of get_model_house_no_spec 10-535; space_type is always UNDEFINED *)
Definition mh_env (name : string) (n : next_space) (d : direction) (area : R) : envelope :=
  {| e_name := name; e_next_space := n; e_direction := d; e_area := area; e_space_type := UNDEFINED |}.
Definition mh_gp (name : string) (k : gp_type) (n : next_space) (d : direction) (area : R) (s : opaque_shade) : general_part_ns :=
  {| gp_env := mh_env name n d area; gp_kind := k; gp_shade := s |}.
Definition mh_w (name : string) (n : next_space) (d : direction) (area : R) : window_ns :=
  {| w_env := mh_env name n d area; w_shade := TrSimple (3 / 10) 1 0 |}.
Definition mh_d (name : string) (n : next_space) (d : direction) (area : R) (s : opaque_shade) : door_ns :=
  {| d_env := mh_env name n d area; d_shade := s |}.
Definition mh_ep (name : string) (n : next_space) (l : R) : perimeter_ns :=
  {| ep_name := name; ep_next_space := n; ep_length := l; ep_space_type := UNDEFINED |}.

(* if x > 0.0: raise Exception *)
Definition none_of (xs : list R) : res unit := if existsb (fun x => if Rlt_dec 0 x then true else false) xs then Err OtherError else Ok tt.

Definition get_model_house_no_spec (s : shape) : res parts_ns :=
  let wl := sh_wall s in let wn := sh_window s in let dr := sh_door s in
  let bo := sh_base_out s in let lo := sh_l_base_out s in
  match sh_type s with
  | Detached =>
      bind (none_of [q000 dr; q270 dr]) (fun _ =>                                                      (* 232-235 *)
      bind (match sh_ins s with                                                                        (* 292-308 *)
            | InsFloor => Ok [mh_gp "floor" FLOOR OPEN_UNDERFLOOR DDownward (sh_f_total s) OpNotDefined]
            | InsBase => bind (none_of [sh_f_total s]) (fun _ => Ok [])
            | _ => Err OtherError
            end) (fun floors =>
      bind (match sh_ins s with                                                                        (* 330-396 *)
            | InsFloor => bind (none_of [q000 bo; q270 bo]) (fun _ => Ok
                [mh_gp "base_outside_nw" WALL OUTDOOR DNW (q090 bo) OpNotInput; mh_gp "base_outside_ne" WALL OUTDOOR DNE (q180 bo) OpNotInput])
            | InsBase => Ok
                [mh_gp "base_outside_sw" WALL OUTDOOR DSW (q000 bo) OpNotInput; mh_gp "base_outside_nw" WALL OUTDOOR DNW (q090 bo) OpNotInput;
                 mh_gp "base_outside_ne" WALL OUTDOOR DNE (q180 bo) OpNotInput; mh_gp "base_outside_se" WALL OUTDOOR DSE (q270 bo) OpNotInput]
            | _ => Err OtherError
            end) (fun base_outsides =>
      bind (match sh_ins s with                                                                        (* 414-432 *)
            | InsFloor => Ok [mh_gp "base_inside" WALL OPEN_UNDERFLOOR DHorizontal (sh_base_in s) OpNotDefined]
            | InsBase => bind (none_of [sh_base_in s]) (fun _ => Ok [])
            | _ => Err OtherError
            end) (fun base_insides =>
      bind (match sh_ins s with                                                                        (* 444-492 *)
            | InsFloor => bind (none_of [q000 lo; q270 lo]) (fun _ => Ok
                [mh_ep "earth_floor_perimeter_nw" OUTDOOR (q090 lo); mh_ep "earth_floor_perimeter_ne" OUTDOOR (q180 lo)])
            | InsBase => Ok
                [mh_ep "earth_floor_perimeter_sw" OUTDOOR (q000 lo); mh_ep "earth_floor_perimeter_nw" OUTDOOR (q090 lo);
                 mh_ep "earth_floor_perimeter_ne" OUTDOOR (q180 lo); mh_ep "earth_floor_perimeter_se" OUTDOOR (q270 lo)]
            | _ => Err OtherError
            end) (fun eps_out =>
      bind (match sh_ins s with                                                                        (* 510-525 *)
            | InsFloor => Ok [mh_ep "earth_floor_perimeter_inside" OPEN_UNDERFLOOR (sh_l_base_in s)]
            | InsBase => bind (none_of [sh_l_base_in s]) (fun _ => Ok [])
            | _ => Err OtherError
            end) (fun eps_in =>
      Ok {| n_gps :=
              [mh_gp "roof" CEILING OUTDOOR DTop (sh_roof s) OpNotInput] ++                            (* 44-55 *)
              [mh_gp "wall_sw" WALL OUTDOOR DSW (q000 wl) OpNotInput; mh_gp "wall_nw" WALL OUTDOOR DNW (q090 wl) OpNotInput;
               mh_gp "wall_ne" WALL OUTDOOR DNE (q180 wl) OpNotInput; mh_gp "wall_se" WALL OUTDOOR DSE (q270 wl) OpNotInput] ++   (* 75-113 *)
              floors ++ base_outsides ++ base_insides;
            n_ws := [mh_w "window_sw" OUTDOOR DSW (q000 wn); mh_w "window_nw" OUTDOOR DNW (q090 wn);
                     mh_w "window_ne" OUTDOOR DNE (q180 wn); mh_w "window_se" OUTDOOR DSE (q270 wn)];  (* 160-194 *)
            n_ds := [mh_d "door_nw" OUTDOOR DNW (q090 dr) OpNotInput; mh_d "door_ne" OUTDOOR DNE (q180 dr) OpNotInput];           (* 236-253 *)
            n_eps := eps_out ++ eps_in;
            n_ecs := [ {| ec_name := "earth_floor"; ec_area := sh_ef_total s; ec_space_type := "undefined" |} ] |}))))))  (* 277-280 *)
  | Attached =>
      bind (none_of [q270 wn]) (fun _ =>                                                               (* 196-197 *)
      bind (none_of [q000 dr; q090 dr; q270 dr]) (fun _ =>                                             (* 255-260 *)
      bind (none_of [sh_ef_total s]) (fun _ =>                                                         (* 282-283 *)
      bind (none_of [q000 bo; q090 bo; q180 bo; q270 bo]) (fun _ =>                                    (* 398-405 *)
      bind (none_of [sh_base_in s]) (fun _ =>                                                          (* 434-435 *)
      bind (none_of [q000 lo; q090 lo; q180 lo; q270 lo]) (fun _ =>                                    (* 494-501 *)
      bind (none_of [sh_l_base_in s]) (fun _ =>                                                        (* 527-528 *)
      Ok {| n_gps :=
              [mh_gp "roof" UPWARD_BOUNDARY_FLOOR AIR_CONDITIONED DUpward (sh_roof s) OpNotDefined] ++ (* 56-67 *)
              [mh_gp "wall_sw" WALL OUTDOOR DSW (q000 wl) OpNotInput; mh_gp "wall_nw" WALL OUTDOOR DNW (q090 wl) OpNotInput;
               mh_gp "wall_ne" WALL OPEN_SPACE DHorizontal (q180 wl) OpNotDefined;
               mh_gp "wall_se" BOUNDARY_WALL AIR_CONDITIONED DHorizontal (q270 wl) OpNotDefined] ++   (* 114-152 *)
              [mh_gp "floor" DOWNWARD_BOUNDARY_FLOOR AIR_CONDITIONED DDownward (sh_f_total s) OpNotDefined];   (* 311-322 *)
            n_ws := [mh_w "window_sw" OUTDOOR DSW (q000 wn); mh_w "window_nw" OUTDOOR DNW (q090 wn);
                     mh_w "window_ne" OPEN_SPACE DHorizontal (q180 wn)];                               (* 198-223 *)
            n_ds := [mh_d "door_ne" OPEN_SPACE DHorizontal (q180 dr) OpNotDefined];                    (* 261-270 *)
            n_eps := []; n_ecs := [] |})))))))
  end.

(* convert_indices_to_lv2_info.py convert_spec 16-79 without reading and writing dictionaries: r_open 34, insulation types 37-40 *)
Definition indices_to_lv2 (t : house_type) (region : Z) (a_f_total a_env u_a eta_a_h eta_a_c : R)
    : res (list general_part * list window * list door * list perimeter * list center) :=
  let '(ins, bath) := match t with Detached => (InsFloor, InsBase) | Attached => (InsNone, InsNone) end in
  bind (calc_area t a_f_total (1 / 10) ins bath (Some a_env)) (fun s =>
  bind (get_model_house_no_spec s) (fun h => spec_from_indices region u_a eta_a_h eta_a_c h)).
