(* heat_load_calc/initializer/initializer.py, furniture.py, occupants_form_factor.py,
   a12_indoor_radiative_heat_transfer.py, a22_radiative_heating_spec.py *)
From Coq Require Import Reals List String ZArith Bool.
From Verif Require Import Model.Py Model.Trig Model.BoundaryDict Model.BoundarySimple Model.ResponseFactor Model.HouseDict Model.Residents Model.Schedule.
From Verif Require Model.OutsideEqvTemp.
Import ListNotations.
Local Open Scope R_scope.

Definition sum : list R -> R := OutsideEqvTemp.sum.

(* initializer.py 44-56 *)
Inductive room_kind := MAIN_OCCUPANT_ROOM | OTHER_OCCUPANT_ROOM | NON_OCCUPANT_ROOM | UNDERFLOOR.
Definition RoomType (s : string) : res room_kind :=
  if (s =? "main_occupant_room")%string then Ok MAIN_OCCUPANT_ROOM
  else if (s =? "other_occupant_room")%string then Ok OTHER_OCCUPANT_ROOM
  else if (s =? "non_occupant_room")%string then Ok NON_OCCUPANT_ROOM
  else if (s =? "underfloor")%string then Ok UNDERFLOOR
  else Err ValueError.
Definition room_kind_eq_dec (a b : room_kind) : {a = b} + {a <> b}.
Proof. decide equality. Defined.

(* 59-74: the two classes have the same members *)
Inductive equip_kind := NOT_INSTALLED | CONVECTIVE | RADIATIVE.
Definition EquipmentType (s : string) : res equip_kind :=
  if (s =? "not_installed")%string then Ok NOT_INSTALLED
  else if (s =? "convective")%string then Ok CONVECTIVE
  else if (s =? "radiative")%string then Ok RADIATIVE
  else Err ValueError.

(* 603-611 *)
Definition check_specifying_room_type (ts : list room_kind) (t : room_kind) : res unit :=
  if Nat.eqb (count_occ room_kind_eq_dec ts t) 1 then Ok tt else Err ValueError.
(* 614-622 *)
Definition check_not_specifying_multi_room_type (ts : list room_kind) (t : room_kind) : res unit :=
  if Nat.ltb 1 (count_occ room_kind_eq_dec ts t) then Err ValueError else Ok tt.

(* what is kept of a room's equipment: 374-411, 421-458 *)
Inductive equip_spec := NoSpec | ConvSpec (q_min q_max v_min v_max : R) | RadSpec (max_capacity area : R).

Definition read_equipment (e : equip_in) : res equip_spec :=
  bind (key (e_type e)) (fun t => bind (EquipmentType t) (fun k =>
  match k with
  | NOT_INSTALLED => Ok NoSpec
  | CONVECTIVE => bind (key (e_convective e)) (fun c => bind (key (ci_q_min c)) (fun a => bind (key (ci_q_max c)) (fun b =>
                  bind (key (ci_v_min c)) (fun v => bind (key (ci_v_max c)) (fun w => Ok (ConvSpec a b v w))))))
  | RADIATIVE => bind (key (e_radiative e)) (fun r => bind (key (ri_max_capacity r)) (fun m => bind (key (ri_area r)) (fun a =>
                  Ok (RadSpec m a))))
  end)).

(* 465-474: the share of convection is 0.0 for every kind *)
Definition beta (s : equip_spec) : R := match s with NoSpec => 0 | ConvSpec _ _ _ _ => 0 | RadSpec _ _ => 0 end.

Definition no_conv : conv_out := {| co_installed := false; co_q_min := None; co_q_max := None; co_v_min := None; co_v_max := None |}.
Definition no_rad : rad_out := {| ro_installed := false; ro_max_capacity := None |}.

(* 494-526: of convective heating only 'installed' is written *)
Definition write_heating (s : equip_spec) : equip_out :=
  match s with
  | NoSpec => {| o_radiative := no_rad; o_convective := no_conv; o_max_capacity := None |}
  | ConvSpec _ _ _ _ =>
      {| o_radiative := no_rad;
         o_convective := {| co_installed := true; co_q_min := None; co_q_max := None; co_v_min := None; co_v_max := None |};
         o_max_capacity := None |}
  | RadSpec m a =>
      {| o_radiative := {| ro_installed := true; ro_max_capacity := Some (m * a) |}; o_convective := no_conv; o_max_capacity := None |}
  end.

(* 528-565 *)
Definition write_cooling (s : equip_spec) : equip_out :=
  match s with
  | NoSpec => {| o_radiative := no_rad; o_convective := no_conv; o_max_capacity := None |}
  | ConvSpec a b v w =>
      {| o_radiative := no_rad;
         o_convective := {| co_installed := true; co_q_min := Some a; co_q_max := Some b; co_v_min := Some v; co_v_max := Some w |};
         o_max_capacity := None |}
  | RadSpec m a =>
      {| o_radiative := {| ro_installed := true; ro_max_capacity := Some (m * a) |}; o_convective := no_conv; o_max_capacity := None |}
  end.

(* 733-771. The index is a list with one room id (359), so negative ids count from the end and ids outside the matrix
   are an IndexError. *)
Definition add_path (row : list R) (p : Z * R) : res (list R) :=
  bind (py_get row (fst p)) (fun x => py_set row (fst p) (x + snd p / 3600)).
Definition get_v_int_vent_is (next_vents : list (list (Z * R))) (n_rooms : nat) : res (list (list R)) :=
  mapM (fun paths => foldM add_path paths (repeat 0 n_rooms)) next_vents.

(* furniture.py 8-24, 27-38, 41-55, 58-69 *)
Definition get_c_cap_frt (v : R) : R := 126 / 10 * v * 1000.
Definition get_g_sh_frt (c : R) : R := 22 / 100000 * c.
Definition get_c_lh_frt (v : R) : R := 168 / 10 * v.
Definition get_g_lh_frt (c : R) : R := 18 / 10000 * c.

(* for i, room_id in enumerate(room_id_is): if i != room_id: raise ValueError (323-325) *)
Fixpoint check_ids (i : Z) (ids : list Z) : res unit :=
  match ids with
  | [] => Ok tt
  | x :: r => if (i =? x)%Z then check_ids (i + 1)%Z r else Err ValueError
  end.

Record room_row := {
  rr_id : Z; rr_name : string; rr_volume : R; rr_vent : R; rr_paths : list R; rr_natural : R; rr_heating : equip_spec; rr_cooling : equip_spec
}.

(* 571-598 and 480-492 *)
Definition make_space (r : room_row) : space :=
  let v := rr_volume r in
  {| sp_id := rr_id r; sp_name := rr_name r; sp_volume := v; sp_beta := beta (rr_heating r);
     sp_mechanical := rr_vent r / 3600;
     sp_next_spaces := rr_paths r;
     sp_natural := v * rr_natural r / 3600;
     sp_heat_capacity := get_c_cap_frt v; sp_heat_cond := get_g_sh_frt (get_c_cap_frt v);
     sp_moisture_capacity := get_c_lh_frt v; sp_moisture_cond := get_g_lh_frt (get_c_lh_frt v);
     sp_heating := write_heating (rr_heating r); sp_cooling := write_cooling (rr_cooling r) |}.

Definition read_paths (r : room_in) : res (list (Z * R)) :=
  bind (key (r_next_vent r)) (mapM (fun p => bind (key (upstream_room_id p)) (fun k => bind (key (v_volume p)) (fun v => Ok (k, v))))).

(* the columns read above, put side by side; all have one entry per room *)
Fixpoint rows (ids : list Z) (names : list string) (vols vents : list R) (ps : list (list R)) (nats : list R) (hs cs : list equip_spec)
    : list room_row :=
  match ids, names, vols, vents, ps, nats, hs, cs with
  | i :: ids, n :: names, v :: vols, u :: vents, p :: ps, t :: nats, h :: hs, c :: cs =>
      {| rr_id := i; rr_name := n; rr_volume := v; rr_vent := u; rr_paths := p; rr_natural := t; rr_heating := h; rr_cooling := c |}
        :: rows ids names vols vents ps nats hs cs
  | _, _, _, _, _, _, _, _ => []
  end.

(* 306-600 _make_spaces_dict *)
Definition make_spaces_dict (rooms : list room_in) : res (list space) :=
  let n_spaces := List.length rooms in                                                      (* 318 *)
  bind (mapM (fun r => key (r_id r)) rooms) (fun ids =>                                     (* 321 *)
  bind (check_ids 0 ids) (fun _ =>                                                          (* 323-325 *)
  bind (mapM (fun r => key (r_name r)) rooms) (fun names =>                                 (* 328 *)
  bind (mapM (fun r => bind (key (r_room_type r)) RoomType) rooms) (fun types =>            (* 334 *)
  bind (check_specifying_room_type types MAIN_OCCUPANT_ROOM) (fun _ =>                      (* 336 *)
  bind (check_not_specifying_multi_room_type types MAIN_OCCUPANT_ROOM) (fun _ =>            (* 338 *)
  bind (check_not_specifying_multi_room_type types OTHER_OCCUPANT_ROOM) (fun _ =>           (* 340 *)
  bind (check_not_specifying_multi_room_type types NON_OCCUPANT_ROOM) (fun _ =>             (* 342 *)
  bind (check_not_specifying_multi_room_type types UNDERFLOOR) (fun _ =>                    (* 344 *)
  bind (mapM (fun r => key (r_volume r)) rooms) (fun vols =>                                (* 347 *)
  bind (mapM (fun r => key (r_vent r)) rooms) (fun vents =>                                 (* 350 *)
  bind (mapM read_paths rooms) (fun next_vents =>                                           (* 357-361 *)
  bind (mapM (fun r => key (r_natural_vent_time r)) rooms) (fun nats =>                     (* 364 *)
  bind (mapM (fun r => key (r_heating r)) rooms) (fun hes =>                                (* 367 *)
  bind (mapM read_equipment hes) (fun hs =>                                                 (* 374-411 *)
  bind (mapM (fun r => key (r_cooling r)) rooms) (fun ces =>                                (* 414 *)
  bind (mapM read_equipment ces) (fun cs =>                                                 (* 421-458 *)
  bind (get_v_int_vent_is next_vents n_spaces) (fun ps =>                                   (* 477 *)
  Ok (map make_space (rows ids names vols vents ps nats hs cs)))))))))))))))))))).          (* 569-600 *)

(* 280-303 *)
Definition make_building_dict (d : building_in) : res (Z * R * string) :=
  bind (key (story d)) (fun s =>
  if negb ((s =? 1)%Z || (s =? 2)%Z) then Err ValueError else                               (* 290 *)
  bind (key (c_value d)) (fun c =>                                                          (* 293 *)
  bind (key (inside_pressure d)) (fun p =>                                                  (* 296 *)
  if (p =? "positive")%string || (p =? "negative")%string || (p =? "balanced")%string then Ok (s, c, p) else Err ValueError))).

(* l[mask] and l[mask] = vals for lists *)
Fixpoint select {A} (mask : list bool) (l : list A) : list A :=
  match mask, l with
  | true :: m, x :: r => x :: select m r
  | false :: m, _ :: r => select m r
  | _, _ => []
  end.
Fixpoint put {A} (l : list A) (mask : list bool) (vals : list A) : list A :=
  match l, mask, vals with
  | _ :: r, true :: m, v :: vs => v :: put r m vs
  | x :: r, false :: m, vs => x :: put r m vs
  | l, _, _ => l
  end.

Definition times (x : option R) (k : R) : option R := obind x (fun x => Some (x * k)).

(* occupants_form_factor.py 4-32; a quotient whose divisor is zero is not finite: None. A room without boundaries has
   an empty floor array of floats, which cannot be used as an index (IndexError). *)
Definition get_f_mrt_hum_is (a : list R) (is_floor : list bool) : res (list (option R)) :=
  if Nat.eqb (List.length a) 0 then Err IndexError else
  let f_mrt_hum_floor := 45 / 100 in                                                        (* 18 *)
  let f := repeat (Some 0) (List.length a) in                                               (* 21 *)
  let f1 := is_floor in
  let a1 := select f1 a in
  let f := put f f1 (map (fun x => times (div x (sum a1)) f_mrt_hum_floor) a1) in           (* 25 *)
  let f2 := map negb is_floor in
  let a2 := select f2 a in
  Ok (put f f2 (map (fun x => times (div x (sum a2)) (1 - f_mrt_hum_floor)) a2)).            (* 29 *)

(* a12 8-23; a quotient that is not finite stays so when multiplied by False (inf * 0 = nan) *)
Definition get_flr_i_js (a : list R) (is_radiative_heating : bool) (is_floor : list bool) : res (list (option R)) :=
  if Nat.eqb (List.length a) 0 then Err IndexError else
  let a_floor := sum (select is_floor a) in                                                 (* 20 *)
  Ok (map (fun p : R * bool => times (times (div (fst p) a_floor) (if is_radiative_heating then 1 else 0)) (if snd p then 1 else 0))
        (combine a is_floor)).                                                              (* 22 *)

(* 707-731 _get_boundary_spec *)
Definition get_boundary_spec (b : bdict) (t : btype) : res spec :=
  match t with
  | ExternalGeneralPart | Internal =>
      bind (key (BoundaryDict.layers b)) (fun l => bind (key (BoundaryDict.outside_heat_transfer_resistance b)) (fun r_o =>
      Ok {| s_method := Some "layers"%string;
            s_boundary_type := Some (match t with Internal => "internal" | _ => "external_general_part" end)%string;
            s_layers := Some l; s_outside_heat_transfer_resistance := Some r_o;
            s_u_value := None; s_inside_heat_transfer_resistance := None;
            s_phi_t0 := None; s_phi_a0 := None; s_phi_t1 := None; s_phi_a1 := None; s_r := None |}))
  | Ground =>
      bind (key (BoundaryDict.layers b)) (fun l =>
      Ok {| s_method := Some "layers_ground"%string; s_boundary_type := Some "ground"%string;
            s_layers := Some l; s_outside_heat_transfer_resistance := None;
            s_u_value := None; s_inside_heat_transfer_resistance := None;
            s_phi_t0 := None; s_phi_a0 := None; s_phi_t1 := None; s_phi_a1 := None; s_r := None |})
  | ExternalTransparentPart | ExternalOpaquePart =>
      bind (key (BoundaryDict.u_value b)) (fun u => bind (key (BoundaryDict.inside_heat_transfer_resistance b)) (fun r_i =>
      Ok {| s_method := Some "u_value"%string;
            s_boundary_type := Some (match t with ExternalTransparentPart => "external_transparent_part" | _ => "external_opaque_part" end)%string;
            s_layers := None; s_outside_heat_transfer_resistance := None;
            s_u_value := Some u; s_inside_heat_transfer_resistance := Some r_i;
            s_phi_t0 := None; s_phi_a0 := None; s_phi_t1 := None; s_phi_a1 := None; s_r := None |}))
  end.

(* 630-651: weight of the rear surface; round1 x is Python's round(x, 1). An internal boundary always has a rear
   surface id (boundary_simple.py 128-129). *)
Definition k_inside (round1 : R -> R) (bs : bsimple) : res (option (Z * R)) :=
  match bs_type bs with
  | ExternalOpaquePart | ExternalTransparentPart | ExternalGeneralPart =>
      if Rlt_dec (bs_h_td bs) 1 then Ok (Some (bs_id bs, round1 (1 - bs_h_td bs))) else Ok None
  | Internal => match bs_rear_surface_boundary_id bs with Some k => Ok (Some (k, 1)) | None => Err TypeError end
  | Ground => Ok None
  end.

(* 654-661, 669-676: for each room, the entries of its boundaries *)
Definition per_room (bss : list bsimple) (rooms : list Z) (f : Z -> list R -> list bool -> res (list (option R))) : res (list (option R)) :=
  foldM (fun acc i =>
    let mask := map (fun bs => (bs_connected_room_id bs =? i)%Z) bss in
    let l := select mask bss in
    bind (f i (map bs_area l) (map bs_is_floor l)) (fun vals => Ok (put acc mask vals)))
  rooms (repeat (Some 0) (List.length bss)).

Definition is_radiative (r : room_in) : res bool :=
  bind (key (r_heating r)) (fun e => bind (key (e_type e)) (fun t => Ok (t =? "radiative")%string)).

Definition bool_string (b : bool) : string := if b then "True" else "False".

(* 625-704 _make_boundaries *)
Definition make_boundaries (round1 : R -> R) (bss : list bsimple) (rooms : list room_in) (boundaries : list bdict) : res (list bdry) :=
  let n_spaces := Z.of_nat (List.length rooms) in                                           (* 628 *)
  bind (mapM (k_inside round1) bss) (fun k_ei =>                                            (* 630-651 *)
  bind (per_room bss (range 0 n_spaces) (fun _ a fl => get_f_mrt_hum_is a fl)) (fun f_mrt => (* 654-661 *)
  bind (mapM is_radiative rooms) (fun rad =>                                                (* 665 *)
  bind (per_room bss (range 0 n_spaces) (fun i a fl => bind (py_get rad i) (fun r => get_flr_i_js a r fl))) (fun flr => (* 669-676 *)
  bind (mapM (fun p => get_boundary_spec (fst p) (bs_type (snd p))) (combine boundaries bss)) (fun specs => (* 678 *)
  mapM (fun i =>
    bind (py_get bss i) (fun bs => bind (py_get flr i) (fun fl => bind (py_get f_mrt i) (fun fm =>
    bind (py_get k_ei i) (fun k => bind (py_get specs i) (fun s =>
    Ok {| bd_id := bs_id bs; bd_name := bs_name bs;
          bd_is_ground := match bs_type bs with Ground => "true" | _ => "false" end%string;
          bd_connected_space_id := bs_connected_room_id bs; bd_area := bs_area bs; bd_h_i := bs_h_i bs; bd_h_c := bs_h_c bs;
          bd_flr := fl; bd_is_solar_absorbed := bool_string (bs_is_solar_absorbed_inside bs); bd_f_mrt_hum := fm;
          bd_k_outside := bs_h_td bs; bd_k_inside := k; bd_spec := s |})))))) (range 0 (Z.of_nat (List.length bss)))))))). (* 680-704 *)

(* elementwise sum of equally long rows, None where one is not finite; rows of different lengths cannot be added *)
Definition add_series (a b : list (option R)) : res (list (option R)) :=
  if Nat.eqb (List.length a) (List.length b)
  then Ok (map (fun p => obind (fst p) (fun x => obind (snd p) (fun y => Some (x + y)))) (combine a b))
  else Err ValueError.
Definition sum_series (l : list (list (option R))) : res (list (option R)) :=
  match l with
  | [] => Err OtherError
  | a :: r => foldM add_series r a
  end.

(* np.array of rows, written to a csv file; rows of different lengths give no rectangular array *)
Definition rectangular {A} (l : list (list A)) : res (list (list A)) :=
  match l with
  | [] => Ok l
  | a :: r => if forallb (fun x => Nat.eqb (List.length x) (List.length a)) r then Ok l else Err OtherError
  end.

(* what make_house writes: mid_data_house.json (building, spaces, boundaries) and the csv files, here [i][n] and [j][n]
   (the files have one line per step) *)
Record mid_data := {
  m_building : Z * R * string; m_spaces : list space; m_boundaries : list bdry;
  m_schedules : compiled; m_q_trs_sol : list (list (option R)); m_theta_o_sol : list (list (option R))
}.

(* 76-189 make_house; ws are the rows of weather.csv (86, 244-277). For a room without boundaries 113 gives the number
   0.0 in place of a row, and writing the csv file (180-182) fails. Simplification: that error is raised where the sum is
   formed. *)
Definition make_house (round1 : R -> R) (tbl : tables) (calendar : list string) (ws : list wstep) (d : house_in) : res mid_data :=
  bind (key (h_rooms d)) (fun rooms =>                                                      (* 89 *)
  bind (mapM (fun r => key (r_name r)) rooms) (fun names =>                                 (* 94 *)
  bind (key (h_boundaries d)) (fun bds =>
  bind (mapM (get_boundary_simple ws) bds) (fun bss =>                                      (* 97-107 *)
  bind (mapM (fun i => sum_series (map bs_q_trs_sol (filter (fun bs => (bs_connected_room_id bs =? i)%Z) bss)))
          (range 0 (Z.of_nat (List.length rooms)))) (fun q =>                               (* 112-115 *)
  bind (mapM (fun r => key (r_floor_area r)) rooms) (fun a_floor =>                         (* 118 *)
  let n_p := get_total_number_of_residents (sum a_floor) in                                 (* 121-124 *)
  bind (get_compiled_schedules tbl calendar n_p names a_floor) (fun sch =>                  (* 132-137 *)
  bind (key (h_building d)) (fun bd => bind (make_building_dict bd) (fun building =>        (* 140 *)
  bind (make_spaces_dict rooms) (fun spaces =>                                              (* 143 *)
  bind (make_boundaries round1 bss rooms bds) (fun boundaries =>                            (* 145 *)
  bind (rectangular q) (fun q =>
  bind (rectangular (map bs_theta_o_sol bss)) (fun th =>                                    (* 187-189 *)
  Ok {| m_building := building; m_spaces := spaces; m_boundaries := boundaries; m_schedules := sch;
        m_q_trs_sol := q; m_theta_o_sol := th |}))))))))))))).
