(* heat_load_calc/convert/get_u_psi_eta_from_u_a_and_eta_a.py: U values of the parts from the U_A value of a house *)
From Coq Require Import Reals ZArith List String Bool.
From Verif Require Import Model.Py Model.FactorNu Model.EesHouse.
Import ListNotations.
Local Open Scope R_scope.

(* PartType 14-25 *)
Inductive part_type := PRoof | PCeiling | PWall | PFloor | PBoundaryCeiling | PBoundaryWall | PBoundaryFloor | PWindow | PDoor | PPerimeter.

(* PartType._fields *)
Definition part_types : list part_type :=
  [PRoof; PCeiling; PWall; PFloor; PBoundaryCeiling; PBoundaryWall; PBoundaryFloor; PWindow; PDoor; PPerimeter].

Definition part_eqb (a b : part_type) : bool :=
  match a, b with
  | PRoof, PRoof | PCeiling, PCeiling | PWall, PWall | PFloor, PFloor | PBoundaryCeiling, PBoundaryCeiling | PBoundaryWall, PBoundaryWall
  | PBoundaryFloor, PBoundaryFloor | PWindow, PWindow | PDoor, PDoor | PPerimeter, PPerimeter => true
  | _, _ => false
  end.

(* a table {1: .., 8: ..}[region], hundredths *)
Definition std_row (p : part_type) : list Z :=                                            (* 61-70 *)
  match p with
  | PRoof | PCeiling | PBoundaryCeiling => [17; 17; 24; 24; 24; 24; 24; 24]%Z
  | PWall | PBoundaryWall => [35; 35; 53; 53; 53; 53; 53; 410]%Z
  | PFloor | PBoundaryFloor => [34; 34; 34; 48; 48; 48; 48; 352]%Z
  | PWindow | PDoor => [233; 233; 349; 465; 465; 465; 465; 651]%Z
  | PPerimeter => [53; 53; 53; 76; 76; 76; 76; 180]%Z
  end.

(* get_u_psi_std 51-71 *)
Definition get_u_psi_std (region : Z) (p : part_type) : res R :=
  if (region <=? 0)%Z then Err KeyError
  else match nth_error (std_row p) (Z.to_nat (region - 1)) with Some z => Ok (IZR z / 100) | None => Err KeyError end.

(* get_u_psi_max 74-93 *)
Definition get_u_psi_max (p : part_type) : R :=
  match p with
  | PRoof => 1 / (9 / 100 + (95 / 10000) / (22 / 100) + 4 / 100)
  | PCeiling | PBoundaryCeiling => 1 / (9 / 100 + (95 / 10000) / (22 / 100) + 9 / 100)
  | PWall => 1 / (11 / 100 + (95 / 10000) / (22 / 100) + 4 / 100)
  | PFloor => 1 / (15 / 100 + (12 / 1000) / (16 / 100) + 4 / 100)
  | PBoundaryWall => 1 / (11 / 100 + (95 / 10000) / (22 / 100) + 11 / 100)
  | PBoundaryFloor => 1 / (15 / 100 + (12 / 1000) / (16 / 100) + 15 / 100)
  | PWindow | PDoor => 651 / 100
  | PPerimeter => 100
  end.

(* the dictionaries with one entry for every part type are functions here *)

(* get_f_u_psi_max_each_part 96-106 (no standard value is 0) *)
Definition get_f_max (std : part_type -> R) (p : part_type) : R := get_u_psi_max p / std p.

(* min(x for ...) over a non-empty list *)
Fixpoint min_of (x : R) (l : list R) : R := match l with [] => x | y :: r => Rmin x (min_of y r) end.

Definition eqbR (a b : R) : bool := if Req_EM_T a b then true else false.

(* get_remaining_f 119-159; the result is the dictionary as a list of entries. The recursion is bounded by fuel; the
   callers give it the number of parts, and the lemma get_remaining_f_ok shows that this never runs out. *)
Fixpoint get_remaining_f (fuel : nat) (q_std f_max : part_type -> R) (remaining_q base : R) (parts : list part_type)
    : res (list (part_type * R)) :=
  match parts with
  | [] => Ok []                                                                           (* 123-124 *)
  | p :: r =>
      match fuel with
      | O => Err OtherError
      | S fuel =>
          let limit := min_of (f_max p) (map f_max r) in                                  (* 127 *)
          let names := filter (fun p => eqbR (f_max p) limit) parts in                    (* 130 *)
          let q_max := py_sum (map q_std parts) * (limit - base) in                       (* 133 *)
          if Rlt_dec remaining_q q_max then                                               (* 140-142 *)
            bind (fdiv remaining_q (py_sum (map q_std parts))) (fun x => Ok (map (fun p => (p, base + x)) parts))
          else                                                                            (* 147-159 *)
            bind (get_remaining_f fuel q_std f_max (remaining_q - q_max) limit (filter (fun p => negb (eqbR (f_max p) limit)) parts))
                 (fun d => Ok (map (fun p => (p, limit)) names ++ d))
      end
  end.

(* get_f_u_psi 109-163 *)
Definition get_f_u_psi (q_std f_max : part_type -> R) (q : R) : res (list (part_type * R)) :=
  get_remaining_f (List.length part_types) q_std f_max q 0 part_types.

(* d[p] *)
Definition entry (p : part_type) (d : list (part_type * R)) : res R :=
  of_option KeyError (option_map snd (find (fun x => part_eqb (fst x) p) d)).

(* get_u_psi_value 166-176: a value for every part type *)
Definition get_u_psi_value (std : part_type -> R) (f : list (part_type * R)) : res (list (part_type * R)) :=
  mapM (fun p => bind (entry p f) (fun x => Ok (p, std p * x))) part_types.

(* u_psi_value[s.general_part_type.value], 196: the values of GeneralPartType (ees_house.py 30-48) that are also names of part types *)
Definition part_of_type (t : gp_type) : res part_type :=
  match t with
  | ROOF => Ok PRoof | CEILING => Ok PCeiling | WALL => Ok PWall | FLOOR => Ok PFloor | BOUNDARY_WALL => Ok PBoundaryWall
  | UPWARD_BOUNDARY_FLOOR | DOWNWARD_BOUNDARY_FLOOR => Err KeyError
  end.

(* the part types of _get_q_std, 396-429 *)
Definition std_part_of_type (t : gp_type) : part_type :=
  match t with
  | ROOF => PRoof | CEILING => PCeiling | WALL => PWall | FLOOR => PFloor | UPWARD_BOUNDARY_FLOOR => PBoundaryCeiling
  | BOUNDARY_WALL => PBoundaryWall | DOWNWARD_BOUNDARY_FLOOR => PBoundaryFloor
  end.

(* get_u_psi 28-48: boundary_floor reads the value of boundary_wall *)
Definition get_u_psi (u : list (part_type * R)) (p : part_type) : res R :=
  entry (match p with PBoundaryFloor => PBoundaryWall | p => p end) u.

(* a house without specifications: the result of get_model_house_no_spec *)
Record parts_ns := { n_gps : list general_part_ns; n_ws : list window_ns; n_ds : list door_ns; n_eps : list perimeter_ns; n_ecs : list center_ns }.

(* _get_a_evp_total 335-337 *)
Definition ns_area (h : parts_ns) : R :=
  py_sum (map (fun g => e_area (gp_env g)) (n_gps h) ++ map (fun w => e_area (w_env w)) (n_ws h)
          ++ map (fun d => e_area (d_env d)) (n_ds h) ++ map ec_area (n_ecs h)).

(* the sums over gps, ws, ds, eps in _get_q_std 376-444: s.area * std * s.get_h(region) *)
Definition std_q (std : R) (region : Z) (e : envelope) : res R := bind (env_h e region) (fun h => Ok (e_area e * std * h)).

(* _get_q_std 376-444. Every sum is evaluated, so an unknown region is a KeyError as soon as there is a part. *)
Definition get_q_std (region : Z) (std : part_type -> R) (h : parts_ns) (p : part_type) : res R :=
  match p with
  | PWindow => sumM (fun w => std_q (std p) region (w_env w)) (n_ws h)
  | PDoor => sumM (fun d => std_q (std p) region (d_env d)) (n_ds h)
  | PPerimeter => sumM (fun e => bind (FactorH.get_h (ep_next_space e) region) (fun x => Ok (ep_length e * std p * x))) (n_eps h)
  | _ => sumM (fun g => std_q (std p) region (gp_env g)) (filter (fun g => part_eqb (std_part_of_type (gp_kind g)) p) (n_gps h))
  end.

(* a dictionary comprehension over all part types as a function *)
Definition tabulate (f : part_type -> res R) : res (part_type -> R) :=
  bind (f PRoof) (fun a1 => bind (f PCeiling) (fun a2 => bind (f PWall) (fun a3 => bind (f PFloor) (fun a4 => bind (f PBoundaryCeiling) (fun a5 =>
  bind (f PBoundaryWall) (fun a6 => bind (f PBoundaryFloor) (fun a7 => bind (f PWindow) (fun a8 => bind (f PDoor) (fun a9 => bind (f PPerimeter) (fun a10 =>
  Ok (fun p => match p with
               | PRoof => a1 | PCeiling => a2 | PWall => a3 | PFloor => a4 | PBoundaryCeiling => a5 | PBoundaryWall => a6
               | PBoundaryFloor => a7 | PWindow => a8 | PDoor => a9 | PPerimeter => a10
               end))))))))))).

(* s.area * 0.034 * u * s.get_nu(region, season), 195-207 *)
Definition opaque_m_std (region : Z) (s : season) (e : envelope) (u : res R) : res R :=
  bind u (fun u => bind (env_nu e region s) (fun nu => Ok (e_area e * (34 / 1000) * u * nu))).

(* get_m_opq 179-212, one season *)
Definition get_m_opq (region : Z) (s : season) (u : list (part_type * R)) (h : parts_ns) : res (R * R) :=
  bind (sumM (fun g => opaque_m_std region s (gp_env g) (bind (part_of_type (gp_kind g)) (fun p => entry p u))) (n_gps h)) (fun g =>
  bind (sumM (fun d => opaque_m_std region s (d_env d) (entry PDoor u)) (n_ds h)) (fun d => Ok (g, d))).

(* 195-212: the evaluation order general parts (heating, cooling), doors (heating, cooling) only matters for which
   exception is raised; here heating comes first *)
Definition m_opq (region : Z) (s : season) (u : list (part_type * R)) (h : parts_ns) : res R :=
  bind (get_m_opq region s u h) (fun '(g, d) => Ok (g + d)).

(* sum_a_f_nu, 230-236 *)
Definition sum_a_f_nu (region : Z) (s : season) (ws : list window_ns) : res R :=
  sumM (fun w => bind (w_f region s w) (fun f => bind (env_nu (w_env w) region s) (fun nu => Ok (e_area (w_env w) * f * nu)))) ws.

(* np.clip(x, a, b) *)
Definition clip (x a b : R) : R := Rmin (Rmax x a) b.

(* get_eta_d_each 215-241, one season *)
Definition get_eta_d_each (m m_opq sum : R) : res R := bind (fdiv (m - m_opq) sum) (fun x => Ok (clip x 0 (88 / 100))).

(* calc_parts_spec 262-332: (u_psi, eta_d_h, eta_d_c); eta_d (244-259, their mean) is returned too but not used by the caller *)
Definition calc_parts_spec (region : Z) (u_a eta_a_h eta_a_c : R) (h : parts_ns) : res (list (part_type * R) * R * R) :=
  let a := ns_area h in                                                                                        (* 289 *)
  bind (tabulate (get_u_psi_std region)) (fun std =>
  bind (tabulate (get_q_std region std h)) (fun q_std =>                                                       (* 299 *)
  bind (get_f_u_psi q_std (get_f_max std) (a * u_a)) (fun f =>                                                 (* 292, 302-305 *)
  bind (get_u_psi_value std f) (fun u =>                                                                       (* 308 *)
  bind (m_opq region Heating u h) (fun mo_h => bind (m_opq region Cooling u h) (fun mo_c =>                    (* 311 *)
  bind (sum_a_f_nu region Heating (n_ws h)) (fun s_h => bind (sum_a_f_nu region Cooling (n_ws h)) (fun s_c =>
  bind (get_eta_d_each (eta_a_h / 100 * a) mo_h s_h) (fun e_h =>                                               (* 295, 314 *)
  bind (get_eta_d_each (eta_a_c / 100 * a) mo_c s_c) (fun e_c => Ok (u, e_h, e_c))))))))))).                   (* 296, 314 *)

(* convert_indices_to_lv2_info.py add_spec_gps 82-108 *)
Definition add_spec_gp (u : list (part_type * R)) (g : general_part_ns) : res general_part :=
  bind (bind (part_of_type (gp_kind g)) (get_u_psi u)) (fun x => Ok {| gp_ns := g; gp_spec_of := SpecOther (gp_kind g) x "light" |}).

(* add_spec_ws 111-141: the space type becomes UNDEFINED *)
Definition add_spec_w (u : list (part_type * R)) (eta_d_h eta_d_c : R) (w : window_ns) : res window :=
  bind (get_u_psi u PWindow) (fun x =>
  Ok {| w_ns := {| w_env := {| e_name := e_name (w_env w); e_next_space := e_next_space (w_env w); e_direction := e_direction (w_env w);
                               e_area := e_area (w_env w); e_space_type := UNDEFINED |}; w_shade := w_shade w |};
        w_spec := {| ws_u := x; ws_eta_d_h := eta_d_h; ws_eta_d_c := eta_d_c; ws_glass := SINGLE; ws_flame := METAL |} |}).

(* add_spec_ds 144-157, add_spec_eps 160-173, add_spec_ecs 176-196 *)
Definition add_spec_d (u : list (part_type * R)) (d : door_ns) : res door := bind (get_u_psi u PDoor) (fun x => Ok {| d_ns := d; d_u := x |}).
Definition add_spec_ep (u : list (part_type * R)) (e : perimeter_ns) : res perimeter :=
  bind (get_u_psi u PPerimeter) (fun x => Ok {| ep_ns := e; ep_psi := x |}).
Definition add_spec_ec (c : center_ns) : center := {| ec_ns := c; ec_layers := JsonValue.VList [] |}.

(* convert_spec 49-69 of convert_indices_to_lv2_info.py *)
Definition spec_from_indices (region : Z) (u_a eta_a_h eta_a_c : R) (h : parts_ns)
    : res (list general_part * list window * list door * list perimeter * list center) :=
  bind (calc_parts_spec region u_a eta_a_h eta_a_c h) (fun '(u, e_h, e_c) =>
  bind (mapM (add_spec_gp u) (n_gps h)) (fun gps => bind (mapM (add_spec_w u e_h e_c) (n_ws h)) (fun ws =>
  bind (mapM (add_spec_d u) (n_ds h)) (fun ds => bind (mapM (add_spec_ep u) (n_eps h)) (fun eps =>
  Ok (gps, ws, ds, eps, map add_spec_ec (n_ecs h))))))).
