(* heat_load_calc/convert/ees_house.py: layers from a U value, and the layers written for the initializer *)
From Coq Require Import Reals ZArith List String.
From Verif Require Import Model.Py Model.EesHouse.
Import ListNotations.
Local Open Scope R_scope.

(* the dictionaries of 395-399 and 515-519 with the entries added in 700-704 *)
Record init_layer := { il_name : string; il_r : R; il_c : R }.
Record init_part := { ip_name : string; ip_area : R; ip_layers : list init_layer; ip_r_in : R; ip_r_ex : R }.

(* Layer.make_initializer_dict 384-399 *)
Definition layer_init (r_res_sub : R) (l : layer) : res init_layer :=
  bind (layer_r l) (fun r => Ok {| il_name := l_name l; il_r := r * r_res_sub; il_c := layer_c l |}).

(* GeneralPartPart.make_initializer_dict 497-519 and the update 700-704 *)
Definition part_init (name : string) (area r_in r_ex : R) (pr : part * R) : res init_part :=
  bind (mapM (layer_init (snd pr)) (p_layers (fst pr))) (fun ls =>
  Ok {| ip_name := (name ++ "_" ++ p_name (fst pr))%string; ip_area := area * p_ratio (fst pr); ip_layers := ls;
        ip_r_in := r_in; ip_r_ex := r_ex |}).

(* GeneralPartSpecDetail.make_initializer_dict 669-706 *)
Definition detail_init (name : string) (area u_add : R) (d : detail) : res (list init_part) :=
  let r_in := s_r_in d in let r_ex := s_r_ex d in
  bind (mapM (fun p => bind (get_r_total p) (fun r => fdiv 1 (r_in + r + r_ex))) (s_parts d)) (fun us =>   (* 681 *)
  let us_dash := map (fun u => u + u_add) us in                                                           (* 684 *)
  bind (mapM (fun u => bind (fdiv 1 u) (fun r => Ok (r - r_in - r_ex))) us_dash) (fun rs_dash =>           (* 687 *)
  bind (mapM (fun pr : part * R => bind (get_r_total (fst pr)) (fun r => fdiv (snd pr) r)) (combine (s_parts d) rs_dash)) (fun subs => (* 690 *)
  mapM (part_init name area r_in r_ex) (combine (s_parts d) subs)))).                                     (* 692-706 *)

(* r_srf_in 883-899, r_srf_ex 901-917 *)
Definition r_srf_in (t : gp_type) : R :=
  match t with
  | ROOF => 9 / 100 | CEILING => 9 / 100 | WALL => 11 / 100 | FLOOR => 15 / 100 | BOUNDARY_WALL => 11 / 100
  | UPWARD_BOUNDARY_FLOOR => 9 / 100 | DOWNWARD_BOUNDARY_FLOOR => 15 / 100
  end.
Definition r_srf_ex (t : gp_type) : R :=
  match t with
  | ROOF => 4 / 100 | CEILING => 9 / 100 | WALL => 4 / 100 | FLOOR => 15 / 100 | BOUNDARY_WALL => 11 / 100
  | UPWARD_BOUNDARY_FLOOR => 9 / 100 | DOWNWARD_BOUNDARY_FLOOR => 15 / 100
  end.

(* Union[Layer, Material] in the table 967-1005: there is only one material *)
Inductive default_layer := DLayer (l : layer) | DInsulation.

Definition made_of (name : string) (thickness specific_heat conductivity : R) : layer :=
  {| l_name := name; l_method := CONDUCTIVITY; l_thickness := thickness; l_specific_heat := specific_heat;
     l_conductivity := conductivity; l_resistance := 0 |}.

(* 933-963; 243: thermal_resistance defaults to 0.0 *)
Definition gypsum_board9_5 : layer := made_of "gypsum_board" (95 / 10000) 830 (221 / 1000).
Definition plywood12 : layer := made_of "plywood" (12 / 1000) 720 (16 / 100).
Definition plywood24 : layer := made_of "plywood" (24 / 1000) 720 (16 / 100).
Definition concrete120 : layer := made_of "concrete" (12 / 100) 2000 (16 / 10).
Definition insulation_of (t : R) : layer := made_of "default_insulation" t 13 (45 / 1000).   (* 965-969, 1055-1061 *)

(* 971-1005 *)
Definition default_layers (t : gp_type) (weight : string) : res (list default_layer) :=
  let gyp := DLayer gypsum_board9_5 in let ply12 := DLayer plywood12 in let ply24 := DLayer plywood24 in
  let conc := DLayer concrete120 in
  if (weight =? "light")%string then
    Ok (match t with
        | ROOF => [gyp; DInsulation] | CEILING => [gyp; DInsulation] | WALL => [gyp; DInsulation; ply12]
        | FLOOR => [ply24; DInsulation] | BOUNDARY_WALL => [gyp; DInsulation; gyp]
        | UPWARD_BOUNDARY_FLOOR => [gyp; DInsulation; ply24] | DOWNWARD_BOUNDARY_FLOOR => [ply24; DInsulation; gyp]
        end)
  else if (weight =? "heavy")%string then
    Ok (match t with
        | ROOF => [gyp; DInsulation; conc] | CEILING => [gyp; DInsulation; conc] | WALL => [gyp; DInsulation; conc]
        | FLOOR => [ply24; DInsulation; conc] | BOUNDARY_WALL => [gyp; DInsulation; gyp]
        | UPWARD_BOUNDARY_FLOOR => [gyp; conc; DInsulation; ply24]
        | DOWNWARD_BOUNDARY_FLOOR => [ply24; DInsulation; conc; gyp]
        end)
  else Err KeyError.

Definition only_layers (l : list default_layer) : list layer :=
  flat_map (fun d => match d with DLayer l => [l] | DInsulation => [] end) l.

(* GeneralPartSpecUValue._convert_to_general_part_spec_detail 931-1046; the check of 1021 always holds *)
Definition u_value_detail (t : gp_type) (u : R) (weight : string) : res detail :=
  bind (default_layers t weight) (fun ls =>
  bind (sumM layer_r (only_layers ls)) (fun r_other =>                                       (* 1008 *)
  bind (fdiv 1 u) (fun r_target =>                                                           (* 1012 *)
  let r_ins := Rmax (r_target - r_srf_ex t - r_other - r_srf_in t) 0 in                      (* 1019 *)
  let t_target := r_ins * (45 / 1000) in                                                     (* 1027 *)
  Ok {| s_r_in := r_srf_in t; s_r_ex := r_srf_ex t;
        s_parts := [{| p_name := "sole_part"; p_ratio := 1;
                       p_layers := map (fun d => match d with DLayer l => l | DInsulation => insulation_of t_target end) ls |}] |}))).

(* make_initializer_dict 741-752, 787-798, 844-855, 923-929 *)
Definition spec_init (name : string) (area u_add : R) (s : gp_spec) : res (list init_part) :=
  match s with
  | SpecWood d | SpecRC d => detail_init name area u_add d
  | SpecSteel u_r d => detail_init name area (u_add + u_r) d
  | SpecOther t u weight => bind (u_value_detail t u weight) (detail_init name area u_add)
  end.
