(* heat_load_calc/core/log.py 155-241 record and core/period.py 44-56.
   A pandas column is a list; a missing value of the digest (nan) is None. Values of the logger are numbers, never nan.
   CSV output (216-217, 238-239) is not modelled. *)
From Coq Require Import Reals ZArith List String Bool DecimalString Lia.
From Verif Require Import Model.Py Model.OperationMode Model.RoundNum.
Import ListNotations.
Local Open Scope R_scope.

(* the rows of the logger arrays [i, n] used by record, for one room (log.py 14-114) *)
Record room_log := {
  lg_operation_mode : list mode; lg_ac_demand : list R; lg_h_hum_c : list R; lg_h_hum_r : list R; lg_theta_r : list R;
  lg_rh : list R; lg_x_r : list R; lg_theta_mrt_hum : list R; lg_theta_ot : list R; lg_q_trs_sol : list R; lg_q_gen : list R;
  lg_x_gen : list R; lg_q_hum : list R; lg_x_hum : list R; lg_l_cs : list R; lg_l_rs : list R; lg_l_cl : list R;
  lg_theta_frt : list R; lg_q_frt : list R; lg_q_sol_frt : list R; lg_x_frt : list R; lg_q_l_frt : list R;
  lg_v_reak : list R; lg_v_ntrl : list R; lg_space_remarks : list string }.

(* the rows of the logger arrays [j, n] for one boundary, with its column of p_is_js *)
Record bdry_log := {
  bl_p : list R; bl_theta_s : list R; bl_theta_ei : list R; bl_theta_rear : list R; bl_h_r_s : list R; bl_qr : list R;
  bl_h_c_s : list R; bl_qc : list R; bl_qisol_s : list R; bl_qiall_s : list R }.

Record logger := { lg_theta_o : list R; lg_x_o : list R; lg_rooms : list room_log; lg_bdries : list bdry_log }.

Inductive column := Num (l : list R) | Modes (l : list mode) | Text (l : list string).
Inductive digest_column := DNum (l : list (option R)) | DModes (l : list (option mode)).

(* str(i) for a natural number *)
Definition str (i : nat) : string := NilEmpty.string_of_uint (Nat.to_uint i).

(* dd[key] = values[0:n] for a frame with n rows: the lengths have to agree *)
Definition cut {A} (n : nat) (l : list A) : res (list A) :=
  if (List.length (firstn n l) =? n)%nat then Ok (firstn n l) else Err ValueError.
Definition num (n : nat) (key : string) (l : list R) : res (string * column) := bind (cut n l) (fun x => Ok (key, Num x)).

(* 164-192 *)
Definition room_columns (n i : nat) (r : room_log) : res (list (string * column)) :=
  let name := ("rm" ++ str i)%string in
  bind (bind (cut n (lg_operation_mode r)) (fun x => Ok (name ++ "_ac_operate", Modes x)%string)) (fun c0 =>
  bind (mapM (fun kv => num n (name ++ fst kv)%string (snd kv))
    [("_occupancy"%string, lg_ac_demand r); ("_hc_hum"%string, lg_h_hum_c r); ("_hr_hum"%string, lg_h_hum_r r); ("_t_r"%string, lg_theta_r r);
     ("_rh_r"%string, lg_rh r); ("_x_r"%string, lg_x_r r); ("_mrt"%string, lg_theta_mrt_hum r); ("_ot"%string, lg_theta_ot r);
     ("_q_sol_t"%string, lg_q_trs_sol r); ("_q_s_except_hum"%string, lg_q_gen r); ("_q_l_except_hum"%string, lg_x_gen r);
     ("_q_hum_s"%string, lg_q_hum r); ("_q_hum_l"%string, lg_x_hum r); ("_l_s_c"%string, lg_l_cs r); ("_l_s_r"%string, lg_l_rs r);
     ("_l_l_c"%string, lg_l_cl r); ("_t_fun"%string, lg_theta_frt r); ("_q_s_fun"%string, lg_q_frt r); ("_q_s_sol_fun"%string, lg_q_sol_frt r);
     ("_x_fun"%string, lg_x_frt r); ("_q_l_fun"%string, lg_q_l_frt r); ("_v_reak"%string, lg_v_reak r); ("_v_ntrl"%string, lg_v_ntrl r)]) (fun cs =>
  bind (bind (cut n (lg_space_remarks r)) (fun x => Ok (name ++ "_remarks", Text x)%string)) (fun c1 =>
  Ok (c0 :: cs ++ [c1])))).

(* enumerate *)
Definition enumerate {A} (l : list A) : list (nat * A) := combine (seq 0 (List.length l)) l.

(* 194: pps.p_is_js[i] == 1 *)
Definition is_one (x : R) : bool := if Req_EM_T x 1 then true else false.
Definition selected (i : nat) (bs : list bdry_log) : res (list bdry_log) :=
  bind (mapM (fun b => of_option IndexError (nth_error (bl_p b) i)) bs) (fun ps =>
  Ok (map snd (filter (fun pb => is_one (fst pb)) (combine ps bs)))).

(* 197-214: one of the nine loops over the selected boundaries *)
Definition bdry_loop (n i : nat) (suffix : string) (row : bdry_log -> list R) (bs : list bdry_log) : res (list (string * column)) :=
  mapM (fun jb => num n ("rm" ++ str i ++ "_" ++ "b" ++ str (fst jb) ++ suffix)%string (row (snd jb))) (enumerate bs).
Definition bdry_columns (n i : nat) (bs : list bdry_log) : res (list (string * column)) :=
  bind (mapM (fun kv => bdry_loop n i (fst kv) (snd kv) bs)
    [("_t_s"%string, bl_theta_s); ("_t_e"%string, bl_theta_ei); ("_t_b"%string, bl_theta_rear); ("_hir_s"%string, bl_h_r_s); ("_qir_s"%string, bl_qr);
     ("_hic_s"%string, bl_h_c_s); ("_qic_s"%string, bl_qc); ("_qisol_s"%string, bl_qisol_s); ("_qiall_s"%string, bl_qiall_s)]) (fun cs =>
  Ok (List.concat cs)).

(* 159-214: the detailed frame *)
Definition detail (lg : logger) (n : nat) : res (list (string * column)) :=
  bind (num n "out_temp" (lg_theta_o lg)) (fun c0 =>
  bind (num n "out_abs_humid" (lg_x_o lg)) (fun c1 =>
  bind (mapM (fun ir => bind (room_columns n (fst ir) (snd ir)) (fun rc =>
        bind (selected (fst ir) (lg_bdries lg)) (fun bs =>
        bind (bdry_columns n (fst ir) bs) (fun bc => Ok (rc ++ bc))))) (enumerate (lg_rooms lg))) (fun cs =>
  Ok (c0 :: c1 :: List.concat cs)))).

(* resample('H') of a column with an index of quarter hours from midnight: groups of four, the last one possibly shorter *)
Fixpoint quarters {A} (l : list A) : list (list A) :=
  match l with
  | nil => nil
  | a :: b :: c :: d :: r => [a; b; c; d] :: quarters r
  | r => [r]
  end.
Definition total (l : list R) : R := fold_right Rplus 0 l.
Definition mean (l : list R) : R := total l / INR (List.length l).

(* Series.round(d): the nearest multiple of 10 ^ -d, ties to even *)
Definition rint (x : R) : Z :=
  let k := math_floor (x + 1 / 2) in if Req_EM_T (IZR k) (x + 1 / 2) then (if Z.even k then k else k - 1)%Z else k.
Definition pd_round (d : nat) (x : R) : R := IZR (rint (x * 10 ^ d)) / 10 ^ d.

(* assignment of a series to a frame with hourly index: missing hours are nan, further ones are dropped *)
Definition align {A} (rows : nat) (l : list A) : list (option A) := map (nth_error l) (seq 0 rows).
Definition hourly_mean (rows d : nat) (l : list R) : list (option R) := align rows (map (fun q => pd_round d (mean q)) (quarters l)).
Definition hourly_sum (rows d : nat) (l : list R) : list (option R) := align rows (map (fun q => pd_round d (total q)) (quarters l)).

(* asfreq('H'): the values at the full hours *)
Definition heads {A} (l : list (list A)) : list A := List.concat (map (firstn 1) l).
Definition hourly_first {A} (rows : nat) (l : list A) : list (option A) := align rows (heads (quarters l)).

(* dd[key] *)
Definition look (key : string) (dd : list (string * column)) : res column :=
  of_option KeyError (option_map snd (find (fun kv => String.eqb (fst kv) key) (rev dd))).
Definition digest_num (f : list R -> list (option R)) (key : string) (dd : list (string * column)) : res (string * digest_column) :=
  bind (look key dd) (fun c => match c with Num l => Ok (key, DNum (f l)) | _ => Err TypeError end).
Definition digest_mode (rows : nat) (key : string) (dd : list (string * column)) : res (string * digest_column) :=
  bind (look key dd) (fun c => match c with Modes l => Ok (key, DModes (hourly_first rows l)) | _ => Err TypeError end).

(* 226-236 *)
Definition room_digest (rows i : nat) (dd : list (string * column)) : res (list (string * digest_column)) :=
  let name := ("rm" ++ str i)%string in
  bind (digest_mode rows (name ++ "_ac_operate") dd) (fun c0 =>
  bind (digest_num (hourly_mean rows 2) (name ++ "_t_r") dd) (fun c1 =>
  bind (digest_num (hourly_mean rows 4) (name ++ "_x_r") dd) (fun c2 =>
  bind (digest_num (hourly_mean rows 2) (name ++ "_ot") dd) (fun c3 =>
  bind (digest_num (hourly_sum rows 0) (name ++ "_l_s_c") dd) (fun c4 =>
  bind (digest_num (hourly_sum rows 0) (name ++ "_l_s_r") dd) (fun c5 =>
  bind (digest_num (hourly_sum rows 0) (name ++ "_l_l_c") dd) (fun c6 =>
  Ok [c0; c1; c2; c3; c4; c5; c6]))))))).

(* 219-236: the digest, with n_d_main * 24 rows *)
Definition digest (rooms rows : nat) (dd : list (string * column)) : res (list (string * digest_column)) :=
  bind (digest_num (hourly_mean rows 2) "out_temp" dd) (fun c0 =>
  bind (digest_num (hourly_mean rows 2) "out_abs_humid" dd) (fun c1 =>
  bind (mapM (fun i => room_digest rows i dd) (seq 0 rooms)) (fun cs =>
  Ok (c0 :: c1 :: List.concat cs)))).

(* period.py 44-56 _get_n_step_main *)
Definition n_step_main (n_step_hourly n_d_main : Z) : Z := (n_d_main * n_step_hourly * 24)%Z.

(* 155-241 record, as called by core.calc (core.py 95-103); pandas.date_range rejects negative numbers of periods *)
Definition record (lg : logger) (n_step_hourly n_d_main : Z) : res (list (string * digest_column) * list (string * column)) :=
  let n := n_step_main n_step_hourly n_d_main in
  if (n <? 0)%Z then Err ValueError else                                                    (* 157 *)
  bind (detail lg (Z.to_nat n)) (fun dd =>
  if (n_d_main * 24 <? 0)%Z then Err ValueError else                                        (* 219 *)
  bind (digest (List.length (lg_rooms lg)) (Z.to_nat (n_d_main * 24)) dd) (fun ds => Ok (ds, dd))).
