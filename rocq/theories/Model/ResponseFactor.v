(* heat_load_calc/initializer/response_factor.py. Vectors are lists, matrices lists of rows. np.linalg.inv is the argument
   inv: it may fail. *)
From Coq Require Import Reals List String Bool.
From Verif Require Import Model.Py Model.BoundaryDict.
Import ListNotations.
Local Open Scope R_scope.

Record response := { rft0 : R; rfa0 : R; rft1 : list R; rfa1 : list R; row : list R; n_root : nat }.

Definition total (l : list R) : R := fold_right Rplus 0 l.
Definition vmul (a b : list R) : list R := map (fun p => fst p * snd p) (combine a b).
Definition inner (a b : list R) : R := total (vmul a b).
(* np.dot(m, v) *)
Definition mulv (m : list (list R)) (v : list R) : list R := map (fun r => inner r v) m.
(* column j of a matrix *)
Definition column (m : list (list R)) (j : nat) : list R := map (fun r => nth j r 0) m.

(* 35-54 get_laps: (i - 1) / 2 rounded up or down is i / 2 counted from 0 *)
Definition get_lap (alp : list R) (k : nat) : R :=
  let a i := nth i alp 0 in
  if Nat.odd k then a (Nat.div2 k)
  else match k with
       | O => a 0%nat / sqrt (a 1%nat / a 0%nat)
       | _ => let l := Nat.div2 k in a l / sqrt (a l / a (l - 1)%nat)
       end.
Definition get_laps (alp : list R) : list R := map (get_lap alp) (seq 0 (List.length alp * 2)).

(* 57-91 *)
Definition get_alpha_m (is_ground : bool) : list R :=
  if is_ground then
    [10597 / 10 ^ 13; 42389 / 10 ^ 13; 16956 / 10 ^ 12; 67806 / 10 ^ 12; 27128 / 10 ^ 11; 1085 / 10 ^ 9; 43417 / 10 ^ 10;
     17361 / 10 ^ 9; 694444 / 10 ^ 10; 277778 / 10 ^ 9]
  else
    [2 / 10 ^ 6; 79 / 10 ^ 7; 31205 / 10 ^ 9; 12325 / 10 ^ 8; 48687 / 10 ^ 8; 19231 / 10 ^ 7; 75964 / 10 ^ 7; 30006 / 10 ^ 6].

(* 2 x 2 matrices *)
Record quad := { q00 : R; q01 : R; q10 : R; q11 : R }.
Definition qmul (a b : quad) : quad :=
  {| q00 := q00 a * q00 b + q01 a * q10 b; q01 := q00 a * q01 b + q01 a * q11 b;
     q10 := q10 a * q00 b + q11 a * q10 b; q11 := q10 a * q01 b + q11 a * q11 b |}.

(* 132-148, a layer at one Laplace variable; math.sqrt of a negative number raises ValueError. A layer with capacity but
   without resistance gives nan in the program (0 / 0) and an unspecified number here. *)
Definition get_fi (s r c : R) : res quad :=
  if Rlt_dec (Rabs c) (1 / 1000) then Ok {| q00 := 1; q01 := r; q10 := 0; q11 := 1 |}
  else if Rlt_dec (r * c * s) 0 then Err ValueError
  else let t := sqrt (r * c * s) in
       Ok {| q00 := cosh t; q01 := r / t * sinh t; q10 := t / r * sinh t; q11 := cosh t |}.

(* 129-160: the product over all layers, inner surface first *)
Fixpoint get_ft (s : R) (acc : option quad) (layers : list (R * R)) : res quad :=
  match layers with
  | [] => of_option NameError acc
  | (r, c) :: rest =>
      bind (get_fi s r c) (fun fi =>
      get_ft s (Some (match acc with None => fi | Some m => qmul m fi end)) rest)
  end.

(* 127-167: (GA, GT) at one Laplace variable *)
Definition get_g (rs cs : list R) (s : R) : res (R * R) :=
  bind (get_ft s None (combine rs cs)) (fun f =>
  if Req_EM_T (q11 f) 0 then Err OtherError
  else Ok (q01 f / q11 f - total rs, 1 / q11 f - 1)).

(* 172-176 *)
Definition get_mat_f (laps alp : list R) : list (list R) := map (fun s => map (fun a => s / (s + a)) alp) laps.

(* 183: matF.T matF *)
Definition get_mat_u (f : list (list R)) (n : nat) : list (list R) :=
  map (fun i => map (fun j => inner (column f i) (column f j)) (seq 0 n)) (seq 0 n).

(* 186-189: matF.T g *)
Definition get_mat_c (f : list (list R)) (n : nat) (g : list R) : list R := map (fun i => inner (column f i) g) (seq 0 n).

(* 92-229 get_step_reps_of_wall without the unit responses, which nobody uses: (AT0, AA0, AT, AA) *)
Definition get_step_reps_of_wall (inv : list (list R) -> res (list (list R))) (cs rs laps alp : list R) : res (R * R * list R * list R) :=
  bind (mapM (get_g rs cs) laps) (fun g =>
  let n := List.length alp in
  let f := get_mat_f laps alp in
  bind (inv (get_mat_u f n)) (fun u_inv =>
  Ok (1, total rs, mulv u_inv (get_mat_c f n (map snd g)), mulv u_inv (get_mat_c f n (map fst g))))).

(* 233-262 get_RFTRI: (RFT, RFA, RFT1, RFA1, Row); RFT and RFA as functions of the term number *)
Definition get_rf (temp : list R) (a0 : R) (a : list R) (k : nat) : R :=
  match k with
  | O => a0 + total (vmul (map (fun t => (1 - exp (- t)) / t) temp) a)
  | S k => - total (vmul (map (fun t => (1 - exp (- t)) ^ 2 * exp (- (INR k * t)) / t) temp) a)
  end.
Definition get_rf1 (temp a : list R) : list R := vmul (map Ropp a) (map (fun t => 1 / t * (1 - exp (- t)) ^ 2) temp).
Definition get_row (temp : list R) : list R := map (fun t => exp (- t)) temp.

(* 288-293 *)
Definition pad12 (l : list R) : list R := l ++ repeat 0 (12 - List.length l).

(* 249-295 *)
Definition calc_response_factor (inv : list (list R) -> res (list (list R))) (is_ground : bool) (cs rs : list R) : res response :=
  let alp := get_alpha_m is_ground in
  bind (get_step_reps_of_wall inv cs rs (get_laps alp) alp) (fun '(at0, aa0, at_, aa) =>
  let temp := map (fun a => a * 900) alp in
  Ok {| rft0 := get_rf temp at0 at_ 0; rfa0 := get_rf temp aa0 aa 0;
        rft1 := pad12 (get_rf1 temp at_); rfa1 := pad12 (get_rf1 temp aa); row := pad12 (get_row temp);
        n_root := List.length alp |}).

(* the factory objects *)
Inductive factory :=
| Direct (rf : response)
| Envelope (cs rs : list R) (r_o : R)
| GroundF (cs rs : list R)
| Steady (u_w r_i : R).

(* an entry 'spec' of a boundary, as written by initializer.py 707-731 *)
Record spec := {
  s_method : option string; s_boundary_type : option string; s_layers : option (list layer);
  s_outside_heat_transfer_resistance : option R; s_u_value : option R; s_inside_heat_transfer_resistance : option R;
  s_phi_t0 : option R; s_phi_a0 : option R; s_phi_t1 : option (list R); s_phi_a1 : option (list R); s_r : option (list R)
}.

(* 303-349 *)
Definition create_factory (s : spec) : res factory :=
  bind (key (s_method s)) (fun m =>
  if (m =? "response_factor")%string then
    bind (key (s_phi_t0 s)) (fun t0 => bind (key (s_phi_a0 s)) (fun a0 => bind (key (s_phi_t1 s)) (fun t1 =>
    bind (key (s_phi_a1 s)) (fun a1 => bind (key (s_r s)) (fun r =>
    Ok (Direct {| rft0 := t0; rfa0 := a0; rft1 := t1; rfa1 := a1; row := r; n_root := List.length t1 |}))))))
  else
    bind (key (s_boundary_type s)) (fun t =>
    if (t =? "external_general_part")%string || (t =? "internal")%string then
      bind (key (s_layers s)) (fun l => bind (key (s_outside_heat_transfer_resistance s)) (fun r_o =>
      Ok (Envelope (map thermal_capacity l) (map thermal_resistance l) r_o)))
    else if (t =? "ground")%string then
      bind (key (s_layers s)) (fun l => Ok (GroundF (map thermal_capacity l) (map thermal_resistance l)))
    else if (t =? "external_transparent_part")%string || (t =? "external_opaque_part")%string then
      bind (key (s_u_value s)) (fun u => bind (key (s_inside_heat_transfer_resistance s)) (fun r => Ok (Steady u r)))
    else Err KeyError)).

(* get_response_factors: 365-375, 395-414, 433-452, 469-482. The lists of a wall belong to the object: append changes
   them, so the object after the call is part of the result. *)
Definition get_response_factors (inv : list (list R) -> res (list (list R))) (f : factory) : res (response * factory) :=
  match f with
  | Direct rf => Ok (rf, f)
  | Envelope cs rs r_o =>
      let c := cs ++ [0] in
      let r := rs ++ [r_o] in
      bind (calc_response_factor inv false (map (fun x => x * 1000) c) r) (fun rf => Ok (rf, Envelope c r r_o))
  | GroundF cs rs =>
      let c := cs ++ [3300 * 3] in
      let r := rs ++ [3 / 1] in
      bind (calc_response_factor inv true (map (fun x => x * 1000) c) r) (fun rf => Ok (rf, GroundF c r))
  | Steady u_w r_i =>
      if Req_EM_T u_w 0 then Err ZeroDivisionError
      else if Req_EM_T (1 / u_w - r_i) 0 then Err ZeroDivisionError
      else let u_so := 1 / (1 / u_w - r_i) in
           Ok ({| rft0 := 1; rfa0 := 1 / u_so; rft1 := repeat 0 12; rfa1 := repeat 0 12; row := repeat 0 12; n_root := 0 |}, f)
  end.
