(* heat_load_calc/initializer/schedule_loader.py. Numbers are reals. *)
From Coq Require Import Reals List String ZArith.
From Verif Require Import Model.Py.
Import ListNotations.
Local Open Scope R_scope.

(* 222-246 _get_ceil_floor_np: (ceil, floor) *)
Definition get_ceil_floor_np (n_p : R) : res (nat * nat) :=
  if Rle_dec 1 n_p then
    if Rlt_dec n_p 2 then Ok (2%nat, 1%nat)                                       (* 234 *)
    else if Rlt_dec n_p 3 then Ok (3%nat, 2%nat)                                  (* 237 *)
    else if Rle_dec n_p 4 then Ok (4%nat, 3%nat)                                  (* 240 *)
    else Err ValueError
  else Err ValueError.                                                            (* 244 *)

(* a + b of two arrays of the same length; broadcasting of arrays of length one is left out *)
Definition add_arrays (a b : list R) : res (list R) :=
  if Nat.eqb (List.length a) (List.length b)
  then Ok (map (fun p => fst p + snd p) (combine a b)) else Err ValueError.

(* The dictionary d['daily_schedule']: household size, room name, day type, schedule type. *)
Definition tables := string -> string -> string -> string -> res (list R).

(* str(n) for the household sizes *)
Definition size_key (n : nat) : string :=
  match n with 1%nat => "1" | 2%nat => "2" | 3%nat => "3" | 4%nat => "4" | _ => "" end%string.

(* 200-219 _get_interpolated_schedule; daily is a dictionary with the keys '1' to '4' *)
Definition get_interpolated_schedule (n_p : R) (daily : string -> res (list R)) : res (list R) :=
  bind (get_ceil_floor_np n_p) (fun '(c, f) =>                                    (* 212 *)
  bind (daily (size_key c)) (fun ceil_schedule =>                                 (* 214 *)
  bind (daily (size_key f)) (fun floor_schedule =>                                (* 215 *)
  add_arrays (map (fun x => x * (n_p - INR f)) ceil_schedule)
             (map (fun x => x * (INR c - n_p)) floor_schedule)))).                (* 217 *)

Definition weekday : string := "平日".
Definition holiday_out : string := "休日外".
Definition holiday_in : string := "休日在".

(* 179-185 convert_schedule: all four tables are looked up when the dictionary is made *)
Definition convert_schedule (d : tables) (room_name schedule_type day_type : string) : res (string -> res (list R)) :=
  bind (d "1" room_name day_type schedule_type)%string (fun t1 =>
  bind (d "2" room_name day_type schedule_type)%string (fun t2 =>
  bind (d "3" room_name day_type schedule_type)%string (fun t3 =>
  bind (d "4" room_name day_type schedule_type)%string (fun t4 =>
  Ok (fun k : string =>
    if (k =? "1")%string then Ok t1 else if (k =? "2")%string then Ok t2
    else if (k =? "3")%string then Ok t3 else if (k =? "4")%string then Ok t4 else Err KeyError))))).

(* 192-194: d_365_96[calendar == t] = row. The row must have 96 values. *)
Definition fill (calendar : list string) (t : string) (row : list R) (rows : list (list R)) : res (list (list R)) :=
  if Nat.eqb (List.length row) 96
  then Ok (map (fun p => if (fst p =? t)%string then row else snd p) (combine calendar rows))
  else Err ValueError.

(* 157-197 _get_schedule. A calendar with another number of days than 365 is an IndexError (192). *)
Definition get_schedule (d : tables) (room_name : string) (n_p : R) (calendar : list string) (schedule_type : string)
    : res (list R) :=
  bind (convert_schedule d room_name schedule_type weekday) (fun d_weekday =>         (* 187 *)
  bind (convert_schedule d room_name schedule_type holiday_out) (fun d_holiday_out => (* 188 *)
  bind (convert_schedule d room_name schedule_type holiday_in) (fun d_holiday_in =>   (* 189 *)
  let rows := repeat (repeat (-1) 96) 365 in                                          (* 191 *)
  bind (get_interpolated_schedule n_p d_weekday) (fun r1 =>                           (* 192 *)
  if negb (Nat.eqb (List.length calendar) 365) then Err IndexError else
  bind (fill calendar weekday r1 rows) (fun rows =>
  bind (get_interpolated_schedule n_p d_holiday_out) (fun r2 =>                       (* 193 *)
  bind (fill calendar holiday_out r2 rows) (fun rows =>
  bind (get_interpolated_schedule n_p d_holiday_in) (fun r3 =>                        (* 194 *)
  bind (fill calendar holiday_in r3 rows) (fun rows =>
  Ok (List.concat rows)))))))))).                                                          (* 195 *)

(* 73-143: one schedule for all rooms *)
Definition room_schedules (d : tables) (n_p : R) (calendar : list string) (schedule_type : string)
    (rooms : list string) : res (list (list R)) :=
  mapM (fun room => get_schedule d room n_p calendar schedule_type) rooms.

Record compiled := Compiled {
  q_gen : list (list R); x_gen : list (list R); v_local : list (list R); n_people : list (list R); demand : list (list R)
}.

(* elementwise sum of matrices of the same shape (numpy raises otherwise; here the shapes agree by
   construction: rooms x 35040) *)
Definition madd (a b : list (list R)) : list (list R) :=
  map (fun p => map (fun q => fst q + snd q) (combine (fst p) (snd p))) (combine a b).
Definition mscale (k : R) (a : list (list R)) : list (list R) := map (map (fun x => x * k)) a.
Definition mrows (a : list (list R)) (ks : list R) : list (list R) :=
  map (fun p => map (fun x => x * snd p) (fst p)) (combine a ks).

(* 7-46 get_compiled_schedules with 49-145 _get_each_schedules. The schedule types are the ones the code
   uses: cooking heat is read from 'vapor_generation_cooking' (99) and cooking vapour from
   'heat_generation_cooking' (110). np.concatenate of no rooms is a ValueError (73). *)
Definition get_compiled_schedules (d : tables) (calendar : list string) (n_p : R) (rooms : list string) (a_floor : list R)
    : res compiled :=
  if Nat.eqb (List.length rooms) 0 then Err ValueError else
  let get t := room_schedules d n_p calendar t rooms in
  bind (get "local_vent_amount"%string) (fun v =>                                     (* 73-80 *)
  bind (get "heat_generation_appliances"%string) (fun app =>                          (* 83-90 *)
  bind (get "vapor_generation_cooking"%string) (fun ckg =>                            (* 93-100 *)
  bind (get "heat_generation_cooking"%string) (fun xckg =>                            (* 104-111 *)
  bind (get "heat_generation_lighting"%string) (fun lght =>                           (* 115-122 *)
  bind (get "number_of_people"%string) (fun hum =>                                    (* 126-133 *)
  bind (get "is_temp_limit_set"%string) (fun ac =>                                    (* 136-143 *)
  if negb (Nat.eqb (List.length a_floor) (List.length rooms)) then Err ValueError else
  Ok (Compiled (madd (madd app ckg) (mrows lght a_floor))                             (* 41 *)
        (mscale (/ 1000 / 3600) xckg)                                                 (* 44, 111 *)
        (mscale (/ 3600) v) hum ac)))))))).
