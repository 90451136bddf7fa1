(* heat_load_calc/core/core.py 12-105 calc and heat_load_calc/core/period.py: the loop structure.
   The step functions are parameters here: ground_tick is sequence_ground.run_tick, tick is
   sequence.run_tick; make loads and prepares the data (core.py 58). What a step writes to the log is
   one value per column (sequence.py 240-270 writes column n of each logger array). *)
From Coq Require Import ZArith List.
From Verif Require Import Model.Py.
Import ListNotations.
Open Scope Z_scope.

(* period.py 7-41 get_n_step, 44-56, 59-70, 73-82 *)
Definition get_n_step (n_step_hourly n_d_main n_d_run_up n_d_run_up_build : Z) : res (Z * Z * Z) :=
  if n_d_run_up <? n_d_run_up_build then Err ValueError                           (* 29-30 *)
  else Ok (n_d_main * n_step_hourly * 24, n_d_run_up * n_step_hourly * 24,
           n_d_run_up_build * n_step_hourly * 24).

Section Loop.
Variables PP G C O : Type.
Variable make : Z -> res PP.                 (* delta_t = 3600 / n_step_hourly is passed as the divisor *)
Variable init_ground : PP -> G.              (* 60 *)
Variable ground_tick : PP -> Z -> G -> res G.
Variable init : PP -> C.                     (* 70 *)
Variable hand_over : PP -> C -> G -> C.      (* 73-77 *)
Variable tick : PP -> Z -> C -> res (C * O).

(* the run: state after the last step and the log. An entry None is a column never written (the log is
   created with np.empty/np.zeros, 66). *)
Definition calc (n_step_hourly n_d_main n_d_run_up n_d_run_up_build : Z) : res (C * list (option O)) :=
  bind (get_n_step n_step_hourly n_d_main n_d_run_up n_d_run_up_build)            (* 46-51 *)
    (fun '(n_main, n_run_up, n_build) =>
  if n_step_hourly =? 0 then Err ZeroDivisionError else                           (* 54 *)
  bind (make n_step_hourly) (fun pp =>                                            (* 58 *)
  bind (foldM (fun g n => ground_tick pp n g) (range (- n_run_up) (- n_build)) (init_ground pp)) (* 63-64 *)
    (fun g =>
  if n_main <? 0 then Err ValueError else                                         (* 66: negative dimension *)
  let log := repeat None (Z.to_nat n_main) in
  let c := hand_over pp (init pp) g in                                            (* 70-77 *)
  bind (foldM (fun c n => bind (tick pp n c) (fun '(c', _) => Ok c'))             (* 80-81, run_up=True *)
         (range (- n_build) 0) c) (fun c =>
  foldM (fun '(c, log) n =>                                                       (* 86-87, run_up=False *)
           bind (tick pp n c) (fun '(c', o) =>
           bind (py_set log n (Some o)) (fun log' => Ok (c', log'))))
    (range 0 n_main) (c, log))))).
End Loop.

(* The step numbers a run visits: the same loops with steps that only record their number. Result:
   numbers passed to the ground steps, numbers passed to the building steps, and for each column of the
   log the number of the step that wrote it. *)
Definition visits (n_step_hourly n_d_main n_d_run_up n_d_run_up_build : Z)
    : res (list Z * list Z * list (option Z)) :=
  bind (calc unit (list Z) (list Z * list Z) Z (fun _ => Ok tt)
          (fun _ => []) (fun _ n g => Ok (g ++ [n]))
          (fun _ => ([], [])) (fun _ c g => (g, snd c))
          (fun _ n c => Ok ((fst c, snd c ++ [n]), n))
          n_step_hourly n_d_main n_d_run_up n_d_run_up_build)
    (fun '((g, b), log) => Ok (g, b, log)).
