(* heat_load_calc/core/core.py 12-105 calc: the loop structure of CoreLoop.v with the ground step of
   Ground.v, the building step of Tick.v and the comfort function of OtTarget.v. Reading the files and
   writing the result tables (log.py) are not part of this definition; a step's log columns are its new
   state and its outputs. Any exception inside a building step is reported as OtherError. *)
From Coq Require Import ZArith.
From mathcomp Require Import all_ssreflect ssralg ssrnum zmodp matrix.
From Verif Require Import Model.OperationMode Model.Numpy Model.PreCalc Model.Tick Model.Step Model.OtTarget
  Model.CoreStep Model.Ground Model.Dec Model.Py Model.CoreLoop.
Set Implicit Arguments. Unset Strict Implicit. Unset Printing Implicit Defensive.
Import Order.TTheory GRing.Theory Num.Theory.
Local Open Scope ring_scope.

Section CoreCalc.
Variable F : realFieldType.
Variables ni nj nm : nat.
Variables (e0 : F) (infil : infil_fun F ni) (x_sat : F -> F) (x0 : F).
Variable h : house F ni nj nm.
Variable is_ground : pred 'I_nj.
Variable data : seq (step_data F ni nj).       (* the columns of the csv data *)

(* core.py 54 *)
Definition delta_t (n_step_hourly : Z) : F := 3600%:R / z2f F n_step_hourly.
(* pre_calc_parameters.py 530 np.average(theta_o_ns) *)
Definition theta_o_ave : F := (\sum_(s <- data) theta_o s) / (size data)%:R.

Definition core_calc (n_step_hourly n_d_main n_d_run_up n_d_run_up_build : Z)
    : res (conditions F ni nj nm * seq (option (conditions F ni nj nm * outputs F ni nj))) :=
  let dt := delta_t n_step_hourly in
  calc (pp F ni nj) (ground_conditions F #|is_ground| nm) (conditions F ni nj nm)
    (conditions F ni nj nm * outputs F ni nj)
    (fun _ => of_option LinAlgError (make_pp h dt))
    (fun _ => ground_init F #|is_ground| nm)
    (fun _ n g => bind (py_get data n) (fun s =>
       Ok (ground_tick (make_ground is_ground h theta_o_ave) (theta_o s) g)))
    (fun _ => conditions_init ni nj nm x0)
    (fun _ c g => hand_over c g)
    (fun q n c => bind (py_get data n) (fun s =>
       bind (of_option OtherError
         (run_tick (get_ot_target_and_h_hum e0 (ni := ni)) infil x_sat dt h q s c))
         (fun '(c', o) => Ok (c', (c', o)))))
    n_step_hourly n_d_main n_d_run_up n_d_run_up_build.
End CoreCalc.
