(* heat_load_calc/core/next_condition.py *)
From mathcomp Require Import all_ssreflect ssralg ssrnum zmodp matrix.
From Verif Require Import Model.OperationMode Model.Numpy.
Set Implicit Arguments. Unset Strict Implicit. Unset Printing Implicit Defensive.
Import Order.TTheory GRing.Theory Num.Theory.
Local Open Scope ring_scope.

Section NextCondition.
Variable F : realFieldType.
Variable n : nat. (* number of rooms *)

(* next_condition.py 133-195 get_load_and_temp.
   nt, c, r are 0/1 integer arrays in the code; here boolean masks (true = 1 = "not specified").
   The in-place resets of theta_set, lc_set, lr_set (lines 164-172) are the first three lets.
   None = LinAlgError of np.linalg.inv(x1) (line 186). *)
Definition get_load_and_temp (kt kc kr : 'M[F]_n) (k : 'cV[F]_n)
    (nt : 'I_n -> bool) (theta_set : 'cV[F]_n) (c : 'I_n -> bool) (lc_set : 'cV[F]_n)
    (r : 'I_n -> bool) (lr_set : 'cV[F]_n) : option ('cV[F]_n * 'cV[F]_n * 'cV[F]_n) :=
  let theta_set := vwhere nt 0 theta_set in                                      (* 164 *)
  let lc_set := vwhere c 0 lc_set in                                             (* 168 *)
  let lr_set := vwhere r 0 lr_set in                                             (* 172 *)
  let nt1 := ind F nt in let c1 := ind F c in let r1 := ind F r in
  let x1 := rmul kt nt1 - rmul kc c1 - rmul kr r1 in                             (* 178 *)
  let x2 := - dot kt theta_set + dot kc lc_set + dot kr lr_set + k in            (* 179 *)
  if inv x1 is Some x1i then
    let v := dot x1i x2 in                                                       (* 186 *)
    let theta_rq := emul v nt1 + emul theta_set (ssub 1 nt1) in                  (* 191 *)
    let lc_rq := emul v c1 + emul lc_set (ssub 1 c1) in                          (* 192 *)
    let lr_rq := emul v r1 + emul lr_set (ssub 1 r1) in                          (* 193 *)
    Some (theta_rq, lc_rq, lr_rq)
  else None.

(* next_condition.py 6-130 calc_next_temp_and_load. Arrays of shape [i,1] are column vectors, boolean
   arrays are functions from rooms to bool. Masked assignment a[mask] = b[mask] is vwhere. *)
Definition calc_next_temp_and_load
    (is_radiative_heating is_radiative_cooling : 'I_n -> bool)
    (brc_ot : 'cV[F]_n) (brm_ot brl_ot : 'M[F]_n)
    (theta_lower theta_upper : 'cV[F]_n) (lr_h_max_cap lr_cs_max_cap : 'cV[F]_n)
    (operation_mode : 'I_n -> mode) (ac_demand : 'cV[F]_n)
    : option ('cV[F]_n * 'cV[F]_n * 'cV[F]_n) :=
  let kt := brm_ot in                                                            (* 27 *)
  let kc := 1%:M in                                                              (* 30 *)
  let kr := brl_ot in                                                            (* 33 *)
  let k := brc_ot in                                                             (* 36 *)
  if inv kt is Some kti then
    let theta_natural := dot kti k in                                            (* 39 *)
    let is_heating := fun i => mode_eqb (operation_mode i) HEATING
                               && (theta_natural i 0 < theta_lower i 0) in       (* 42 *)
    let is_cooling := fun i => mode_eqb (operation_mode i) COOLING
                               && (theta_upper i 0 < theta_natural i 0) in       (* 43 *)
    let nt := fun i => ~~ is_heating i && ~~ is_cooling i in                     (* 53-55 *)
    let theta_set := vwhere is_heating                                           (* 60-61 *)
        (emul theta_lower ac_demand + emul theta_natural (ssub 1 ac_demand)) 0 in
    let theta_set := vwhere is_cooling                                           (* 62-63 *)
        (emul theta_upper ac_demand + emul theta_natural (ssub 1 ac_demand)) theta_set in
    let c := fun i => (is_heating i && ~~ is_radiative_heating i)
                      || (is_cooling i && ~~ is_radiative_cooling i) in          (* 71-75 *)
    let lc_set := 0 in                                                           (* 81 *)
    let r := fun i => (is_heating i && is_radiative_heating i)
                      || (is_cooling i && is_radiative_cooling i) in             (* 89-93 *)
    let lr_set := 0 in                                                           (* 99 *)
    if get_load_and_temp kt kc kr k nt theta_set c lc_set r lr_set
      is Some (_, _, lr) then                                                    (* 104 *)
      let over_lr := fun i => lr_h_max_cap i 0 < lr i 0 in                       (* 107 *)
      let c := fun i => over_lr i || c i in                                      (* 110 *)
      let r := fun i => ~~ over_lr i && r i in                                   (* 113 *)
      let lr_set := vwhere over_lr lr_h_max_cap lr_set in                        (* 114 *)
      let under_lr := fun i => lr i 0 < - lr_cs_max_cap i 0 in                   (* 118 *)
      let c := fun i => under_lr i || c i in                                     (* 121 *)
      let r := fun i => ~~ under_lr i && r i in                                  (* 124 *)
      let lr_set := vwhere under_lr (- lr_cs_max_cap) lr_set in                  (* 125 *)
      (* theta_set, lc_set were only reset where already 0 by the first call *)
      get_load_and_temp kt kc kr k nt theta_set c lc_set r lr_set                (* 128 *)
    else None
  else None.

End NextCondition.
