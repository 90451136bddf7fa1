(* heat_load_calc/convert/factor_f.py: the effect of sunshades *)
From Coq Require Import Reals ZArith List String.
From Verif Require Import Model.Py Model.FactorNu.
Import ListNotations.
Local Open Scope R_scope.

(* SunshadeComplexKernel 55-125 *)
Record kernel := {
  k_x1 : R; k_x2 : R; k_x3 : R; k_y1 : R; k_y2 : R; k_y3 : R; k_z_x_pls : R; k_z_x_mns : R; k_z_y_pls : R; k_z_y_mns : R
}.

(* SunshadeOpaque: NotDefined 166-187, NotInput 189-210, Input 212-273 *)
Inductive opaque_shade := OpNotDefined | OpNotInput | OpInput (k : kernel).

(* get_f_sh: 172-174 Exception; 195-197; 235-237 -> 82-84 NotImplementedError *)
Definition get_f_sh (s : opaque_shade) : res R :=
  match s with OpNotDefined => Err OtherError | OpNotInput => Ok 1 | OpInput _ => Err OtherError end.

(* SunshadeTransient: NotDefined 318-339, NotInput 341-372, NotExist 374-393, ExistSimple 395-486, ExistDetail 488-558 *)
Inductive window_shade :=
| TrNotDefined | TrNotInput | TrNotExist | TrSimple (depth d_h d_e : R) | TrDetail (k : kernel).

(* min(0.01 * (a + b * (c * d_e + d_h) / depth), limit) *)
Definition f_simple (a b c limit depth d_h d_e : R) : res R :=
  if Req_EM_T depth 0 then Err ZeroDivisionError
  else Ok (Rmin (1 / 100 * (a + b * (c * d_e + d_h) / depth)) limit).

(* 415-465 *)
Definition get_f_simple (depth d_h d_e : R) (region : Z) (s : season) (d : direction) : res R :=
  match s with
  | Heating =>
      if (region =? 8)%Z then Err OtherError                                                     (* 427-428 *)
      else match d with
           | DSW | DS | DSE => f_simple 5 20 3 (72 / 100) depth d_h d_e                          (* 430-431 *)
           | DN | DNE | DE | DNW | DW => f_simple 10 15 2 (72 / 100) depth d_h d_e               (* 432-433 *)
           | DTop => Ok 1 | DBottom => Ok 0
           | _ => Err ValueError                                                                 (* 438-439 *)
           end
  | Cooling =>
      if (region =? 8)%Z then
           match d with
           | DSW | DS | DSE => f_simple 16 19 2 (93 / 100) depth d_h d_e                         (* 442-443 *)
           | DN | DNE | DE | DNW | DW => f_simple 16 24 2 (93 / 100) depth d_h d_e               (* 444-445 *)
           | DTop => Ok 1 | DBottom => Ok 0
           | _ => Err ValueError
           end
      else match d with
           | DS => f_simple 24 9 3 (93 / 100) depth d_h d_e                                      (* 453-454 *)
           | DN | DNE | DE | DSE | DNW | DW | DSW => f_simple 16 24 2 (93 / 100) depth d_h d_e   (* 455-457 *)
           | DTop => Ok 1 | DBottom => Ok 0
           | _ => Err ValueError
           end
  end.

Definition get_f (w : window_shade) (region : Z) (s : season) (d : direction) : res R :=
  match w with
  | TrNotDefined => Err OtherError                                                               (* 324-326 *)
  | TrNotInput =>                                                                                (* 347-357 *)
      match s with
      | Heating => if (region =? 8)%Z then Err OtherError else Ok (51 / 100)
      | Cooling => Ok (93 / 100)
      end
  | TrNotExist => Err OtherError                                                                 (* 379-380 NotImplementedError *)
  | TrSimple depth d_h d_e => get_f_simple depth d_h d_e region s d
  | TrDetail _ => Err TypeError                                                                  (* 522: the argument direction is missing *)
  end.
