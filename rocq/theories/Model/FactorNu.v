(* heat_load_calc/external/factor_nu.py *)
From Coq Require Import Reals ZArith List String Bool.
From Verif Require Import Model.Py.
Import ListNotations.
Local Open Scope R_scope.

(* 8-22 *)
Inductive direction := DTop | DN | DNE | DE | DSE | DS | DSW | DW | DNW | DBottom | DUpward | DHorizontal | DDownward.

(* the season is always 'heating' or 'cooling' *)
Inductive season := Heating | Cooling.

(* 38-49, in thousandths, regions 1 to 7 *)
Definition nu_heating (d : direction) : option (list Z) :=
  match d with
  | DTop => Some [1000; 1000; 1000; 1000; 1000; 1000; 1000]%Z
  | DN => Some [260; 263; 284; 256; 238; 261; 227]%Z
  | DNE => Some [333; 341; 348; 330; 310; 325; 281]%Z
  | DE => Some [564; 554; 540; 531; 568; 579; 543]%Z
  | DSE => Some [823; 766; 751; 724; 846; 833; 843]%Z
  | DS => Some [935; 856; 851; 815; 983; 936; 1023]%Z
  | DSW => Some [790; 753; 750; 723; 815; 763; 848]%Z
  | DW => Some [535; 544; 542; 527; 538; 523; 548]%Z
  | DNW => Some [325; 341; 351; 326; 297; 317; 284]%Z
  | DBottom => Some [0; 0; 0; 0; 0; 0; 0]%Z
  | DUpward | DHorizontal | DDownward => None
  end.

(* 50-61, in thousandths, regions 1 to 8 *)
Definition nu_cooling (d : direction) : option (list Z) :=
  match d with
  | DTop => Some [1000; 1000; 1000; 1000; 1000; 1000; 1000; 1000]%Z
  | DN => Some [329; 341; 335; 322; 373; 341; 307; 325]%Z
  | DNE => Some [430; 412; 390; 426; 437; 431; 415; 414]%Z
  | DE => Some [545; 503; 468; 518; 500; 512; 509; 515]%Z
  | DSE => Some [560; 527; 487; 508; 500; 498; 490; 528]%Z
  | DS => Some [502; 507; 476; 437; 472; 434; 412; 480]%Z
  | DSW => Some [526; 548; 550; 481; 520; 491; 479; 517]%Z
  | DW => Some [508; 529; 553; 481; 518; 504; 495; 505]%Z
  | DNW => Some [411; 428; 447; 401; 442; 427; 406; 411]%Z
  | DBottom => Some [0; 0; 0; 0; 0; 0; 0; 0]%Z
  | DUpward | DHorizontal | DDownward => None
  end.

(* {1: .., 2: .., ...}[region] *)
Definition of_region (row : list Z) (region : Z) : res R :=
  if (region <=? 0)%Z then Err KeyError
  else match nth_error row (Z.to_nat (region - 1)) with Some z => Ok (IZR z / 1000) | None => Err KeyError end.

(* 24-62 *)
Definition get_nu (d : direction) (region : Z) (s : season) : res R :=
  match s with
  | Heating =>
      if (region =? 8)%Z then Err ValueError                                   (* 34-35 *)
      else match nu_heating d with Some row => of_region row region | None => Err KeyError end
  | Cooling => match nu_cooling d with Some row => of_region row region | None => Err KeyError end
  end.

(* 64-80 *)
Definition is_horizontal (d : direction) : bool :=
  match d with DN | DNE | DE | DSE | DS | DSW | DW | DNW | DHorizontal => true | _ => false end.

(* Direction(value), 10-22: ValueError for an unknown value *)
Definition direction_value (d : direction) : string :=
  match d with
  | DTop => "top" | DN => "n" | DNE => "ne" | DE => "e" | DSE => "se" | DS => "s" | DSW => "sw" | DW => "w" | DNW => "nw"
  | DBottom => "bottom" | DUpward => "upward" | DHorizontal => "horizontal" | DDownward => "downward"
  end.
Definition directions : list direction := [DTop; DN; DNE; DE; DSE; DS; DSW; DW; DNW; DBottom; DUpward; DHorizontal; DDownward].

(* Enum(value) for an enumeration given by its members and their values *)
Definition enum {A} (members : list A) (val : A -> string) (s : string) : res A :=
  of_option ValueError (find (fun a => (val a =? s)%string) members).

Definition Direction (s : string) : res direction := enum directions direction_value s.
