(* Hourly data as a periodic series: entry h of the file is the value at hour h + 1; the year wraps around. *)
From Coq Require Import Reals List ZArith.
Local Open Scope R_scope.

Definition hourly (data : list R) (h : Z) : R := nth (Z.to_nat (h mod Z.of_nat (length data))) data 0.
