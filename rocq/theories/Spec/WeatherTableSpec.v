(* The weather table of a climate region. *)
From Coq Require Import Reals List String ZArith.
From Verif Require Import Spec.WeatherSpec.
Import ListNotations.
Local Open Scope R_scope.

(* region, weather file, latitude and longitude in degrees *)
Definition places : list (Z * (string * R * R)) :=
  [(1%Z, ("01_kitami.csv"%string, 4382 / 100, 14391 / 100));
   (2%Z, ("02_iwamizawa.csv"%string, 4321 / 100, 14179 / 100));
   (3%Z, ("03_morioka.csv"%string, 397 / 10, 14117 / 100));
   (4%Z, ("04_nagano.csv"%string, 3666 / 100, 1382 / 10));
   (5%Z, ("05_utsunomiya.csv"%string, 3655 / 100, 13987 / 100));
   (6%Z, ("06_okayama.csv"%string, 3466 / 100, 13392 / 100));
   (7%Z, ("07_miyazaki.csv"%string, 3194 / 100, 13142 / 100));
   (8%Z, ("08_naha.csv"%string, 2621 / 100, 127685 / 1000))].

(* names of the intervals with the number of steps per hour *)
Definition intervals : list (string * nat) := [("1h", 1); ("30m", 2); ("15m", 4)]%string%nat.

(* the row of step k of an hour of a day, all counted from 0, with n steps per hour *)
Definition row (n day hour k : nat) : nat := (day * (24 * n) + (hour * n + k))%nat.

(* the value of an hourly series (line i of the file: the end of hour i) at step k of that hour, by linear interpolation *)
Definition at_step (data : list R) (n day hour k : nat) : R :=
  let h := Z.of_nat (day * 24 + hour) in
  (1 - INR k / INR n) * hourly data (h - 1) + INR k / INR n * hourly data h.

(* numbers written with d decimals *)
Definition decimals (d : nat) (x : R) : Prop := exists z : Z, x = IZR z / 10 ^ d.
