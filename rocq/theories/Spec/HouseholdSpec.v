(* Tables for households of one to four people, and the value between them. *)
From Coq Require Import Reals List String.
From Verif Require Import Model.Py Model.Schedule.
Import ListNotations.
Local Open Scope R_scope.

Definition known_day (day : string) : Prop := (day = "平日" \/ day = "休日外" \/ day = "休日在")%string.

(* v is the mean of a (for m people) and b (for m + 1 people), weighted by the distance of n from m and m + 1. *)
Definition between (n : R) (m : nat) (a b v : R) : Prop :=
  INR m <= n <= INR m + 1 /\ v = (INR m + 1 - n) * a + (n - INR m) * b.

(* All twelve tables of a room and a schedule type are there and have 96 values. *)
Definition complete (d : tables) (room type : string) : Prop :=
  forall m day, (1 <= m <= 4)%nat -> known_day day -> exists l, d (size_key m) room day type = Ok l /\ List.length l = 96%nat.

(* Value x of the table for m people at quarter hour t of a day of the given type. *)
Definition entry (d : tables) (room type day : string) (m t : nat) (x : R) : Prop :=
  exists l, d (size_key m) room day type = Ok l /\ nth_error l t = Some x.

(* Value v of the compiled year of one room and one schedule type at step n. *)
Definition slot (d : tables) (cal : list string) (n_p : R) (room type : string) (n : nat) (v : R) : Prop :=
  exists s, get_schedule d room n_p cal type = Ok s /\ nth_error s n = Some v.

(* Entry (i, n) of a two-dimensional array *)
Definition at2 (m : list (list R)) (i n : nat) (v : R) : Prop := exists row, nth_error m i = Some row /\ nth_error row n = Some v.
