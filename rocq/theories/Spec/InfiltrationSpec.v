(* The words used by the infiltration properties. *)
From Coq Require Import ZArith String.
From mathcomp Require Import all_ssreflect ssralg ssrnum zmodp matrix.
Set Implicit Arguments. Unset Strict Implicit. Unset Printing Implicit Defensive.
Import Order.TTheory GRing.Theory Num.Theory.
Local Open Scope ring_scope.

Definition known_story (story : Z) : Prop := story = 1%Z \/ story = 2%Z.

Definition known_pressure (p : string) : Prop := p = "balanced"%string \/ p = "positive"%string \/ p = "negative"%string.

(* Difference between the volume-weighted mean room temperature and the outdoor temperature. *)
Definition difference (F : realFieldType) ni (v theta_r : 'cV[F]_ni) (theta_o : F) : F :=
  (\sum_i v i 0 * theta_r i 0) / (\sum_i v i 0) - theta_o.

(* The published coefficients, in thousandths and hundredths:
   a rooms-per-hour per C value and root degree, b the ventilation offset. *)
Definition table (F : realFieldType) (story : Z) (p : string) (a b : F) : Prop :=
  (story = 1%Z /\ a * 1000%:R = 22%:R \/ story = 2%Z /\ a * 1000%:R = 20%:R) /\
  (p = "balanced"%string /\ b = 0 \/
   p = "positive"%string /\ story = 1%Z /\ b * 100%:R = 26%:R \/
   p = "positive"%string /\ story = 2%Z /\ b * 100%:R = 14%:R \/
   p = "negative"%string /\ story = 1%Z /\ b * 100%:R = 28%:R \/
   p = "negative"%string /\ story = 2%Z /\ b * 100%:R = 13%:R).
