(* Specification for C15 and C16: the ground under one boundary, on its own. *)
From mathcomp Require Import all_ssreflect ssralg ssrnum zmodp matrix.
From Verif Require Import Model.PreCalc Model.Ground.
Set Implicit Arguments. Unset Strict Implicit. Unset Printing Implicit Defensive.
Import Order.TTheory GRing.Theory Num.Theory.
Local Open Scope ring_scope.

Section Wall.
Variable F : realFieldType.
Variable nm : nat.

(* response of one ground boundary: initial response, response terms, their ratios, surface coefficient *)
Record ground := Ground { phi0 : F; phi1 : 'rV[F]_nm; ratio : 'rV[F]_nm; hi : F }.

(* state: the response terms and the heat flow into the surface *)
Definition gstate := ('rV[F]_nm * F)%type.

(* one time step with outdoor temperature to and deep ground temperature td: terms decay and take up the
   heat flow; the surface temperature balances the heat flow through the surface film with the response. *)
Definition surface (g : ground) (td to : F) (terms : 'rV[F]_nm) : F :=
  (phi0 g * hi g * to + \sum_m terms 0 m + td) / (1 + phi0 g * hi g).
Definition advance (g : ground) (td to : F) (s : gstate) : gstate :=
  let terms : 'rV[F]_nm := \row_m (phi1 g 0 m * s.2 + ratio g 0 m * s.1 0 m) in
  (terms, hi g * (to - surface g td to terms)).

(* a sequence of time steps *)
Fixpoint advances (g : ground) (td : F) (tos : seq F) (s : gstate) : gstate :=
  if tos is to :: tos' then advances g td tos' (advance g td to s) else s.

(* physical ground: nothing is amplified *)
Record damped (rho : F) (g : ground) : Prop := {
  da_hi : 0 < hi g;
  da_phi0 : 0 <= phi0 g;
  da_phi1 : forall m, 0 < phi1 g 0 m;
  da_ratio : forall m, 0 <= ratio g 0 m <= rho;
  da_rho : 0 < rho < 1;
  da_total : hi g * (\sum_m phi1 g 0 m) <= rho * (1 + phi0 g * hi g)
}.

(* size of a difference between two response states, each term weighted by its response *)
Definition energy (g : ground) (d : 'rV[F]_nm) : F := \sum_m d 0 m ^+ 2 / phi1 g 0 m.

End Wall.

(* boundary by boundary view of arrays: the ground under boundary j of a house, the k-th ground boundary *)
Section Rows.
Variable F : realFieldType.
Definition row_ground ng nm (p : ground_pp F ng nm) (k : 'I_ng) : ground F nm :=
  Ground (g_phi_a0 p k 0) (row k (g_phi_a1 p)) (row k (g_r p)) (g_h_r p k 0 + g_h_c p k 0).
Definition row_state ng nm (g : ground_conditions F ng nm) (k : 'I_ng) : gstate F nm :=
  (row k (g_dsh g), g_q g k 0).
Definition house_ground ni nj nm (h : house F ni nj nm) (j : 'I_nj) : ground F nm :=
  Ground (phi_a0 h j 0) (row j (phi_a1 h)) (row j (r_ms h)) (h_r h j 0 + h_c h j 0).
End Rows.
