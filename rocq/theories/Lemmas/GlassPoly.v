(* Bounds of the glazing polynomials on [0, 1], by their Bernstein coefficients on subintervals. *)
From Coq Require Import Reals Lra.
From Verif Require Import Model.Transmission.
Local Open Scope R_scope.

Ltac bpos := repeat apply Rplus_le_le_0_compat; (apply Rmult_le_pos; [lra|apply Rmult_le_pos; apply pow_le; lra]).

Lemma tau_ge0_0 c : 0 <= c <= 1 -> 0 <= tau_single c.
Proof.
intro H; replace (tau_single c) with
 ((319 / 125) * ((c - 0) ^ 1 * (1 - c) ^ 4)
  + (2893 / 250) * ((c - 0) ^ 2 * (1 - c) ^ 3)
  + (1002 / 125) * ((c - 0) ^ 3 * (1 - c) ^ 2)
  + (5141 / 1000) * ((c - 0) ^ 4 * (1 - c) ^ 1)
  + (999 / 1000) * ((c - 0) ^ 5 * (1 - c) ^ 0))
 by (unfold tau_single, rho_single; field).
bpos.
Qed.

Lemma tau_ge0 c : 0 <= c <= 1 -> 0 <= tau_single c.
Proof.
intro H.
apply tau_ge0_0; lra.
Qed.

Lemma tau_le_0 c : 0 <= c <= 1 / 2 -> 0 <= 1003 / 1000 - tau_single c.
Proof.
intro H; replace (1003 / 1000 - tau_single c) with
 ((4012 / 125) * ((c - 0) ^ 0 * (1 / 2 - c) ^ 5)
  + (14956 / 125) * ((c - 0) ^ 1 * (1 / 2 - c) ^ 4)
  + (3668 / 25) * ((c - 0) ^ 2 * (1 / 2 - c) ^ 3)
  + (11098 / 125) * ((c - 0) ^ 3 * (1 / 2 - c) ^ 2)
  + (14143 / 500) * ((c - 0) ^ 4 * (1 / 2 - c) ^ 1)
  + (477 / 125) * ((c - 0) ^ 5 * (1 / 2 - c) ^ 0))
 by (unfold tau_single, rho_single; field).
bpos.
Qed.

Lemma tau_le_1 c : 1 / 2 <= c <= 3 / 4 -> 0 <= 1003 / 1000 - tau_single c.
Proof.
intro H; replace (1003 / 1000 - tau_single c) with
 ((15264 / 125) * ((c - 1 / 2) ^ 0 * (3 / 4 - c) ^ 5)
  + (57908 / 125) * ((c - 1 / 2) ^ 1 * (3 / 4 - c) ^ 4)
  + (92792 / 125) * ((c - 1 / 2) ^ 2 * (3 / 4 - c) ^ 3)
  + (77606 / 125) * ((c - 1 / 2) ^ 3 * (3 / 4 - c) ^ 2)
  + (31772 / 125) * ((c - 1 / 2) ^ 4 * (3 / 4 - c) ^ 1)
  + (19829 / 500) * ((c - 1 / 2) ^ 5 * (3 / 4 - c) ^ 0))
 by (unfold tau_single, rho_single; field).
bpos.
Qed.

Lemma tau_le_2 c : 3 / 4 <= c <= 7 / 8 -> 0 <= 1003 / 1000 - tau_single c.
Proof.
intro H; replace (1003 / 1000 - tau_single c) with
 ((158632 / 125) * ((c - 3 / 4) ^ 0 * (7 / 8 - c) ^ 5)
  + (681388 / 125) * ((c - 3 / 4) ^ 1 * (7 / 8 - c) ^ 4)
  + (1139956 / 125) * ((c - 3 / 4) ^ 2 * (7 / 8 - c) ^ 3)
  + (913726 / 125) * ((c - 3 / 4) ^ 3 * (7 / 8 - c) ^ 2)
  + (691313 / 250) * ((c - 3 / 4) ^ 4 * (7 / 8 - c) ^ 1)
  + (39819 / 100) * ((c - 3 / 4) ^ 5 * (7 / 8 - c) ^ 0))
 by (unfold tau_single, rho_single; field).
bpos.
Qed.

Lemma tau_le_3 c : 7 / 8 <= c <= 1 -> 0 <= 1003 / 1000 - tau_single c.
Proof.
intro H; replace (1003 / 1000 - tau_single c) with
 ((39819 / 100) * ((c - 7 / 8) ^ 0 * (1 - c) ^ 5)
  + (152081 / 125) * ((c - 7 / 8) ^ 1 * (1 - c) ^ 4)
  + (139424 / 125) * ((c - 7 / 8) ^ 2 * (1 - c) ^ 3)
  + (28544 / 125) * ((c - 7 / 8) ^ 3 * (1 - c) ^ 2)
  + (7168 / 125) * ((c - 7 / 8) ^ 4 * (1 - c) ^ 1)
  + (16384 / 125) * ((c - 7 / 8) ^ 5 * (1 - c) ^ 0))
 by (unfold tau_single, rho_single; field).
bpos.
Qed.

Lemma tau_le c : 0 <= c <= 1 -> 0 <= 1003 / 1000 - tau_single c.
Proof.
intro H.
destruct (Rle_lt_dec c (1 / 2)) as [|]; [apply tau_le_0; lra|].
destruct (Rle_lt_dec c (3 / 4)) as [|]; [apply tau_le_1; lra|].
destruct (Rle_lt_dec c (7 / 8)) as [|]; [apply tau_le_2; lra|].
apply tau_le_3; lra.
Qed.

Lemma rho_ge0_0 c : 0 <= c <= 1 / 2 -> 0 <= rho_single c.
Proof.
intro H; replace (rho_single c) with
 ((32) * ((c - 0) ^ 0 * (1 / 2 - c) ^ 5)
  + (9622 / 125) * ((c - 0) ^ 1 * (1 / 2 - c) ^ 4)
  + (2176 / 25) * ((c - 0) ^ 2 * (1 / 2 - c) ^ 3)
  + (13223 / 250) * ((c - 0) ^ 3 * (1 / 2 - c) ^ 2)
  + (1627 / 100) * ((c - 0) ^ 4 * (1 / 2 - c) ^ 1)
  + (1981 / 1000) * ((c - 0) ^ 5 * (1 / 2 - c) ^ 0))
 by (unfold tau_single, rho_single; field).
bpos.
Qed.

Lemma rho_ge0_1 c : 1 / 2 <= c <= 3 / 4 -> 0 <= rho_single c.
Proof.
intro H; replace (rho_single c) with
 ((7924 / 125) * ((c - 1 / 2) ^ 0 * (3 / 4 - c) ^ 5)
  + (5378 / 25) * ((c - 1 / 2) ^ 1 * (3 / 4 - c) ^ 4)
  + (35942 / 125) * ((c - 1 / 2) ^ 2 * (3 / 4 - c) ^ 3)
  + (22639 / 125) * ((c - 1 / 2) ^ 3 * (3 / 4 - c) ^ 2)
  + (5593 / 100) * ((c - 1 / 2) ^ 4 * (3 / 4 - c) ^ 1)
  + (1433 / 200) * ((c - 1 / 2) ^ 5 * (3 / 4 - c) ^ 0))
 by (unfold tau_single, rho_single; field).
bpos.
Qed.

Lemma rho_ge0_2 c : 3 / 4 <= c <= 1 -> 0 <= rho_single c.
Proof.
intro H; replace (rho_single c) with
 ((1433 / 200) * ((c - 3 / 4) ^ 0 * (1 - c) ^ 5)
  + (393 / 25) * ((c - 3 / 4) ^ 1 * (1 - c) ^ 4)
  + (2534 / 125) * ((c - 3 / 4) ^ 2 * (1 - c) ^ 3)
  + (3752 / 125) * ((c - 3 / 4) ^ 3 * (1 - c) ^ 2)
  + (544 / 25) * ((c - 3 / 4) ^ 4 * (1 - c) ^ 1))
 by (unfold tau_single, rho_single; field).
bpos.
Qed.

Lemma rho_ge0 c : 0 <= c <= 1 -> 0 <= rho_single c.
Proof.
intro H.
destruct (Rle_lt_dec c (1 / 2)) as [|]; [apply rho_ge0_0; lra|].
destruct (Rle_lt_dec c (3 / 4)) as [|]; [apply rho_ge0_1; lra|].
apply rho_ge0_2; lra.
Qed.

Lemma rho_slope_0 c : 0 <= c <= 1 -> 0 <= 5189 / 1000 - 12392 / 1000 * c + 16593 / 1000 * c ^ 2 - 11851 / 1000 * c ^ 3 + 3461 / 1000 * c ^ 4 - 1 / 10.
Proof.
intro H; replace (5189 / 1000 - 12392 / 1000 * c + 16593 / 1000 * c ^ 2 - 11851 / 1000 * c ^ 3 + 3461 / 1000 * c ^ 4 - 1 / 10) with
 ((5089 / 1000) * ((c - 0) ^ 0 * (1 - c) ^ 4)
  + (1991 / 250) * ((c - 0) ^ 1 * (1 - c) ^ 3)
  + (9951 / 1000) * ((c - 0) ^ 2 * (1 - c) ^ 2)
  + (903 / 200) * ((c - 0) ^ 3 * (1 - c) ^ 1)
  + (9 / 10) * ((c - 0) ^ 4 * (1 - c) ^ 0))
 by (unfold tau_single, rho_single; field).
bpos.
Qed.

Lemma rho_slope c : 0 <= c <= 1 -> 0 <= 5189 / 1000 - 12392 / 1000 * c + 16593 / 1000 * c ^ 2 - 11851 / 1000 * c ^ 3 + 3461 / 1000 * c ^ 4 - 1 / 10.
Proof.
intro H.
apply rho_slope_0; lra.
Qed.

Lemma dbl_0 c : 0 <= c <= 1 / 2 -> 0 <= 1003 / 1000 * (1 - rho_single c ^ 2) - tau_single c ^ 2.
Proof.
intro H; replace (1003 / 1000 * (1 - rho_single c ^ 2) - tau_single c ^ 2) with
 ((83273072 / 15625) * ((c - 0) ^ 1 * (1 / 2 - c) ^ 9)
  + (128986857837 / 3906250) * ((c - 0) ^ 2 * (1 / 2 - c) ^ 8)
  + (36009405996 / 390625) * ((c - 0) ^ 3 * (1 / 2 - c) ^ 7)
  + (1168396644841 / 7812500) * ((c - 0) ^ 4 * (1 / 2 - c) ^ 6)
  + (97027138273 / 625000) * ((c - 0) ^ 5 * (1 / 2 - c) ^ 5)
  + (6715648333467 / 62500000) * ((c - 0) ^ 6 * (1 / 2 - c) ^ 4)
  + (624211515969 / 12500000) * ((c - 0) ^ 7 * (1 / 2 - c) ^ 3)
  + (3783854496747 / 250000000) * ((c - 0) ^ 8 * (1 / 2 - c) ^ 2)
  + (136458611739 / 50000000) * ((c - 0) ^ 9 * (1 / 2 - c) ^ 1)
  + (223377465917 / 1000000000) * ((c - 0) ^ 10 * (1 / 2 - c) ^ 0))
 by (unfold tau_single, rho_single; field).
bpos.
Qed.

Lemma dbl_1 c : 1 / 2 <= c <= 3 / 4 -> 0 <= 1003 / 1000 * (1 - rho_single c ^ 2) - tau_single c ^ 2.
Proof.
intro H; replace (1003 / 1000 * (1 - rho_single c ^ 2) - tau_single c ^ 2) with
 ((446754931834 / 1953125) * ((c - 1 / 2) ^ 0 * (3 / 4 - c) ^ 10)
  + (794430348546 / 390625) * ((c - 1 / 2) ^ 1 * (3 / 4 - c) ^ 9)
  + (31915641344313 / 3906250) * ((c - 1 / 2) ^ 2 * (3 / 4 - c) ^ 8)
  + (38201073978138 / 1953125) * ((c - 1 / 2) ^ 3 * (3 / 4 - c) ^ 7)
  + (241394212997829 / 7812500) * ((c - 1 / 2) ^ 4 * (3 / 4 - c) ^ 6)
  + (262586962101251 / 7812500) * ((c - 1 / 2) ^ 5 * (3 / 4 - c) ^ 5)
  + (794597001990709 / 31250000) * ((c - 1 / 2) ^ 6 * (3 / 4 - c) ^ 4)
  + (8224770942009 / 625000) * ((c - 1 / 2) ^ 7 * (3 / 4 - c) ^ 3)
  + (221947121288421 / 50000000) * ((c - 1 / 2) ^ 8 * (3 / 4 - c) ^ 2)
  + (8769145623173 / 10000000) * ((c - 1 / 2) ^ 9 * (3 / 4 - c) ^ 1)
  + (3067353174693 / 40000000) * ((c - 1 / 2) ^ 10 * (3 / 4 - c) ^ 0))
 by (unfold tau_single, rho_single; field).
bpos.
Qed.

Lemma dbl_2 c : 3 / 4 <= c <= 7 / 8 -> 0 <= 1003 / 1000 * (1 - rho_single c ^ 2) - tau_single c ^ 2.
Proof.
intro H; replace (1003 / 1000 * (1 - rho_single c ^ 2) - tau_single c ^ 2) with
 ((6134706349386 / 78125) * ((c - 3 / 4) ^ 0 * (7 / 8 - c) ^ 10)
  + (56944012748098 / 78125) * ((c - 3 / 4) ^ 1 * (7 / 8 - c) ^ 9)
  + (2363840027393589 / 781250) * ((c - 3 / 4) ^ 2 * (7 / 8 - c) ^ 8)
  + (2885513683527774 / 390625) * ((c - 3 / 4) ^ 3 * (7 / 8 - c) ^ 7)
  + (91619000954201989 / 7812500) * ((c - 3 / 4) ^ 4 * (7 / 8 - c) ^ 6)
  + (98651977255791899 / 7812500) * ((c - 3 / 4) ^ 5 * (7 / 8 - c) ^ 5)
  + (291248899615604661 / 31250000) * ((c - 3 / 4) ^ 6 * (7 / 8 - c) ^ 4)
  + (72573566285415531 / 15625000) * ((c - 3 / 4) ^ 7 * (7 / 8 - c) ^ 3)
  + (372945571373521497 / 250000000) * ((c - 3 / 4) ^ 8 * (7 / 8 - c) ^ 2)
  + (69508642397993913 / 250000000) * ((c - 3 / 4) ^ 9 * (7 / 8 - c) ^ 1)
  + (22775583443691533 / 1000000000) * ((c - 3 / 4) ^ 10 * (7 / 8 - c) ^ 0))
 by (unfold tau_single, rho_single; field).
bpos.
Qed.

Lemma dbl_3 c : 7 / 8 <= c <= 15 / 16 -> 0 <= 1003 / 1000 * (1 - rho_single c ^ 2) - tau_single c ^ 2.
Proof.
intro H; replace (1003 / 1000 * (1 - rho_single c ^ 2) - tau_single c ^ 2) with
 ((45551166887383066 / 1953125) * ((c - 7 / 8) ^ 0 * (15 / 16 - c) ^ 10)
  + (405232933718770338 / 1953125) * ((c - 7 / 8) ^ 1 * (15 / 16 - c) ^ 9)
  + (3208960201205814249 / 3906250) * ((c - 7 / 8) ^ 2 * (15 / 16 - c) ^ 8)
  + (148677564193519254 / 78125) * ((c - 7 / 8) ^ 3 * (15 / 16 - c) ^ 7)
  + (22270249093601371029 / 7812500) * ((c - 7 / 8) ^ 4 * (15 / 16 - c) ^ 6)
  + (4496084073535494151 / 1562500) * ((c - 7 / 8) ^ 5 * (15 / 16 - c) ^ 5)
  + (61759284783796027573 / 31250000) * ((c - 7 / 8) ^ 6 * (15 / 16 - c) ^ 4)
  + (14196845926582761747 / 15625000) * ((c - 7 / 8) ^ 7 * (15 / 16 - c) ^ 3)
  + (66632149592702933193 / 250000000) * ((c - 7 / 8) ^ 8 * (15 / 16 - c) ^ 2)
  + (2244142706138819677 / 50000000) * ((c - 7 / 8) ^ 9 * (15 / 16 - c) ^ 1)
  + (131731192042472373 / 40000000) * ((c - 7 / 8) ^ 10 * (15 / 16 - c) ^ 0))
 by (unfold tau_single, rho_single; field).
bpos.
Qed.

Lemma dbl_4 c : 15 / 16 <= c <= 31 / 32 -> 0 <= 1003 / 1000 * (1 - rho_single c ^ 2) - tau_single c ^ 2.
Proof.
intro H; replace (1003 / 1000 * (1 - rho_single c ^ 2) - tau_single c ^ 2) with
 ((263462384084944746 / 78125) * ((c - 15 / 16) ^ 0 * (31 / 32 - c) ^ 10)
  + (10783107981815577242 / 390625) * ((c - 15 / 16) ^ 1 * (31 / 32 - c) ^ 9)
  + (388469856485881883817 / 3906250) * ((c - 15 / 16) ^ 2 * (31 / 32 - c) ^ 8)
  + (80813502062944777038 / 390625) * ((c - 15 / 16) ^ 3 * (31 / 32 - c) ^ 7)
  + (2142659621401656911221 / 7812500) * ((c - 15 / 16) ^ 4 * (31 / 32 - c) ^ 6)
  + (377745967894556642071 / 1562500) * ((c - 15 / 16) ^ 5 * (31 / 32 - c) ^ 5)
  + (4512591690100468636341 / 31250000) * ((c - 15 / 16) ^ 6 * (31 / 32 - c) ^ 4)
  + (185434146340033135911 / 3125000) * ((c - 15 / 16) ^ 7 * (31 / 32 - c) ^ 3)
  + (4316433798998752519017 / 250000000) * ((c - 15 / 16) ^ 8 * (31 / 32 - c) ^ 2)
  + (179530229241801710157 / 50000000) * ((c - 15 / 16) ^ 9 * (31 / 32 - c) ^ 1)
  + (424569985415753723117 / 1000000000) * ((c - 15 / 16) ^ 10 * (31 / 32 - c) ^ 0))
 by (unfold tau_single, rho_single; field).
bpos.
Qed.

Lemma dbl_5 c : 31 / 32 <= c <= 1 -> 0 <= 1003 / 1000 * (1 - rho_single c ^ 2) - tau_single c ^ 2.
Proof.
intro H; replace (1003 / 1000 * (1 - rho_single c ^ 2) - tau_single c ^ 2) with
 ((424569985415753723117 / 1000000000) * ((c - 31 / 32) ^ 0 * (1 - c) ^ 10)
  + (1531498476087200081 / 312500) * ((c - 31 / 32) ^ 1 * (1 - c) ^ 9)
  + (56752832116761844884 / 1953125) * ((c - 31 / 32) ^ 2 * (1 - c) ^ 8)
  + (209869066581726966144 / 1953125) * ((c - 31 / 32) ^ 3 * (1 - c) ^ 7)
  + (509939785973486721024 / 1953125) * ((c - 31 / 32) ^ 4 * (1 - c) ^ 6)
  + (833458638857286320128 / 1953125) * ((c - 31 / 32) ^ 5 * (1 - c) ^ 5)
  + (922830287858265227264 / 1953125) * ((c - 31 / 32) ^ 6 * (1 - c) ^ 4)
  + (136748725486126891008 / 390625) * ((c - 31 / 32) ^ 7 * (1 - c) ^ 3)
  + (13007251532586942464 / 78125) * ((c - 31 / 32) ^ 8 * (1 - c) ^ 2)
  + (719065211402715136 / 15625) * ((c - 31 / 32) ^ 9 * (1 - c) ^ 1)
  + (87943338036035584 / 15625) * ((c - 31 / 32) ^ 10 * (1 - c) ^ 0))
 by (unfold tau_single, rho_single; field).
bpos.
Qed.

Lemma dbl c : 0 <= c <= 1 -> 0 <= 1003 / 1000 * (1 - rho_single c ^ 2) - tau_single c ^ 2.
Proof.
intro H.
destruct (Rle_lt_dec c (1 / 2)) as [|]; [apply dbl_0; lra|].
destruct (Rle_lt_dec c (3 / 4)) as [|]; [apply dbl_1; lra|].
destruct (Rle_lt_dec c (7 / 8)) as [|]; [apply dbl_2; lra|].
destruct (Rle_lt_dec c (15 / 16)) as [|]; [apply dbl_3; lra|].
destruct (Rle_lt_dec c (31 / 32)) as [|]; [apply dbl_4; lra|].
apply dbl_5; lra.
Qed.
