(* A polynomial close to the direct transmittance of double glazing, by Bernstein coefficients on subintervals. *)
From Coq Require Import Reals ZArith Lra.
From Verif Require Import Lemmas.GlassPoly.
Local Open Scope R_scope.

(* tau_single c = c * glass_p c and rho_single c = 1 - c * glass_s c *)
Definition glass_p (c : R) : R := 319 / 125 * c ^ 0 + 341 / 250 * c ^ 1 + (-2847 / 250) * c ^ 2 + 13617 / 1000 * c ^ 3 + (-2573 / 500) * c ^ 4.
Definition glass_s (c : R) : R := 5189 / 1000 * c ^ 0 + (-1549 / 125) * c ^ 1 + 16593 / 1000 * c ^ 2 + (-11851 / 1000) * c ^ 3 + 3461 / 1000 * c ^ 4.
Definition near_double (c : R) : R := (-3 / 1000) * c ^ 0 + 147 / 500 * c ^ 1 + (-464 / 125) * c ^ 2 + 19889 / 500 * c ^ 3 + (-44077 / 500) * c ^ 4 + 80949 / 1000 * c ^ 5 + (-6789 / 250) * c ^ 6.

Lemma near_above_0 c : 0 <= c <= 1 / 4 -> 0 <= 1 / 250 * (glass_s c * (2 - c * glass_s c)) - (2 * c ^ 2 * glass_p c ^ 2 - near_double c * (glass_s c * (2 - c * glass_s c))).
Proof.
intro H; replace (1 / 250 * (glass_s c * (2 - c * glass_s c)) - (2 * c ^ 2 * glass_p c ^ 2 - near_double c * (glass_s c * (2 - c * glass_s c)))) with
 ((174113947648 / 15625) * ((c - 0) ^ 0 * (1 / 4 - c) ^ 15)
  + (1899024759652352 / 1953125) * ((c - 0) ^ 1 * (1 / 4 - c) ^ 14)
  + (15573093689065472 / 1953125) * ((c - 0) ^ 2 * (1 / 4 - c) ^ 13)
  + (60449504854212608 / 1953125) * ((c - 0) ^ 3 * (1 / 4 - c) ^ 12)
  + (143049578937319424 / 1953125) * ((c - 0) ^ 4 * (1 / 4 - c) ^ 11)
  + (229277384942508032 / 1953125) * ((c - 0) ^ 5 * (1 / 4 - c) ^ 10)
  + (264123210693105152 / 1953125) * ((c - 0) ^ 6 * (1 / 4 - c) ^ 9)
  + (229098472226904192 / 1953125) * ((c - 0) ^ 7 * (1 / 4 - c) ^ 8)
  + (157835362070958848 / 1953125) * ((c - 0) ^ 8 * (1 / 4 - c) ^ 7)
  + (92355083190613784 / 1953125) * ((c - 0) ^ 9 * (1 / 4 - c) ^ 6)
  + (48266313063005362 / 1953125) * ((c - 0) ^ 10 * (1 / 4 - c) ^ 5)
  + (22066696361313156 / 1953125) * ((c - 0) ^ 11 * (1 / 4 - c) ^ 4)
  + (64491541359116523 / 15625000) * ((c - 0) ^ 12 * (1 / 4 - c) ^ 3)
  + (4189909627831573 / 3906250) * ((c - 0) ^ 13 * (1 / 4 - c) ^ 2)
  + (42857905163236011 / 250000000) * ((c - 0) ^ 14 * (1 / 4 - c) ^ 1)
  + (391555793555491 / 31250000) * ((c - 0) ^ 15 * (1 / 4 - c) ^ 0))
 by (unfold glass_p, glass_s, near_double; field).
bpos.
Qed.

Lemma near_above_1 c : 1 / 4 <= c <= 1 / 2 -> 0 <= 1 / 250 * (glass_s c * (2 - c * glass_s c)) - (2 * c ^ 2 * glass_p c ^ 2 - near_double c * (glass_s c * (2 - c * glass_s c))).
Proof.
intro H; replace (1 / 250 * (glass_s c * (2 - c * glass_s c)) - (2 * c ^ 2 * glass_p c ^ 2 - near_double c * (glass_s c * (2 - c * glass_s c)))) with
 ((391555793555491 / 31250000) * ((c - 1 / 4) ^ 0 * (1 / 2 - c) ^ 15)
  + (51115485290081829 / 250000000) * ((c - 1 / 4) ^ 1 * (1 / 2 - c) ^ 14)
  + (95940084489265531 / 62500000) * ((c - 1 / 4) ^ 2 * (1 / 2 - c) ^ 13)
  + (87098609394193151 / 12500000) * ((c - 1 / 4) ^ 3 * (1 / 2 - c) ^ 12)
  + (166697159861259759 / 7812500) * ((c - 1 / 4) ^ 4 * (1 / 2 - c) ^ 11)
  + (730603750549851141 / 15625000) * ((c - 1 / 4) ^ 5 * (1 / 2 - c) ^ 10)
  + (296822892783339357 / 3906250) * ((c - 1 / 4) ^ 6 * (1 / 2 - c) ^ 9)
  + (365599482745379267 / 3906250) * ((c - 1 / 4) ^ 7 * (1 / 2 - c) ^ 8)
  + (1381834782734552 / 15625) * ((c - 1 / 4) ^ 8 * (1 / 2 - c) ^ 7)
  + (125696592421599022 / 1953125) * ((c - 1 / 4) ^ 9 * (1 / 2 - c) ^ 6)
  + (70132374965560872 / 1953125) * ((c - 1 / 4) ^ 10 * (1 / 2 - c) ^ 5)
  + (29567345297946056 / 1953125) * ((c - 1 / 4) ^ 11 * (1 / 2 - c) ^ 4)
  + (9146511841615296 / 1953125) * ((c - 1 / 4) ^ 12 * (1 / 2 - c) ^ 3)
  + (393036993855072 / 390625) * ((c - 1 / 4) ^ 13 * (1 / 2 - c) ^ 2)
  + (262762928202112 / 1953125) * ((c - 1 / 4) ^ 14 * (1 / 2 - c) ^ 1)
  + (3300823997056 / 390625) * ((c - 1 / 4) ^ 15 * (1 / 2 - c) ^ 0))
 by (unfold glass_p, glass_s, near_double; field).
bpos.
Qed.

Lemma near_above_2 c : 1 / 2 <= c <= 1 -> 0 <= 1 / 250 * (glass_s c * (2 - c * glass_s c)) - (2 * c ^ 2 * glass_p c ^ 2 - near_double c * (glass_s c * (2 - c * glass_s c))).
Proof.
intro H; replace (1 / 250 * (glass_s c * (2 - c * glass_s c)) - (2 * c ^ 2 * glass_p c ^ 2 - near_double c * (glass_s c * (2 - c * glass_s c)))) with
 ((25787687477 / 100000000) * ((c - 1 / 2) ^ 0 * (1 - c) ^ 15)
  + (1696558929167 / 500000000) * ((c - 1 / 2) ^ 1 * (1 - c) ^ 14)
  + (2705170496511 / 125000000) * ((c - 1 / 2) ^ 2 * (1 - c) ^ 13)
  + (2804784227607 / 31250000) * ((c - 1 / 2) ^ 3 * (1 - c) ^ 12)
  + (2079030461293 / 7812500) * ((c - 1 / 2) ^ 4 * (1 - c) ^ 11)
  + (9058688395143 / 15625000) * ((c - 1 / 2) ^ 5 * (1 - c) ^ 10)
  + (14669692767169 / 15625000) * ((c - 1 / 2) ^ 6 * (1 - c) ^ 9)
  + (4483735534777 / 3906250) * ((c - 1 / 2) ^ 7 * (1 - c) ^ 8)
  + (4224414578461 / 3906250) * ((c - 1 / 2) ^ 8 * (1 - c) ^ 7)
  + (1558896963753 / 1953125) * ((c - 1 / 2) ^ 9 * (1 - c) ^ 6)
  + (898790201664 / 1953125) * ((c - 1 / 2) ^ 10 * (1 - c) ^ 5)
  + (78975518988 / 390625) * ((c - 1 / 2) ^ 11 * (1 - c) ^ 4)
  + (5092514344 / 78125) * ((c - 1 / 2) ^ 12 * (1 - c) ^ 3)
  + (235929344 / 15625) * ((c - 1 / 2) ^ 13 * (1 - c) ^ 2)
  + (35718144 / 15625) * ((c - 1 / 2) ^ 14 * (1 - c) ^ 1)
  + (2046976 / 15625) * ((c - 1 / 2) ^ 15 * (1 - c) ^ 0))
 by (unfold glass_p, glass_s, near_double; field).
bpos.
Qed.

Lemma near_above c : 0 <= c <= 1 -> 0 <= 1 / 250 * (glass_s c * (2 - c * glass_s c)) - (2 * c ^ 2 * glass_p c ^ 2 - near_double c * (glass_s c * (2 - c * glass_s c))).
Proof.
intro H.
destruct (Rle_lt_dec c (1 / 4)) as [|]; [apply near_above_0; lra|].
destruct (Rle_lt_dec c (1 / 2)) as [|]; [apply near_above_1; lra|].
apply near_above_2; lra.
Qed.

Lemma near_below_0 c : 0 <= c <= 1 / 8 -> 0 <= 1 / 250 * (glass_s c * (2 - c * glass_s c)) + (2 * c ^ 2 * glass_p c ^ 2 - near_double c * (glass_s c * (2 - c * glass_s c))).
Proof.
intro H; replace (1 / 250 * (glass_s c * (2 - c * glass_s c)) + (2 * c ^ 2 * glass_p c ^ 2 - near_double c * (glass_s c * (2 - c * glass_s c)))) with
 ((39937560855707648 / 15625) * ((c - 0) ^ 0 * (1 / 8 - c) ^ 15)
  + (45564620444769714176 / 1953125) * ((c - 0) ^ 1 * (1 / 8 - c) ^ 14)
  + (186613803508152926208 / 1953125) * ((c - 0) ^ 2 * (1 / 8 - c) ^ 13)
  + (465034136038273974272 / 1953125) * ((c - 0) ^ 3 * (1 / 8 - c) ^ 12)
  + (855541735114414227456 / 1953125) * ((c - 0) ^ 4 * (1 / 8 - c) ^ 11)
  + (1443910851969129906176 / 1953125) * ((c - 0) ^ 5 * (1 / 8 - c) ^ 10)
  + (2506588982006395437056 / 1953125) * ((c - 0) ^ 6 * (1 / 8 - c) ^ 9)
  + (4019697374903232462848 / 1953125) * ((c - 0) ^ 7 * (1 / 8 - c) ^ 8)
  + (5192093976682144169984 / 1953125) * ((c - 0) ^ 8 * (1 / 8 - c) ^ 7)
  + (1015733996497011040768 / 390625) * ((c - 0) ^ 9 * (1 / 8 - c) ^ 6)
  + (736005404356723459264 / 390625) * ((c - 0) ^ 10 * (1 / 8 - c) ^ 5)
  + (1943396496337298373024 / 1953125) * ((c - 0) ^ 11 * (1 / 8 - c) ^ 4)
  + (29118236660017875517 / 78125) * ((c - 0) ^ 12 * (1 / 8 - c) ^ 3)
  + (73436171609149491471 / 781250) * ((c - 0) ^ 13 * (1 / 8 - c) ^ 2)
  + (14338859129580140777 / 1000000) * ((c - 0) ^ 14 * (1 / 8 - c) ^ 1)
  + (10011257540233834837 / 10000000) * ((c - 0) ^ 15 * (1 / 8 - c) ^ 0))
 by (unfold glass_p, glass_s, near_double; field).
bpos.
Qed.

Lemma near_below_1 c : 1 / 8 <= c <= 1 / 4 -> 0 <= 1 / 250 * (glass_s c * (2 - c * glass_s c)) + (2 * c ^ 2 * glass_p c ^ 2 - near_double c * (glass_s c * (2 - c * glass_s c))).
Proof.
intro H; replace (1 / 250 * (glass_s c * (2 - c * glass_s c)) + (2 * c ^ 2 * glass_p c ^ 2 - near_double c * (glass_s c * (2 - c * glass_s c)))) with
 ((10011257540233834837 / 10000000) * ((c - 1 / 8) ^ 0 * (1 / 4 - c) ^ 15)
  + (7847456745560681867 / 500000) * ((c - 1 / 8) ^ 1 * (1 / 4 - c) ^ 14)
  + (1412288259016105881011 / 12500000) * ((c - 1 / 8) ^ 2 * (1 / 4 - c) ^ 13)
  + (774992786534704542777 / 1562500) * ((c - 1 / 8) ^ 3 * (1 / 4 - c) ^ 12)
  + (23237420008288619740757 / 15625000) * ((c - 1 / 8) ^ 4 * (1 / 4 - c) ^ 11)
  + (12621176713878137257081 / 3906250) * ((c - 1 / 8) ^ 5 * (1 / 4 - c) ^ 10)
  + (4110801997628584773203 / 781250) * ((c - 1 / 8) ^ 6 * (1 / 4 - c) ^ 9)
  + (12791658165696713277376 / 1953125) * ((c - 1 / 8) ^ 7 * (1 / 4 - c) ^ 8)
  + (12283740585733703040894 / 1953125) * ((c - 1 / 8) ^ 8 * (1 / 4 - c) ^ 7)
  + (9110777434055391612424 / 1953125) * ((c - 1 / 8) ^ 9 * (1 / 4 - c) ^ 6)
  + (5181846854131822475176 / 1953125) * ((c - 1 / 8) ^ 10 * (1 / 4 - c) ^ 5)
  + (2221598153723115553344 / 1953125) * ((c - 1 / 8) ^ 11 * (1 / 4 - c) ^ 4)
  + (695620196036222850016 / 1953125) * ((c - 1 / 8) ^ 12 * (1 / 4 - c) ^ 3)
  + (150310257406416823168 / 1953125) * ((c - 1 / 8) ^ 13 * (1 / 4 - c) ^ 2)
  + (20059418690803627648 / 1953125) * ((c - 1 / 8) ^ 14 * (1 / 4 - c) ^ 1)
  + (249487001523308544 / 390625) * ((c - 1 / 8) ^ 15 * (1 / 4 - c) ^ 0))
 by (unfold glass_p, glass_s, near_double; field).
bpos.
Qed.

Lemma near_below_2 c : 1 / 4 <= c <= 1 / 2 -> 0 <= 1 / 250 * (glass_s c * (2 - c * glass_s c)) + (2 * c ^ 2 * glass_p c ^ 2 - near_double c * (glass_s c * (2 - c * glass_s c))).
Proof.
intro H; replace (1 / 250 * (glass_s c * (2 - c * glass_s c)) + (2 * c ^ 2 * glass_p c ^ 2 - near_double c * (glass_s c * (2 - c * glass_s c)))) with
 ((121819824962553 / 6250000) * ((c - 1 / 4) ^ 0 * (1 / 2 - c) ^ 15)
  + (62561476410692059 / 250000000) * ((c - 1 / 4) ^ 1 * (1 / 2 - c) ^ 14)
  + (18569519881991297 / 12500000) * ((c - 1 / 4) ^ 2 * (1 / 2 - c) ^ 13)
  + (342626797015748869 / 62500000) * ((c - 1 / 4) ^ 3 * (1 / 2 - c) ^ 12)
  + (111434891240606481 / 7812500) * ((c - 1 / 4) ^ 4 * (1 / 2 - c) ^ 11)
  + (438191399846870011 / 15625000) * ((c - 1 / 4) ^ 5 * (1 / 2 - c) ^ 10)
  + (33831169015568903 / 781250) * ((c - 1 / 4) ^ 6 * (1 / 2 - c) ^ 9)
  + (41729990571588057 / 781250) * ((c - 1 / 4) ^ 7 * (1 / 2 - c) ^ 8)
  + (102923392413898376 / 1953125) * ((c - 1 / 4) ^ 8 * (1 / 2 - c) ^ 7)
  + (80445011656382674 / 1953125) * ((c - 1 / 4) ^ 9 * (1 / 2 - c) ^ 6)
  + (48958536961069528 / 1953125) * ((c - 1 / 4) ^ 10 * (1 / 2 - c) ^ 5)
  + (22623302870481464 / 1953125) * ((c - 1 / 4) ^ 11 * (1 / 2 - c) ^ 4)
  + (7647227052220992 / 1953125) * ((c - 1 / 4) ^ 12 * (1 / 2 - c) ^ 3)
  + (1780295116654624 / 1953125) * ((c - 1 / 4) ^ 13 * (1 / 2 - c) ^ 2)
  + (254924395306624 / 1953125) * ((c - 1 / 4) ^ 14 * (1 / 2 - c) ^ 1)
  + (16921718553472 / 1953125) * ((c - 1 / 4) ^ 15 * (1 / 2 - c) ^ 0))
 by (unfold glass_p, glass_s, near_double; field).
bpos.
Qed.

Lemma near_below_3 c : 1 / 2 <= c <= 1 -> 0 <= 1 / 250 * (glass_s c * (2 - c * glass_s c)) + (2 * c ^ 2 * glass_p c ^ 2 - near_double c * (glass_s c * (2 - c * glass_s c))).
Proof.
intro H; replace (1 / 250 * (glass_s c * (2 - c * glass_s c)) + (2 * c ^ 2 * glass_p c ^ 2 - near_double c * (glass_s c * (2 - c * glass_s c)))) with
 ((132200926199 / 500000000) * ((c - 1 / 2) ^ 0 * (1 - c) ^ 15)
  + (1965848002289 / 500000000) * ((c - 1 / 2) ^ 1 * (1 - c) ^ 14)
  + (663498161677 / 25000000) * ((c - 1 / 2) ^ 2 * (1 - c) ^ 13)
  + (3352233739017 / 31250000) * ((c - 1 / 2) ^ 3 * (1 - c) ^ 12)
  + (2294438497543 / 7812500) * ((c - 1 / 2) ^ 4 * (1 - c) ^ 11)
  + (9224196906169 / 15625000) * ((c - 1 / 2) ^ 5 * (1 - c) ^ 10)
  + (14361875371063 / 15625000) * ((c - 1 / 2) ^ 6 * (1 - c) ^ 9)
  + (4429038434171 / 3906250) * ((c - 1 / 2) ^ 7 * (1 - c) ^ 8)
  + (4307435874027 / 3906250) * ((c - 1 / 2) ^ 8 * (1 - c) ^ 7)
  + (1623670292671 / 1953125) * ((c - 1 / 2) ^ 9 * (1 - c) ^ 6)
  + (936193016896 / 1953125) * ((c - 1 / 2) ^ 10 * (1 - c) ^ 5)
  + (407967595908 / 1953125) * ((c - 1 / 2) ^ 11 * (1 - c) ^ 4)
  + (26133670136 / 390625) * ((c - 1 / 2) ^ 12 * (1 - c) ^ 3)
  + (1119196288 / 78125) * ((c - 1 / 2) ^ 13 * (1 - c) ^ 2)
  + (27769856 / 15625) * ((c - 1 / 2) ^ 14 * (1 - c) ^ 1)
  + (2049024 / 15625) * ((c - 1 / 2) ^ 15 * (1 - c) ^ 0))
 by (unfold glass_p, glass_s, near_double; field).
bpos.
Qed.

Lemma near_below c : 0 <= c <= 1 -> 0 <= 1 / 250 * (glass_s c * (2 - c * glass_s c)) + (2 * c ^ 2 * glass_p c ^ 2 - near_double c * (glass_s c * (2 - c * glass_s c))).
Proof.
intro H.
destruct (Rle_lt_dec c (1 / 8)) as [|]; [apply near_below_0; lra|].
destruct (Rle_lt_dec c (1 / 4)) as [|]; [apply near_below_1; lra|].
destruct (Rle_lt_dec c (1 / 2)) as [|]; [apply near_below_2; lra|].
apply near_below_3; lra.
Qed.
