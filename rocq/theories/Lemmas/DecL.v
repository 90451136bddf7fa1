(* Arithmetic of decimal literals *)
From mathcomp Require Import all_ssreflect ssralg ssrnum.
From Coq Require Import BinPos ZArith Lia.
From Verif Require Import Model.Dec.
Delimit Scope N_scope with num. Delimit Scope nat_scope with N.
Set Implicit Arguments. Unset Strict Implicit. Unset Printing Implicit Defensive.
Import Order.TTheory GRing.Theory Num.Theory.
Local Open Scope ring_scope.

Section DecL.
Variable F : realFieldType.

Lemma p2fE p : p2f F p = (Pos.to_nat p)%:R.
Proof.
elim: p => [p IH|p IH|] //=; rewrite IH ?Pos2Nat.inj_xI ?Pos2Nat.inj_xO.
  by rewrite multE [RHS]mulrS natrM.
by rewrite multE natrM.
Qed.

Lemma p2f_gt0 p : 0 < p2f F p.
Proof. by rewrite p2fE ltr0n; apply/ssrnat.ltP; exact: Pos2Nat.is_pos. Qed.


Lemma z2f_sub_nat (m n : nat) : z2f F (Z.of_nat m - Z.of_nat n) = m%:R - n%:R.
Proof.
have H a : z2f F (Z.of_nat a) = a%:R.
  by case: a => [//|a] /=; rewrite p2fE SuccNat2Pos.id_succ.
case: (leqP n m) => mn.
  rewrite -Nat2Z.inj_sub; last exact/ssrnat.leP.
  by rewrite H -[Nat.sub m n]/(m - n)%N natrB.
have -> : (Z.of_nat m - Z.of_nat n = - (Z.of_nat (n - m)%N))%Z.
  have le : (m <= n)%coq_nat by apply/ssrnat.leP/ltnW.
  rewrite -[(n - m)%N]/(Nat.sub n m) Nat2Z.inj_sub //; lia.
have N z : z2f F (- z)%Z = - z2f F z by case: z => [|p|p] //=; rewrite ?oppr0 ?opprK.
by rewrite N H natrB ?(ltnW mn) // opprB.
Qed.

Lemma z2f_ex z : exists m n, z = (Z.of_nat m - Z.of_nat n)%Z.
Proof. by exists (Z.to_nat z), (Z.to_nat (- z)); lia. Qed.

Lemma z2f_add a b : z2f F (a + b) = z2f F a + z2f F b.
Proof.
have [m [n ->]] := z2f_ex a; have [p [q ->]] := z2f_ex b.
have -> : (Z.of_nat m - Z.of_nat n + (Z.of_nat p - Z.of_nat q)
  = Z.of_nat (m + p)%N - Z.of_nat (n + q)%N)%Z by rewrite -plusE; lia.
by rewrite !z2f_sub_nat !natrD opprD addrACA.
Qed.

Lemma z2f_opp a : z2f F (- a) = - z2f F a.
Proof. by case: a => [|p|p] //=; rewrite ?oppr0 ?opprK. Qed.

Lemma z2f_sub a b : z2f F (a - b) = z2f F a - z2f F b.
Proof. by rewrite -z2f_opp -z2f_add. Qed.

Lemma z2f_mul a b : z2f F (a * b) = z2f F a * z2f F b.
Proof.
have [m [n ->]] := z2f_ex a; have [p [q ->]] := z2f_ex b.
have -> : ((Z.of_nat m - Z.of_nat n) * (Z.of_nat p - Z.of_nat q)
  = Z.of_nat (m * p + n * q)%N - Z.of_nat (m * q + n * p)%N)%Z by rewrite -!plusE -!multE; lia.
rewrite !z2f_sub_nat !natrD !natrM mulrBl !mulrBr opprB opprD.
by rewrite [LHS]addrACA.
Qed.

Lemma z2f_ge0 a : (0 <= a)%Z -> 0 <= z2f F a.
Proof. by case: a => [|p|p] //= _; apply/ltW/p2f_gt0. Qed.

Lemma z2f_gt0 a : (0 < a)%Z -> 0 < z2f F a.
Proof. by case: a => [|p|p] //= _; apply/p2f_gt0. Qed.

Lemma z2f_lt a b : (a <? b)%Z = true -> z2f F a < z2f F b.
Proof. by move/Z.ltb_lt => ab; rewrite -subr_gt0 -z2f_sub; apply: z2f_gt0; lia. Qed.

Lemma z2f_le a b : (a <=? b)%Z = true -> z2f F a <= z2f F b.
Proof. by move/Z.leb_le => ab; rewrite -subr_ge0 -z2f_sub; apply: z2f_ge0; lia. Qed.

Lemma z2f_exp (a : Z) (k : nat) : z2f F (Z.pow a (Z.of_nat k)) = z2f F a ^+ k.
Proof.
elim: k => [|k IH]; first by rewrite expr0.
by rewrite Nat2Z.inj_succ Z.pow_succ_r ?exprS -?IH -?z2f_mul //; lia.
Qed.

Lemma z2f_nat (k : nat) : z2f F (Z.of_nat k) = k%:R.
Proof. by have := z2f_sub_nat k 0; rewrite /= Z.sub_0_r subr0. Qed.

Lemma ten_gt0 (k : nat) : 0 < (10%:R : F) ^+ k.
Proof. by rewrite exprn_gt0 // ltr0n. Qed.

Lemma decE a k : dec F a k = z2f F a / z2f F (Z.pow 10 (Z.of_nat k)).
Proof. by rewrite z2f_exp -[z2f F 10]/(z2f F (Z.of_nat 10)) z2f_nat. Qed.

Lemma dec_gt0 a k : (0 <? a)%Z = true -> 0 < dec F a k.
Proof. by move/Z.ltb_lt/z2f_gt0 => a0; rewrite /dec divr_gt0 // ten_gt0. Qed.

Lemma dec_ge0 a k : (0 <=? a)%Z = true -> 0 <= dec F a k.
Proof. by move/Z.leb_le/z2f_ge0 => a0; rewrite /dec divr_ge0 // ltW // ten_gt0. Qed.

Lemma dec_lt a k b l : (a * 10 ^ Z.of_nat l <? b * 10 ^ Z.of_nat k)%Z = true -> dec F a k < dec F b l.
Proof.
move=> H; rewrite !decE ltr_pdivr_mulr ?z2f_exp ?exprn_gt0 ?p2f_gt0 //.
rewrite mulrAC ltr_pdivl_mulr ?exprn_gt0 ?p2f_gt0 // -!z2f_exp -!z2f_mul.
exact: z2f_lt.
Qed.

Lemma dec_le a k b l : (a * 10 ^ Z.of_nat l <=? b * 10 ^ Z.of_nat k)%Z = true -> dec F a k <= dec F b l.
Proof.
move=> H; rewrite !decE ler_pdivr_mulr ?z2f_exp ?exprn_gt0 ?p2f_gt0 //.
rewrite mulrAC ler_pdivl_mulr ?exprn_gt0 ?p2f_gt0 // -!z2f_exp -!z2f_mul.
exact: z2f_le.
Qed.

Lemma dec_eq a k b l : (a * 10 ^ Z.of_nat l =? b * 10 ^ Z.of_nat k)%Z = true -> dec F a k = dec F b l.
Proof. by move/Z.eqb_eq => H; apply/eqP; rewrite eq_le !dec_le // H Z.leb_refl. Qed.

Lemma dec_mul a k b l : dec F a k * dec F b l = dec F (a * b) (k + l).
Proof. by rewrite /dec z2f_mul exprD invfM mulrACA. Qed.

Lemma dec_nat k : k%:R = dec F (Z.of_nat k) 0.
Proof. by rewrite /dec z2f_nat expr0 divr1. Qed.

Lemma dec_add a k b l :
  dec F a k + dec F b l = dec F (a * 10 ^ Z.of_nat l + b * 10 ^ Z.of_nat k) (k + l).
Proof.
rewrite /dec z2f_add !z2f_mul !z2f_exp -[z2f F 10]/(z2f F (Z.of_nat 10)) z2f_nat exprD invfM mulrDl.
congr (_ + _); first by rewrite mulrACA divff ?mulr1 // gt_eqF // ten_gt0.
by rewrite [_^-1 * _]mulrC mulrACA divff ?mulr1 // gt_eqF // ten_gt0.
Qed.

Lemma dec_opp a k : - dec F a k = dec F (- a) k.
Proof. by rewrite /dec z2f_opp mulNr. Qed.

End DecL.
#[global] Opaque dec.
