(* Rational bounds of exp and ln from the Taylor polynomial *)
From Coq Require Import Reals ZArith Bool Lra Lia.
From Coquelicot Require Import Coquelicot.
Local Open Scope R_scope.

Lemma exp_derive_n n x : ex_derive_n exp n x /\ Derive_n exp n x = exp x.
Proof.
revert x; induction n as [|n IH]; intro x; [split; [exact I|reflexivity]|].
assert (E : is_derive (Derive_n exp n) x (exp x)).
{ apply is_derive_ext with exp; [intro t; symmetry; apply IH|apply is_derive_exp]. }
split; [exists (exp x); exact E|apply is_derive_unique, E].
Qed.

(* 1 + x + ... + x^n / n! *)
Fixpoint zfact (n : nat) : Z := match n with O => 1%Z | S m => (Z.of_nat n * zfact m)%Z end.
Fixpoint taylor (n : nat) (x : R) : R :=
  match n with O => 1 | S m => taylor m x + x ^ n / IZR (zfact n) end.

Lemma zfact_fact n : IZR (zfact n) = INR (fact n).
Proof.
induction n as [|n IH]; [reflexivity|]; change (zfact (S n)) with (Z.of_nat (S n) * zfact n)%Z; rewrite mult_IZR, IH, <- INR_IZR_INZ.
change (fact (S n)) with (S n * fact n)%nat; rewrite mult_INR; reflexivity.
Qed.

Lemma taylor_sum n x : taylor n x = sum_f_R0 (fun m => (x - 0) ^ m / INR (fact m) * Derive_n exp m 0) n.
Proof.
induction n as [|n IH]; [simpl; rewrite exp_0; field|].
change (taylor (S n) x) with (taylor n x + x ^ S n / IZR (zfact (S n))); rewrite zfact_fact.
cbn [sum_f_R0]; rewrite IH, (proj2 (exp_derive_n (S n) 0)), exp_0, Rminus_0_r; ring.
Qed.

Lemma exp_taylor n x : 0 < x -> exists z, 0 < z < x /\ exp x = taylor n x + x ^ S n / IZR (zfact (S n)) * exp z.
Proof.
intro L; destruct (Taylor_Lagrange exp n 0 x L) as (z & Z & E).
{ intros t _ k _; apply exp_derive_n. }
exists z; split; [exact Z|]; rewrite zfact_fact, E, <- taylor_sum, (proj2 (exp_derive_n (S n) z)), Rminus_0_r; reflexivity.
Qed.

Lemma exp_lower n x : 0 < x -> taylor n x < exp x.
Proof.
intro L; destruct (exp_taylor n x L) as (z & _ & ->).
assert (0 < x ^ S n / IZR (zfact (S n)) * exp z); [|lra]; rewrite zfact_fact.
apply Rmult_lt_0_compat; [|apply exp_pos]; apply Rdiv_lt_0_compat; [apply pow_lt, L|apply INR_fact_lt_0].
Qed.

Lemma exp_upper n x : 0 < x <= 1 -> exp x < taylor n x + x ^ S n / IZR (zfact (S n)) * 3.
Proof.
intros [L U]; destruct (exp_taylor n x L) as (z & Z & ->).
rewrite zfact_fact; apply Rplus_lt_compat_l, Rmult_lt_compat_l.
{ apply Rdiv_lt_0_compat; [apply pow_lt, L|apply INR_fact_lt_0]. }
apply Rlt_le_trans with (exp 1); [apply exp_increasing; lra|exact exp_le_3].
Qed.

Lemma exp_pow x n : exp (INR n * x) = exp x ^ n.
Proof. induction n as [|n IH]; [rewrite Rmult_0_l; exact exp_0|]; rewrite S_INR, Rmult_plus_distr_r, Rmult_1_l, exp_plus, IH; simpl; ring. Qed.

Lemma ln_above b x : exp b < x -> b < ln x.
Proof. intro H; rewrite <- (ln_exp b); apply ln_increasing; [apply exp_pos|exact H]. Qed.
Lemma ln_below b x : 0 < x -> x < exp b -> ln x < b.
Proof. intros P H; rewrite <- (ln_exp b); apply ln_increasing; assumption. Qed.

(* powers of bounds *)
Lemma pow_upper n a b : 0 <= a -> a < b -> (0 < n)%nat -> a ^ n < b ^ n.
Proof.
intros A L N; destruct n as [|n]; [lia|clear N]; induction n as [|n IH]; [simpl; lra|].
change (a * a ^ S n < b * b ^ S n); assert (0 <= a ^ S n) by (apply pow_le, A).
apply Rle_lt_trans with (b * a ^ S n); [apply Rmult_le_compat_r; lra|apply Rmult_lt_compat_l; lra].
Qed.

(* the Taylor polynomial at p / q over the common denominator q^k k! *)
Fixpoint zpow (x : Z) (n : nat) : Z := match n with O => 1%Z | S m => (x * zpow x m)%Z end.
Fixpoint zden (k : nat) (q : Z) : Z := match k with O => 1%Z | S m => (zden m q * (q * Z.of_nat k))%Z end.
Fixpoint znum (k : nat) (p q : Z) : Z := match k with O => 1%Z | S m => (znum m p q * (q * Z.of_nat k) + zpow p k)%Z end.

Lemma zpow_eq x n : IZR (zpow x n) = IZR x ^ n.
Proof. induction n as [|n IH]; [reflexivity|]; cbn [zpow]; rewrite mult_IZR, IH; reflexivity. Qed.
Lemma zden_eq k q : IZR (zden k q) = IZR q ^ k * IZR (zfact k).
Proof.
induction k as [|k IH]; [simpl; lra|]; cbn [zden zfact]; rewrite !mult_IZR, IH; simpl; ring.
Qed.
Lemma zden_pos k q : (0 < q)%Z -> 0 < IZR (zden k q).
Proof. intro Q; rewrite zden_eq, zfact_fact; apply Rmult_lt_0_compat; [apply pow_lt, IZR_lt, Q|apply INR_fact_lt_0]. Qed.
Lemma znum_eq k p q : (0 < q)%Z -> taylor k (IZR p / IZR q) = IZR (znum k p q) / IZR (zden k q).
Proof.
intro Q; induction k as [|k IH]; [simpl; lra|].
change (taylor (S k) (IZR p / IZR q)) with (taylor k (IZR p / IZR q) + (IZR p / IZR q) ^ S k / IZR (zfact (S k))); rewrite IH.
assert (D := zden_pos k q Q); assert (Q' : 0 < IZR q) by (apply IZR_lt, Q).
assert (D' := zden_pos (S k) q Q); assert (E := zden_eq (S k) q).
assert (P : 0 < IZR q ^ S k) by (apply pow_lt, Q'); assert (F : 0 < IZR (zfact (S k))) by (rewrite zfact_fact; apply INR_fact_lt_0).
replace ((IZR p / IZR q) ^ S k / IZR (zfact (S k))) with (IZR (zpow p (S k)) / IZR (zden (S k) q)).
{ change (znum (S k) p q) with (znum k p q * (q * Z.of_nat (S k)) + zpow p (S k))%Z.
  change (zden (S k) q) with (zden k q * (q * Z.of_nat (S k)))%Z in *.
  rewrite plus_IZR, !mult_IZR in *; field; repeat split; try lra.
  intro H; rewrite H in D'; lra. }
rewrite E, zpow_eq; unfold Rdiv; rewrite Rpow_mult_distr, pow_inv; field; lra.
Qed.

(* exp (n * p / q) against c / d by way of a / b <= or >= exp (p / q); all tests are on integers *)
Lemma exp_above_z (n k : nat) (p q a b c d : Z) y :
  ((0 <? p) && (0 <? q) && (0 <? b) && (0 <? d) && (0 <=? a) && (a * zden k q <=? b * znum k p q) && (c * zpow b n <=? d * zpow a n))%Z = true ->
  (0 < n)%nat -> y = INR n * (IZR p / IZR q) -> IZR c / IZR d < exp y.
Proof.
rewrite !Bool.andb_true_iff, !Z.ltb_lt, !Z.leb_le; intros ((((((P & Q) & B) & D) & A) & H1) & H2) N ->.
apply IZR_lt in P, B, D; apply IZR_le in A, H1, H2; assert (Q' := IZR_lt _ _ Q); rewrite !mult_IZR in *; rewrite !zpow_eq in H2.
assert (T := zden_pos k q Q); assert (E := znum_eq k p q Q).
assert (L1 : IZR a / IZR b <= taylor k (IZR p / IZR q)).
{ rewrite E; apply Rmult_le_reg_r with (IZR b * IZR (zden k q)); [apply Rmult_lt_0_compat; assumption|].
  replace (IZR a / IZR b * (IZR b * IZR (zden k q))) with (IZR a * IZR (zden k q)) by (field; lra).
  replace (IZR (znum k p q) / IZR (zden k q) * (IZR b * IZR (zden k q))) with (IZR b * IZR (znum k p q)) by (field; lra); exact H1. }
assert (L2 := exp_lower k (IZR p / IZR q) ltac:(apply Rdiv_lt_0_compat; assumption)).
assert (A0 : 0 <= IZR a / IZR b) by (apply Rmult_le_pos; [exact A|left; apply Rinv_0_lt_compat, B]).
rewrite exp_pow; apply Rle_lt_trans with ((IZR a / IZR b) ^ n); [|apply pow_upper; [exact A0|lra|exact N]].
assert (Bn : 0 < IZR b ^ n) by (apply pow_lt, B); unfold Rdiv at 2; rewrite Rpow_mult_distr, pow_inv.
apply Rmult_le_reg_r with (IZR d * IZR b ^ n); [apply Rmult_lt_0_compat; assumption|].
replace (IZR c / IZR d * (IZR d * IZR b ^ n)) with (IZR c * IZR b ^ n) by (field; lra).
replace (IZR a ^ n * / IZR b ^ n * (IZR d * IZR b ^ n)) with (IZR d * IZR a ^ n) by (field; lra); exact H2.
Qed.

Lemma exp_below_z (n k : nat) (p q a b c d : Z) y :
  ((0 <? p) && (p <=? q) && (0 <? b) && (0 <? d) && (b * (znum (S k) p q + 2 * zpow p (S k)) <=? a * zden (S k) q) && (d * zpow a n <=? c * zpow b n))%Z = true ->
  (0 < n)%nat -> y = INR n * (IZR p / IZR q) -> exp y < IZR c / IZR d.
Proof.
rewrite !Bool.andb_true_iff, !Z.ltb_lt, !Z.leb_le; intros (((((P & U) & B) & D) & H1) & H2) N ->.
assert (Q : (0 < q)%Z) by lia; assert (Q' := IZR_lt _ _ Q).
apply IZR_lt in P, B, D; apply IZR_le in U, H1, H2; rewrite !mult_IZR, ?plus_IZR, ?mult_IZR in *; rewrite !zpow_eq in *.
assert (T := zden_pos (S k) q Q); assert (E := znum_eq (S k) p q Q).
assert (X : 0 < IZR p / IZR q <= 1).
{ split; [apply Rdiv_lt_0_compat; assumption|]; apply Rmult_le_reg_r with (IZR q); [exact Q'|]; field_simplify; lra. }
assert (L := exp_upper k _ X); assert (F : 0 < IZR (zfact (S k))) by (rewrite zfact_fact; apply INR_fact_lt_0).
assert (L1 : taylor k (IZR p / IZR q) + (IZR p / IZR q) ^ S k / IZR (zfact (S k)) * 3 <= IZR a / IZR b).
{ replace (taylor k (IZR p / IZR q) + (IZR p / IZR q) ^ S k / IZR (zfact (S k)) * 3)
    with (taylor (S k) (IZR p / IZR q) + 2 * (IZR p ^ S k / IZR (zden (S k) q))).
  2:{ change (taylor (S k) (IZR p / IZR q)) with (taylor k (IZR p / IZR q) + (IZR p / IZR q) ^ S k / IZR (zfact (S k))).
      assert (G : 0 < IZR q ^ S k) by (apply pow_lt, Q').
      assert (XE : (IZR p / IZR q) ^ S k = IZR p ^ S k / IZR q ^ S k) by (unfold Rdiv; rewrite Rpow_mult_distr, pow_inv; reflexivity).
      rewrite zden_eq, XE; field; lra. }
  rewrite E; apply Rmult_le_reg_r with (IZR b * IZR (zden (S k) q)); [apply Rmult_lt_0_compat; assumption|].
  replace (IZR a / IZR b * (IZR b * IZR (zden (S k) q))) with (IZR a * IZR (zden (S k) q)) by (field; lra).
  replace ((IZR (znum (S k) p q) / IZR (zden (S k) q) + 2 * (IZR p ^ S k / IZR (zden (S k) q))) * (IZR b * IZR (zden (S k) q)))
    with (IZR b * (IZR (znum (S k) p q) + 2 * IZR p ^ S k)) by (field; lra).
  exact H1. }
rewrite exp_pow; apply Rlt_le_trans with ((IZR a / IZR b) ^ n); [apply pow_upper; [left; apply exp_pos|lra|exact N]|].
assert (Bn : 0 < IZR b ^ n) by (apply pow_lt, B); unfold Rdiv at 1; rewrite Rpow_mult_distr, pow_inv.
apply Rmult_le_reg_r with (IZR d * IZR b ^ n); [apply Rmult_lt_0_compat; assumption|].
replace (IZR c / IZR d * (IZR d * IZR b ^ n)) with (IZR c * IZR b ^ n) by (field; lra).
replace (IZR a ^ n * / IZR b ^ n * (IZR d * IZR b ^ n)) with (IZR d * IZR a ^ n) by (field; lra); exact H2.
Qed.

(* const_lt_exp n k (p / q) proves c / d < exp y, exp_lt_const n k (p / q) proves exp y < c / d, where y = n * (p / q) *)
Ltac const_lt_exp n k x :=
  lazymatch x with IZR ?p / IZR ?q =>
    let a := eval vm_compute in (znum k p q * 100000000000000 / zden k q)%Z in
    lazymatch goal with
    | |- IZR ?c / IZR ?d < exp ?y => apply (exp_above_z n k p q a 100000000000000 c d y); [vm_compute; reflexivity|lia|simpl; lra]
    | |- IZR ?c < exp ?y => apply Rle_lt_trans with (IZR c / 1); [lra|];
        apply (exp_above_z n k p q a 100000000000000 c 1 y); [vm_compute; reflexivity|lia|simpl; lra]
    end
  end.
Ltac exp_lt_const n k x :=
  lazymatch x with IZR ?p / IZR ?q =>
    let a := eval vm_compute in ((znum (S k) p q + 2 * zpow p (S k)) * 100000000000000 / zden (S k) q + 1)%Z in
    lazymatch goal with
    | |- exp ?y < IZR ?c / IZR ?d => apply (exp_below_z n k p q a 100000000000000 c d y); [vm_compute; reflexivity|lia|simpl; lra]
    | |- exp ?y < IZR ?c => apply Rlt_le_trans with (IZR c / 1); [|lra];
        apply (exp_below_z n k p q a 100000000000000 c 1 y); [vm_compute; reflexivity|lia|simpl; lra]
    end
  end.
