(* Coq's real numbers as a real closed field of mathcomp, so that the parts of the model written over an arbitrary field
   (core) and those written over R (weather, walls, comfort, psychrometrics) can be put together. Models no code. *)
From Coq Require Import Reals Lra Psatz Epsilon FunctionalExtensionality.
From mathcomp Require Import all_ssreflect ssralg poly ssrnum.
Set Implicit Arguments. Unset Strict Implicit. Unset Printing Implicit Defensive.
Import Order.TTheory GRing.Theory Num.Theory.
Delimit Scope R_scope with coqR.

Definition eqr (x y : R) : bool := if Req_EM_T x y then true else false.
Lemma eqrP : Equality.axiom eqr.
Proof. by move=> x y; rewrite /eqr; case: (Req_EM_T x y) => H; constructor. Qed.
Definition R_eqMixin := EqMixin eqrP.
Canonical R_eqType := EqType R R_eqMixin.

Definition pickR (P : pred R) (n : nat) : option R :=
  let x := epsilon (inhabits 0%coqR) (fun x => is_true (P x)) in if P x then Some x else None.
Lemma pickR_some P n x : pickR P n = Some x -> P x.
Proof. by rewrite /pickR; case: ifP => // H [<-]. Qed.
Lemma pickR_ex (P : pred R) : (exists x, P x) -> exists n, pickR P n.
Proof. by move=> E; exists 0; rewrite /pickR (epsilon_spec (inhabits 0%coqR) (fun x => P x) E). Qed.
Lemma pickR_ext (P Q : pred R) : P =1 Q -> pickR P =1 pickR Q.
Proof. by move=> E n; have -> : P = Q by apply: functional_extensionality. Qed.
Definition R_choiceMixin : choiceMixin R := Choice.Mixin pickR_some pickR_ex pickR_ext.
Canonical R_choiceType := ChoiceType R R_choiceMixin.

Fact R_addA : associative Rplus. Proof. by move=> x y z; ring. Qed.
Fact R_addC : commutative Rplus. Proof. by move=> x y; ring. Qed.
Fact R_add0 : left_id 0%coqR Rplus. Proof. by move=> x; ring. Qed.
Fact R_addN : left_inverse 0%coqR Ropp Rplus. Proof. by move=> x; ring. Qed.
Definition R_zmodMixin := ZmodMixin R_addA R_addC R_add0 R_addN.
Canonical R_zmodType := ZmodType R R_zmodMixin.

Fact R_mulA : associative Rmult. Proof. by move=> x y z; ring. Qed.
Fact R_mulC : commutative Rmult. Proof. by move=> x y; ring. Qed.
Fact R_mul1 : left_id 1%coqR Rmult. Proof. by move=> x; ring. Qed.
Fact R_mulDl : left_distributive Rmult Rplus. Proof. by move=> x y z; ring. Qed.
Fact R_1neq0 : 1%coqR != 0%coqR :> R. Proof. by apply/eqP; exact: R1_neq_R0. Qed.
Definition R_ringMixin := ComRingMixin R_mulA R_mulC R_mul1 R_mulDl R_1neq0.
Canonical R_ringType := RingType R R_ringMixin.
Canonical R_comRingType := ComRingType R R_mulC.

(* the inverse of 0 is 0 in mathcomp *)
Definition R_inv (x : R) : R := if x == 0%coqR then 0%coqR else (/ x)%coqR.
Fact R_mulV (x : R) : x != 0%coqR -> (R_inv x * x)%coqR = 1%coqR.
Proof. by rewrite /R_inv; case: eqP => // H _; field. Qed.
Fact R_inv0 : R_inv 0%coqR = 0%coqR. Proof. by rewrite /R_inv eqxx. Qed.
Definition R_fieldMixin := FieldMixin R_mulV R_inv0.
Definition R_unitRingMixin := FieldUnitMixin R_mulV R_inv0.
Canonical R_unitRingType := UnitRingType R R_unitRingMixin.
Canonical R_comUnitRingType := [comUnitRingType of R].
Fact R_field_axiom : GRing.Field.mixin_of R_unitRingType. Proof. exact. Qed.
Definition R_idomainMixin := FieldIdomainMixin R_field_axiom.
Canonical R_idomainType := IdomainType R R_idomainMixin.
Canonical R_fieldType := FieldType R R_field_axiom.

Definition R_le (x y : R) : bool := if Rle_dec x y then true else false.
Definition R_lt (x y : R) : bool := if Rlt_dec x y then true else false.
Lemma R_leP x y : reflect (x <= y)%coqR (R_le x y).
Proof. by rewrite /R_le; case: Rle_dec => H; constructor. Qed.
Lemma R_ltP x y : reflect (x < y)%coqR (R_lt x y).
Proof. by rewrite /R_lt; case: Rlt_dec => H; constructor. Qed.

Fact R_le0D x y : R_le 0%coqR x -> R_le 0%coqR y -> R_le 0%coqR (x + y)%coqR.
Proof. by move=> /R_leP A /R_leP B; apply/R_leP; lra. Qed.
Fact R_le0M x y : R_le 0%coqR x -> R_le 0%coqR y -> R_le 0%coqR (x * y)%coqR.
Proof. by move=> /R_leP A /R_leP B; apply/R_leP; exact: Rmult_le_pos. Qed.
Fact R_le0_anti x : R_le 0%coqR x -> R_le x 0%coqR -> x = 0%coqR.
Proof. by move=> /R_leP A /R_leP B; lra. Qed.
Fact R_sub_ge0 x y : R_le 0%coqR (y - x)%coqR = R_le x y.
Proof. by apply/R_leP/R_leP => A; lra. Qed.
Fact R_le0_total x : R_le 0%coqR x || R_le x 0%coqR.
Proof. by case: R_leP => // A; apply/R_leP; lra. Qed.
Fact R_normN x : Rabs (- x)%coqR = Rabs x. Proof. exact: Rabs_Ropp. Qed.
Fact R_ge0_norm x : R_le 0%coqR x -> Rabs x = x.
Proof. by move=> /R_leP A; rewrite Rabs_right //; lra. Qed.
Fact R_lt_def x y : R_lt x y = (y != x) && R_le x y.
Proof. by apply/R_ltP/andP => [A|[/eqP N /R_leP A]]; [split; [apply/eqP|apply/R_leP]|]; lra. Qed.
Definition R_leMixin : realLeMixin R_idomainType :=
  RealLeMixin R_le0D R_le0M R_le0_anti R_sub_ge0 R_le0_total R_normN R_ge0_norm R_lt_def.
Fact R_le_total x y : R_le x y || R_le y x.
Proof. by case: R_leP => //= A; apply/R_leP; lra. Qed.
Canonical R_porderType := POrderType ring_display R R_leMixin.
Canonical R_latticeType := LatticeType R R_leMixin.
Canonical R_distrLatticeType := DistrLatticeType R R_leMixin.
Canonical R_orderType := OrderType R R_le_total.
Canonical R_numDomainType := NumDomainType R R_leMixin.
Canonical R_normedZmodType := NormedZmodType R R R_leMixin.
Canonical R_numFieldType := [numFieldType of R].
Canonical R_realDomainType := [realDomainType of R].
Canonical R_realFieldType := [realFieldType of R].

(* intermediate values of polynomials *)
Lemma horner_continuous (p : {poly R}) : continuity (fun x => p.[x]%R).
Proof.
elim/poly_ind: p => [|p c IH] x.
  have -> : horner (0 : {poly R})%R = fct_cte R0 by apply: functional_extensionality => y; rewrite horner0.
  exact: continuity_pt_const.
have -> : horner (p * 'X + c%:P)%R = plus_fct (mult_fct (horner p) id) (fct_cte c).
  by apply: functional_extensionality => y; rewrite hornerMXaddC.
apply: continuity_pt_plus; last exact: continuity_pt_const.
apply: continuity_pt_mult; [exact: IH|].
exact: (derivable_continuous_pt _ _ (derivable_pt_id x)).
Qed.

Fact R_real_closed : Num.real_closed_axiom R_numDomainType.
Proof.
move=> p a b /R_leP ab /andP[/R_leP A /R_leP B].
have := IVT_cor (horner p) a b (@horner_continuous p) ab.
case=> [|z [[az zb] E]].
  by have := Rmult_le_pos _ _ (Ropp_0_ge_le_contravar _ (Rle_ge _ _ A)) B; move: A B; set u := horner p a; set v := horner p b; nra.
by exists z; [apply/andP; split; apply/R_leP|apply/eqP].
Qed.
Canonical R_rcfType := RcfType R R_real_closed.

(* the operations of the field are those of R *)
Lemma R_addE (x y : R) : (x + y)%R = (x + y)%coqR. Proof. by []. Qed.
Lemma R_oppE (x : R) : (- x)%R = (- x)%coqR. Proof. by []. Qed.
Lemma R_mulE (x y : R) : (x * y)%R = (x * y)%coqR. Proof. by []. Qed.
Lemma R_invE (x : R) : x <> R0 -> (x^-1)%R = (/ x)%coqR.
Proof. by move=> N; rewrite /GRing.inv /= /R_inv; case: eqP. Qed.
Lemma R_0E : (0%R : R) = R0. Proof. by []. Qed.
Lemma R_1E : (1%R : R) = R1. Proof. by []. Qed.
Lemma R_natE n : (n%:R : R)%R = INR n.
Proof. by elim: n => // n IH; rewrite mulrS IH S_INR R_addE R_1E Rplus_comm. Qed.
Lemma R_expE (x : R) n : (x ^+ n)%R = (x ^ n)%coqR.
Proof. by elim: n => // n IH; rewrite exprS IH. Qed.
Lemma R_maxE (x y : R) : Num.max x y = Rmax x y.
Proof.
rewrite /Num.max /Order.max; case: (boolP (x < y)%O) => [/R_ltP A|/negP A]; [rewrite Rmax_right //; lra|].
by rewrite Rmax_left //; case: (Rle_dec y x) => // B; case: A; apply/R_ltP; lra.
Qed.
