(* Ratings of room air conditioners *)
From Coq Require Import Reals Lra Psatz.
From Verif Require Import Model.Rac.
Local Open Scope R_scope.

Ltac minmax := unfold get_q_rtd, get_q_max in *; cbn [fst snd] in *; unfold Rmax, Rmin in *;
  repeat match goal with |- context [Rle_dec ?a ?b] => destruct (Rle_dec a b) | H : context [Rle_dec ?a ?b] |- _ => destruct (Rle_dec a b) end; try lra.

Definition rtd_h a := fst (get_q_rtd a).
Definition rtd_c a := snd (get_q_rtd a).
Definition max_h a := fst (get_q_max (rtd_h a) (rtd_c a)).
Definition max_c a := snd (get_q_max (rtd_h a) (rtd_c a)).

Lemma max_ge h c : h <= fst (get_q_max h c) /\ c <= snd (get_q_max h c).
Proof. split; unfold get_q_max; cbn [fst snd]; apply Rmax_r. Qed.

Lemma rtd_mono a b : a <= b -> rtd_h a <= rtd_h b /\ rtd_c a <= rtd_c b.
Proof. intro L; unfold rtd_h, rtd_c; minmax. Qed.
Lemma q_max_mono h h' c c' : h <= h' -> c <= c' -> fst (get_q_max h c) <= fst (get_q_max h' c') /\ snd (get_q_max h c) <= snd (get_q_max h' c').
Proof. intros H C; minmax. Qed.
Lemma max_mono a b : a <= b -> max_h a <= max_h b /\ max_c a <= max_c b.
Proof. intro L; destruct (rtd_mono a b L); apply q_max_mono; assumption. Qed.

Lemma rtd_c_bounds a : 0 <= a -> 456 / 10 <= rtd_c a <= 5600.
Proof. intro A; unfold rtd_c; minmax. Qed.
Lemma rtd_h_sign a : 0 < rtd_h a <-> 1905 / 10 * a > 851 / 10 / (1209 / 1000) - 456 / 10.
Proof. unfold rtd_h; split; intro H; minmax. Qed.
Lemma max_c_low a : 0 <= a -> 1244 < max_c a.
Proof. intro A; assert (B := rtd_c_bounds a A); unfold max_c; revert B; generalize (rtd_h a) (rtd_c a); intros; minmax. Qed.
Lemma max_h_low a : 0 <= a -> 1775 < max_h a.
Proof. intro A; assert (B := rtd_c_bounds a A); unfold max_h; revert B; generalize (rtd_h a) (rtd_c a); intros; minmax. Qed.

(* air flow *)
Lemma v_max_some q : 0 <= q -> exists v, get_v_max q = Some v /\ 0 <= v /\ (0 < q -> 0 < v).
Proof.
intro Q; unfold get_v_max, np_pow; destruct (Rlt_dec (q / 1000) 0) as [L|_]; [lra|].
destruct (Req_EM_T (q / 1000) 0) as [E|N]; [eexists; split; [reflexivity|split; lra]|].
assert (P : 0 < Rpower (q / 1000) (3432 / 10000)) by apply exp_pos.
eexists; split; [reflexivity|split; [lra|intros _; lra]].
Qed.

Lemma v_max_nan q : q < 0 -> get_v_max q = None.
Proof. intro Q; unfold get_v_max, np_pow; destruct (Rlt_dec (q / 1000) 0); [reflexivity|lra]. Qed.

Lemma v_max_mono p q u v : 0 <= p -> p <= q -> get_v_max p = Some u -> get_v_max q = Some v -> u <= v.
Proof.
intros P [L| <-]; [|intros E1 E2; rewrite E1 in E2; injection E2 as ->; lra].
unfold get_v_max, np_pow; destruct (Rlt_dec (p / 1000) 0) as [H|_]; [lra|]; destruct (Rlt_dec (q / 1000) 0) as [H|_]; [lra|].
destruct (Req_EM_T (q / 1000) 0) as [H|_]; [lra|].
assert (Q : 0 < Rpower (q / 1000) (3432 / 10000)) by apply exp_pos.
destruct (Req_EM_T (p / 1000) 0) as [H|N]; intros E1 E2; injection E1 as <-; injection E2 as <-; [lra|].
assert (Rpower (p / 1000) (3432 / 10000) < Rpower (q / 1000) (3432 / 10000)); [|lra].
apply Rlt_Rpower_l; lra.
Qed.
