From Coq Require Import ZArith String.
From mathcomp Require Import all_ssreflect ssralg ssrnum zmodp matrix.
From Verif Require Import Model.Numpy Model.Dec Model.Py Model.Infiltration Spec.InfiltrationSpec Lemmas.DecL.
Set Implicit Arguments. Unset Strict Implicit. Unset Printing Implicit Defensive.
Import Order.TTheory GRing.Theory Num.Theory.
Local Open Scope ring_scope.

Section InfiltrationL.
Variable F : rcfType.
Variable ni : nat.
Implicit Types (v theta w : 'cV[F]_ni) (c o : F) (s : Z) (p : string).

Definition rate (a b c d : F) : F := Num.max (a * (c * Num.sqrt `|d|) - b) 0.

Lemma coef_a_ok s : known_story s -> exists2 a, coef_a F s = Ok a & 0 < a.
Proof.
by case=> ->; [exists (dec F 22 3)|exists (dec F 20 3)] => //; rewrite dec_gt0.
Qed.

Lemma coef_b_ok s p : known_story s -> known_pressure p -> exists2 b, coef_b F s p = Ok b & 0 <= b.
Proof.
by case=> -> [|[|]] ->; rewrite /coef_b /=; eexists; try reflexivity; rewrite ?dec_ge0.
Qed.

Lemma coef_b_known s p b : coef_b F s p = Ok b -> known_story s /\ known_pressure p.
Proof.
rewrite /coef_b /known_story /known_pressure.
case: s => [//|[?|[?|?|]|]|?] //=;
(case: String.eqb_spec => [->|_]; first by tauto);
(case: String.eqb_spec => [->|_]; first by tauto);
(case: String.eqb_spec => [->|_] //; by tauto).
Qed.

Lemma infiltrationE c v s p theta o :
  \sum_i v i 0 != 0 -> known_story s -> known_pressure p ->
  exists a b, [/\ coef_a F s = Ok a, 0 < a, coef_b F s p = Ok b, 0 <= b &
   infiltration_residential c v s p theta o
     = Ok (\matrix_(i, _) (rate a b c (difference v theta o) * v i 0 / 3600%:R))].
Proof.
move=> v0 ks kp; have [a ea a0] := coef_a_ok ks; have [b eb b0] := coef_b_ok ks kp.
exists a, b; split=> //; rewrite /infiltration_residential (negbTE v0) ea eb /=.
congr (Ok _); apply/matrixP=> i j; rewrite !mxE /rate /difference.
by congr (_ * _ / _); congr (Num.max (_ * (_ * Num.sqrt `|_ / _ - _|) - _) _); apply: eq_bigr => k _; rewrite mulrC.
Qed.

Lemma infiltration_inv c v s p theta o q :
  infiltration_residential c v s p theta o = Ok q -> [/\ \sum_i v i 0 != 0, known_story s & known_pressure p].
Proof.
rewrite /infiltration_residential; case: ifP => // v0.
case ea : coef_a => [a|] //=; case eb : coef_b => [b|] //= _.
by have [] := coef_b_known eb.
Qed.

Lemma rate_ge0 a b c d : 0 <= rate a b c d.
Proof. by rewrite /rate le_maxr lexx orbT. Qed.

Lemma le_max2 (x y : F) : x <= y -> Num.max x 0 <= Num.max y 0.
Proof. by move=> xy; rewrite le_maxl !le_maxr xy lexx orbT. Qed.

Lemma rate_mono a b c c' d d' : 0 < a -> 0 <= c -> c <= c' -> `|d| <= `|d'| -> rate a b c d <= rate a b c' d'.
Proof.
move=> a0 c0 cc dd; apply: le_max2; rewrite ler_add2r ler_pmul2l //.
by apply: ler_pmul => //; [exact: sqrtr_ge0|exact: ler_wsqrtr].
Qed.

Lemma rate_anti a b b' c d : b' <= b -> rate a b c d <= rate a b' c d.
Proof. by move=> bb; apply: le_max2; rewrite ler_add2l ler_opp2. Qed.

Lemma infil_fails c v s p theta o : 0 < \sum_i v i 0 ->
  (exists q, infiltration_residential c v s p theta o = Ok q) <-> known_story s /\ known_pressure p.
Proof.
move=> v0; split=> [[q /infiltration_inv[]] //|[ks kp]].
by have [a [b [_ _ _ _ ->]]] := infiltrationE c theta o (lt0r_neq0 v0) ks kp; eexists.
Qed.

Lemma infil_method m c v s p g : make_get_infiltration m c v s p = Ok g ->
  m = "balance_residential"%string /\ g = infiltration_residential c v s p.
Proof. by rewrite /make_get_infiltration; case: String.eqb_spec => // -> [<-]. Qed.

Lemma infil_err_story c v s p theta o : \sum_i v i 0 != 0 -> ~ (known_story s /\ known_pressure p) ->
  infiltration_residential c v s p theta o = Err KeyError.
Proof.
move=> v0 nk; rewrite /infiltration_residential (negbTE v0).
have [ks|ks] : known_story s \/ ~ known_story s.
- by case: s {nk} => [|[?|[?|?|]|]|?]; rewrite /known_story; try (by left; tauto); right; case.
- have [a -> _] := coef_a_ok ks; rewrite [bind _ _]/=.
  suff -> : coef_b F s p = Err KeyError by [].
  have np : ~ known_pressure p by move=> kp; apply: nk.
  rewrite /coef_b; case: ks => -> /=;
  (case: String.eqb_spec => [e|_]; first by case: np; left);
  (case: String.eqb_spec => [e|_]; first by case: np; right; left);
  (case: String.eqb_spec => [e|_] //; by case: np; right; right).
- suff -> : coef_a F s = Err KeyError by [].
  by rewrite /known_story in ks; case: s nk ks => [|[?|[?|?|]|]|?] // _ []; tauto.
Qed.

Lemma infil_ge0 c v s p theta o q : (forall i, 0 <= v i 0) ->
  infiltration_residential c v s p theta o = Ok q -> forall i, 0 <= q i 0.
Proof.
move=> v0 e i; have [t0 ks kp] := infiltration_inv e.
have [a [b [_ _ _ _ e']]] := infiltrationE c theta o t0 ks kp.
move: e; rewrite e' => -[<-]; rewrite mxE.
by apply: mulr_ge0; [apply: mulr_ge0; [exact: rate_ge0|]|rewrite invr_ge0 ler0n].
Qed.

Lemma infil_proportional c v s p theta o q :
  infiltration_residential c v s p theta o = Ok q -> forall i k, q i 0 * v k 0 = q k 0 * v i 0.
Proof.
move=> e i k; have [t0 ks kp] := infiltration_inv e.
have [a [b [_ _ _ _ e']]] := infiltrationE c theta o t0 ks kp.
move: e; rewrite e' => -[<-]; rewrite !mxE.
by rewrite -!mulrA; congr (_ * _); rewrite mulrA mulrC; congr (_ * _); rewrite mulrC.
Qed.

Lemma difference_scale v theta o (k : F) : k != 0 -> difference (k *: v) theta o = difference v theta o.
Proof.
move=> k0; rewrite /difference; congr (_ - _).
have -> : \sum_i (k *: v) i 0 = k * \sum_i v i 0 by rewrite mulr_sumr; apply: eq_bigr => i _; rewrite mxE.
have -> : \sum_i (k *: v) i 0 * theta i 0 = k * \sum_i v i 0 * theta i 0.
  by rewrite mulr_sumr; apply: eq_bigr => i _; rewrite mxE mulrA.
by rewrite invfM mulrACA divff // mul1r.
Qed.

Lemma infil_scale c v s p theta o q (k : F) : k != 0 ->
  infiltration_residential c v s p theta o = Ok q ->
  infiltration_residential c (k *: v) s p theta o = Ok (k *: q).
Proof.
move=> k0 e; have [t0 ks kp] := infiltration_inv e.
have t0' : \sum_i (k *: v) i 0 != 0.
  have -> : \sum_i (k *: v) i 0 = k * \sum_i v i 0 by rewrite mulr_sumr; apply: eq_bigr => i _; rewrite mxE.
  by rewrite mulf_neq0.
have [a [b [ea _ eb _ e1]]] := infiltrationE c theta o t0 ks kp.
have [a' [b' [ea' _ eb' _ ->]]] := infiltrationE c theta o t0' ks kp.
move: ea' eb'; rewrite ea eb => -[<-] [<-]; move: e; rewrite e1 => -[<-].
congr (Ok _); apply/matrixP=> i j; rewrite !mxE difference_scale //.
by rewrite !mulrA; congr (_ * _ / _); rewrite [LHS]mulrC.
Qed.

(* The volume-weighted mean and nothing else of the temperatures matters, and only through its distance. *)
Lemma infil_mono c c' v s p theta theta' o o' q q' : (forall i, 0 <= v i 0) -> 0 <= c -> c <= c' ->
  `|difference v theta o| <= `|difference v theta' o'| ->
  infiltration_residential c v s p theta o = Ok q ->
  infiltration_residential c' v s p theta' o' = Ok q' -> forall i, q i 0 <= q' i 0.
Proof.
move=> v0 c0 cc dd e e' i; have [t0 ks kp] := infiltration_inv e.
have [a [b [ea a0 eb _ e1]]] := infiltrationE c theta o t0 ks kp.
have [a' [b' [ea' _ eb' _ e1']]] := infiltrationE c' theta' o' t0 ks kp.
move: ea' eb'; rewrite ea eb => -[?] [?]; subst a' b'.
move: e e'; rewrite e1 e1' => -[<-] [<-]; rewrite !mxE.
rewrite ler_wpmul2r ?invr_ge0 ?ler0n // ler_wpmul2r //; exact: rate_mono.
Qed.

Lemma infil_symmetric c v s p theta theta' o o' :
  `|difference v theta o| = `|difference v theta' o'| ->
  infiltration_residential c v s p theta o = infiltration_residential c v s p theta' o'.
Proof.
move=> dd; rewrite /infiltration_residential; case: ifP => // t0.
have -> : `|(\sum_i theta i 0 * v i 0) / (\sum_i v i 0) - o| = `|(\sum_i theta' i 0 * v i 0) / (\sum_i v i 0) - o'|.
  move: dd; rewrite /difference.
  have -> w : \sum_i v i 0 * w i 0 = \sum_i w i 0 * v i 0 by apply: eq_bigr => i _; rewrite mulrC.
  have -> : \sum_i v i 0 * theta' i 0 = \sum_i theta' i 0 * v i 0 by apply: eq_bigr => i _; rewrite mulrC.
  by [].
by [].
Qed.

Lemma infil_le_balanced c v s p theta o q : (forall i, 0 <= v i 0) ->
  infiltration_residential c v s p theta o = Ok q ->
  exists2 q0, infiltration_residential c v s "balanced" theta o = Ok q0 & forall i, q i 0 <= q0 i 0.
Proof.
move=> v0 e; have [t0 ks kp] := infiltration_inv e.
have kb : known_pressure "balanced" by left.
have [a [b [ea a0 eb b0 e1]]] := infiltrationE c theta o t0 ks kp.
have [a' [b' [ea' _ eb' _ e1']]] := infiltrationE c theta o t0 ks kb.
rewrite e1'; eexists; first reflexivity; move=> i.
move: ea'; rewrite ea => -[?]; subst a'.
have ? : b' = 0 by move: eb'; case: ks => -> [<-]. subst b'.
move: e; rewrite e1 => -[<-]; rewrite !mxE.
rewrite ler_wpmul2r ?invr_ge0 ?ler0n // ler_wpmul2r //; exact: rate_anti.
Qed.

Lemma infil_calm c v s p theta o q : difference v theta o = 0 ->
  infiltration_residential c v s p theta o = Ok q -> forall i, q i 0 = 0.
Proof.
move=> d0 e i; have [t0 ks kp] := infiltration_inv e.
have [a [b [ea a0 eb b0 e1]]] := infiltrationE c theta o t0 ks kp.
move: e; rewrite e1 => -[<-]; rewrite mxE /rate d0 normr0 sqrtr0 !mulr0 add0r.
by rewrite (max_idPr _) ?mul0r // oppr_le0.
Qed.

Lemma coef_table s p a b : coef_a F s = Ok a -> coef_b F s p = Ok b -> table s p a b.
Proof.
move=> ea eb; have [ks kp] := coef_b_known eb; move: ea eb.
rewrite /table !dec_nat; case: ks kp => -> [|[|]] -> [<-] [<-]; rewrite !dec_mul; split;
 try (by left; split=> //; exact: dec_eq); try (by right; split=> //; exact: dec_eq); try (by left);
 try (by right; left; do ?split=> //; exact: dec_eq); try (by right; right; left; do ?split=> //; exact: dec_eq);
 try (by right; right; right; left; do ?split=> //; exact: dec_eq);
 by right; right; right; right; do ?split=> //; exact: dec_eq.
Qed.

Lemma infil_value c v s p theta o q : infiltration_residential c v s p theta o = Ok q ->
  exists a b : F, table s p a b /\
  forall i, q i 0 = Num.max (a * c * Num.sqrt `|difference v theta o| - b) 0 * v i 0 / 3600%:R.
Proof.
move=> e; have [t0 ks kp] := infiltration_inv e.
have [a [b [ea a0 eb b0 e1]]] := infiltrationE c theta o t0 ks kp.
exists a, b; split; first exact: coef_table.
by move=> i; move: e; rewrite e1 => -[<-]; rewrite mxE /rate mulrA.
Qed.

(* The function handed to the step *)
Lemma infil_fun_ex c v s p : 0 < \sum_i v i 0 -> (forall i, 0 <= v i 0) -> known_story s -> known_pressure p ->
  exists f : 'cV[F]_ni -> F -> 'cV[F]_ni,
    (forall theta o, infiltration_residential c v s p theta o = Ok (f theta o)) /\
    forall theta o i, 0 <= f theta o i 0.
Proof.
move=> t0 v0 ks kp; have [a ea a0] := coef_a_ok ks; have [b eb b0] := coef_b_ok ks kp.
have E theta o : infiltration_residential c v s p theta o
     = Ok (\matrix_(i, _) (rate a b c (difference v theta o) * v i 0 / 3600%:R)).
  have [a' [b' [ea' _ eb' _ ->]]] := infiltrationE c theta o (lt0r_neq0 t0) ks kp.
  by move: ea' eb'; rewrite ea eb => -[<-] [<-].
by exists (fun theta o => \matrix_(i, _) (rate a b c (difference v theta o) * v i 0 / 3600%:R)); split=> // theta o;
   exact: infil_ge0 v0 (E theta o).
Qed.

Lemma infil_ex : infiltration_residential 2%:R (const_mx 36%:R : 'cV[F]_2) 1 "balanced" (const_mx 25%:R) 0
  = Ok (const_mx (dec F 22 4)).
Proof.
have S (x : F) : \sum_(i < 2) (const_mx x : 'cV[F]_2) i 0 = x + x by rewrite !big_ord_recl big_ord0 !mxE addr0.
rewrite /infiltration_residential S -natrD pnatr_eq0 /=; congr (Ok _); apply/matrixP=> i j; rewrite !mxE.
have -> : \sum_(i < 2) (const_mx 25%:R : 'cV[F]_2) i 0 * (const_mx 36%:R : 'cV[F]_2) i 0 = 25%:R * (36 + 36)%:R :> F.
  by rewrite !big_ord_recl big_ord0 !mxE addr0 natrD mulrDr.
rewrite mulfK ?pnatr_eq0 // subr0 subr0 ger0_norm ?ler0n //.
have -> : Num.sqrt 25%:R = 5%:R :> F by rewrite -[25%N]/(5 * 5)%N natrM -expr2 sqrtr_sqr ger0_norm ?ler0n.
rewrite (max_idPl _); last by rewrite mulr_ge0 ?dec_ge0 // mulr_ge0 ?ler0n.
apply: (@mulIf _ 3600%:R); first by rewrite pnatr_eq0.
by rewrite divfK ?pnatr_eq0 // !dec_nat !dec_mul; exact: dec_eq.
Qed.
End InfiltrationL.
