(* Emissivities, gases, gaps and resistances of a glazing. *)
From Coq Require Import Reals ZArith List Bool Lia Lra.
From Verif Require Import Model.Py Model.EesHouse Model.GlassBalance Spec.GlassHeat Lemmas.PyL Lemmas.GlazingL Lemmas.GlassFlowL.
Import ListNotations.
Local Open Scope R_scope.

(* ---- emissivity ---- *)
(* neighbours in the table of corrections, between which e * c rises *)
Fixpoint rising (x1 y1 : R) (t : list (R * R)) : Prop :=
  match t with
  | [] => True
  | (x2, y2) :: rest =>
      x1 < x2 /\ 0 < y1 * (x2 - x1) + x1 * (y2 - y1) /\ 0 < y2 * (x2 - x1) + x2 * (y2 - y1) /\ rising x2 y2 rest
  end.

Definition seg (x1 y1 x2 y2 e : R) : R := y1 * (x2 - e) / (x2 - x1) + y2 * (e - x1) / (x2 - x1).

Lemma seg_mono x1 y1 x2 y2 e e' : x1 < x2 -> 0 < y1 * (x2 - x1) + x1 * (y2 - y1) -> 0 < y2 * (x2 - x1) + x2 * (y2 - y1) ->
  x1 <= e -> e < e' -> e' <= x2 -> e * seg x1 y1 x2 y2 e < e' * seg x1 y1 x2 y2 e'.
Proof.
intros X G1 G2 E1 E E2.
assert (D : e' * seg x1 y1 x2 y2 e' - e * seg x1 y1 x2 y2 e =
  (e' - e) * ((y1 * x2 - y2 * x1) + (y2 - y1) * (e + e')) / (x2 - x1)) by (unfold seg; field; lra).
assert (P : 0 < (y1 * x2 - y2 * x1) + (y2 - y1) * (e + e')).
{ destruct (Rle_dec 0 (y2 - y1)) as [S|S].
  - assert ((y2 - y1) * (2 * x1) <= (y2 - y1) * (e + e')) by (apply Rmult_le_compat_l; lra); lra.
  - assert ((y1 - y2) * (e + e') <= (y1 - y2) * (2 * x2)) by (apply Rmult_le_compat_l; lra); lra. }
assert (0 < (e' - e) * ((y1 * x2 - y2 * x1) + (y2 - y1) * (e + e')) / (x2 - x1)); [|lra].
apply Rmult_lt_0_compat; [apply Rmult_lt_0_compat; lra|apply Rinv_0_lt_compat; lra].
Qed.

Lemma seg_left x1 y1 x2 y2 : x1 < x2 -> seg x1 y1 x2 y2 x1 = y1.
Proof. intro; unfold seg; field; lra. Qed.
Lemma seg_right x1 y1 x2 y2 : x1 < x2 -> seg x1 y1 x2 y2 x2 = y2.
Proof. intro; unfold seg; field; lra. Qed.

Lemma seg_ge x1 y1 x2 y2 e : x1 < x2 -> 0 < y1 * (x2 - x1) + x1 * (y2 - y1) -> 0 < y2 * (x2 - x1) + x2 * (y2 - y1) ->
  x1 <= e <= x2 -> x1 * y1 <= e * seg x1 y1 x2 y2 e.
Proof.
intros X G1 G2 E; destruct (Req_dec e x1) as [->|N]; [rewrite seg_left by exact X; lra|].
assert (S := seg_mono x1 y1 x2 y2 x1 e X G1 G2 ltac:(lra) ltac:(lra) ltac:(lra)); rewrite seg_left in S by exact X; lra.
Qed.

Lemma corr_ge t : forall x1 y1 e c, rising x1 y1 t -> x1 <= e -> correction e x1 y1 t = Ok c -> x1 * y1 <= e * c.
Proof.
induction t as [|[x2 y2] t IH]; intros x1 y1 e c G E C; [discriminate|].
destruct G as [X [G1 [G2 G]]]; cbn [correction] in C.
destruct (Rlt_dec e x2) as [L|L].
- injection C as <-; apply seg_ge; try assumption; lra.
- assert (I := IH x2 y2 e c G ltac:(lra) C).
  assert (S := seg_ge x1 y1 x2 y2 x2 X G1 G2 ltac:(lra)); rewrite seg_right in S by exact X; lra.
Qed.

Lemma corr_mono t : forall x1 y1 e e' c c', rising x1 y1 t -> x1 <= e -> e < e' ->
  correction e x1 y1 t = Ok c -> correction e' x1 y1 t = Ok c' -> e * c < e' * c'.
Proof.
induction t as [|[x2 y2] t IH]; intros x1 y1 e e' c c' G E EE C C'; [discriminate|].
destruct G as [X [G1 [G2 G]]]; cbn [correction] in C, C'.
destruct (Rlt_dec e' x2) as [L'|L'].
- destruct (Rlt_dec e x2) as [L|L]; [|lra].
  injection C as <-; injection C' as <-; apply seg_mono; try assumption; lra.
- destruct (Rlt_dec e x2) as [L|L].
  + injection C as <-.
    assert (I := corr_ge t x2 y2 e' c' G ltac:(lra) C').
    assert (S := seg_mono x1 y1 x2 y2 e x2 X G1 G2 E L ltac:(lra)); rewrite seg_right in S by exact X.
    unfold seg in S; lra.
  + apply (IH x2 y2); try assumption; lra.
Qed.

Lemma corr_lt t M : forall x1 y1 e c, rising x1 y1 t -> x1 <= e -> (forall x y, In (x, y) t -> x * y <= M) ->
  correction e x1 y1 t = Ok c -> e * c < M.
Proof.
induction t as [|[x2 y2] t IH]; intros x1 y1 e c G E B C; [discriminate|].
destruct G as [X [G1 [G2 G]]]; cbn [correction] in C; destruct (Rlt_dec e x2) as [L|L].
- injection C as <-; assert (S := seg_mono x1 y1 x2 y2 e x2 X G1 G2 E L ltac:(lra)); rewrite seg_right in S by exact X.
  assert (H := B x2 y2 (or_introl eq_refl)); unfold seg in S; lra.
- apply (IH x2 y2); try assumption; [lra|intros x y I; apply B; right; exact I].
Qed.

Lemma corr_total t : forall x1 y1 e, (exists x y, In (x, y) t /\ e < x) -> exists c, correction e x1 y1 t = Ok c.
Proof.
induction t as [|[x2 y2] t IH]; intros x1 y1 e [x [y [I L]]]; [contradiction|].
cbn [correction]; destruct (Rlt_dec e x2) as [L2|L2]; [eauto|].
apply IH; destruct I as [I|I]; [injection I as <- <-; contradiction|eauto].
Qed.

Lemma corr_end t : forall x1 y1 e, (forall x y, In (x, y) t -> x <= e) -> correction e x1 y1 t = Err ValueError.
Proof.
induction t as [|[x2 y2] t IH]; intros x1 y1 e H; [reflexivity|].
cbn [correction]; destruct (Rlt_dec e x2) as [L|L]; [assert (X := H x2 y2 (or_introl eq_refl)); lra|].
apply IH; intros x y I; apply (H x y); right; exact I.
Qed.

Lemma table_rising : rising (3 / 100) (122 / 100) correction_table.
Proof. unfold correction_table; cbn [rising]; repeat split; lra. Qed.

Lemma table_in x y : In (x, y) correction_table -> x <= 89 / 100 /\ x * y <= 8366 / 10000.
Proof. unfold correction_table; cbn [In]; intro H; repeat (destruct H as [H|H]; [injection H as <- <-; lra|]); contradiction. Qed.

Lemma eps_total s : real_surface s -> exists e, eps s = Ok e.
Proof.
destruct s as [|e]; cbn [real_surface eps]; [eauto|]; intro H.
destruct (Rlt_dec e (3 / 100)); [lra|].
destruct (corr_total correction_table (3 / 100) (122 / 100) e) as [c ->]; [|cbn [bind]; eauto].
exists (89 / 100), (94 / 100); split; [unfold correction_table; cbn [In]; tauto|lra].
Qed.

Lemma eps_only s e : eps s = Ok e -> real_surface s.
Proof.
destruct s as [|x]; cbn [real_surface eps]; [auto|].
destruct (Rlt_dec x (3 / 100)); [discriminate|]; intro H.
destruct (Rlt_dec x (89 / 100)); [lra|].
rewrite corr_end in H; [discriminate|]; intros a b I; destruct (table_in a b I); lra.
Qed.

Lemma eps_range s e : eps s = Ok e -> 0 < e < 1.
Proof.
destruct s as [|x]; cbn [eps]; [intros [= <-]; lra|].
destruct (Rlt_dec x (3 / 100)); [discriminate|]; intro H.
destruct (correction x (3 / 100) (122 / 100) correction_table) as [c|] eqn:C; [|discriminate].
cbn [bind] in H; injection H as <-.
assert (L := corr_ge _ _ _ _ _ table_rising (Rnot_lt_le _ _ ltac:(eassumption)) C).
assert (U := corr_lt _ (8366 / 10000) _ _ _ _ table_rising (Rnot_lt_le _ _ ltac:(eassumption)) (fun a b I => proj2 (table_in a b I)) C); lra.
Qed.

Lemma eps_mono a b e e' : a < b -> eps (LowE a) = Ok e -> eps (LowE b) = Ok e' -> e < e'.
Proof.
intros L H H'; cbn [eps] in H, H'.
destruct (Rlt_dec a (3 / 100)); [discriminate|]; destruct (Rlt_dec b (3 / 100)); [discriminate|].
destruct (correction a (3 / 100) (122 / 100) correction_table) as [c|] eqn:C; [|discriminate].
destruct (correction b (3 / 100) (122 / 100) correction_table) as [c'|] eqn:C'; [|discriminate].
cbn [bind] in H, H'; injection H as <-; injection H' as <-.
apply (corr_mono _ _ _ _ _ _ _ table_rising (Rnot_lt_le _ _ n) L C C').
Qed.

Lemma eps_coating a e : eps (LowE a) = Ok e -> e < 837 / 1000.
Proof.
cbn [eps]; destruct (Rlt_dec a (3 / 100)); [discriminate|]; intro H.
destruct (correction a (3 / 100) (122 / 100) correction_table) as [c|] eqn:C; [|discriminate].
cbn [bind] in H; injection H as <-.
assert (U := corr_lt _ (8366 / 10000) _ _ _ _ table_rising (Rnot_lt_le _ _ ltac:(eassumption)) (fun x y I => proj2 (table_in x y I)) C); lra.
Qed.

(* ---- gases ---- *)
Lemma interpolate_eq temp v1 v2 v3 v4 : interpolate temp v1 v2 v3 v4 =
  if Rlt_dec temp 0 then v2 + (v2 - v1) * (temp / 10)
  else if Rlt_dec temp 10 then v2 + (v3 - v2) * (temp / 10)
  else v3 + (v4 - v3) * ((temp - 10) / 10).
Proof. unfold interpolate; destruct (Rlt_dec temp 0); [field|destruct (Rlt_dec temp 10); field]. Qed.

Lemma interpolate_nodes v1 v2 v3 v4 : interpolate (-10) v1 v2 v3 v4 = v1 /\ interpolate 0 v1 v2 v3 v4 = v2 /\
  interpolate 10 v1 v2 v3 v4 = v3 /\ interpolate 20 v1 v2 v3 v4 = v4.
Proof.
rewrite !interpolate_eq.
destruct (Rlt_dec (-10) 0); [|lra]; destruct (Rlt_dec 0 0); [lra|]; destruct (Rlt_dec 0 10); [|lra].
destruct (Rlt_dec 10 0); [lra|]; destruct (Rlt_dec 10 10); [lra|]; destruct (Rlt_dec 20 0); [lra|]; destruct (Rlt_dec 20 10); [lra|].
repeat split; field.
Qed.

Lemma interpolate_up t t' v1 v2 v3 v4 : v1 < v2 -> v2 < v3 -> v3 < v4 -> t < t' ->
  interpolate t v1 v2 v3 v4 < interpolate t' v1 v2 v3 v4.
Proof.
intros A B C T; rewrite !interpolate_eq.
set (a := v2 - v1); set (b := v3 - v2); set (c := v4 - v3).
assert (a > 0) by (unfold a; lra); assert (b > 0) by (unfold b; lra); assert (c > 0) by (unfold c; lra).
assert (M : forall k x y, 0 < k -> x < y -> k * x < k * y) by (intros; apply Rmult_lt_compat_l; assumption).
assert (Z : forall k x, 0 < k -> 0 <= x -> 0 <= k * x) by (intros; apply Rmult_le_pos; lra).
destruct (Rlt_dec t 0), (Rlt_dec t' 0); try lra.
- assert (X := M a (t / 10) (t' / 10) ltac:(lra) ltac:(lra)); lra.
- assert (X := M a (t / 10) 0 ltac:(lra) ltac:(lra)).
  destruct (Rlt_dec t' 10); [assert (Y := Z b (t' / 10) ltac:(lra) ltac:(lra)); lra|].
  assert (Y := Z c ((t' - 10) / 10) ltac:(lra) ltac:(lra)); unfold b in *; lra.
- destruct (Rlt_dec t 10), (Rlt_dec t' 10); try lra.
  + assert (X := M b (t / 10) (t' / 10) ltac:(lra) ltac:(lra)); lra.
  + assert (X := M b (t / 10) 1 ltac:(lra) ltac:(lra)); assert (Y := Z c ((t' - 10) / 10) ltac:(lra) ltac:(lra)); unfold b in *; lra.
  + assert (X := M c ((t - 10) / 10) ((t' - 10) / 10) ltac:(lra) ltac:(lra)); lra.
Qed.

Lemma interpolate_opp t v1 v2 v3 v4 : interpolate t (- v1) (- v2) (- v3) (- v4) = - interpolate t v1 v2 v3 v4.
Proof. rewrite !interpolate_eq; destruct (Rlt_dec t 0); [|destruct (Rlt_dec t 10)]; field. Qed.

Lemma interpolate_down t t' v1 v2 v3 v4 : v1 > v2 -> v2 > v3 -> v3 > v4 -> t < t' ->
  interpolate t' v1 v2 v3 v4 < interpolate t v1 v2 v3 v4.
Proof.
intros A B C T; assert (X := interpolate_up t t' (- v1) (- v2) (- v3) (- v4) ltac:(lra) ltac:(lra) ltac:(lra) T).
rewrite !interpolate_opp in X; lra.
Qed.

Lemma gas_trend t t' g : t < t' -> gas_rho t' g < gas_rho t g /\ gas_mu t g < gas_mu t' g /\ gas_lambda t g < gas_lambda t' g.
Proof.
intro T; split; [|split].
- destruct g; cbn [gas_rho]; apply interpolate_down; lra.
- destruct g; cbn [gas_mu]; (apply Rmult_lt_compat_r; [apply Rinv_0_lt_compat, pow_lt; lra|apply interpolate_up; lra]).
- destruct g; cbn [gas_lambda]; (apply Rmult_lt_compat_r; [apply Rinv_0_lt_compat, pow_lt; lra|apply interpolate_up; lra]).
Qed.

Definition mild (t : R) : Prop := -40 <= t <= 60.

Lemma interpolate_pos t v1 v2 v3 v4 : mild t -> 0 < v2 -> 0 < v3 -> 0 < 4 * v1 - 3 * v2 -> 0 < 5 * v4 - 4 * v3 -> v1 > 0 ->
  0 < interpolate t v1 v2 v3 v4.
Proof.
unfold mild; intros M A B C D E; rewrite interpolate_eq.
destruct (Rlt_dec t 0); [|destruct (Rlt_dec t 10)].
- destruct (Rle_dec 0 (v2 - v1)) as [S|S].
  + assert ((v2 - v1) * (-4) <= (v2 - v1) * (t / 10)) by (apply Rmult_le_compat_l; lra); lra.
  + assert (0 <= (v1 - v2) * (- (t / 10))) by (apply Rmult_le_pos; lra); lra.
- assert (0 < v2 * (1 - t / 10)) by (apply Rmult_lt_0_compat; lra).
  assert (0 <= v3 * (t / 10)) by (apply Rmult_le_pos; lra); lra.
- destruct (Rle_dec 0 (v4 - v3)) as [S|S].
  + assert (0 <= (v4 - v3) * ((t - 10) / 10)) by (apply Rmult_le_pos; lra); lra.
  + assert ((v3 - v4) * ((t - 10) / 10) <= (v3 - v4) * 5) by (apply Rmult_le_compat_l; lra); lra.
Qed.

Lemma gas_pos t g : mild t -> 0 < gas_rho t g /\ 0 < gas_mu t g /\ 0 < gas_lambda t g /\ 0 < gas_c g.
Proof.
intro M; repeat split.
- destruct g; cbn [gas_rho]; apply interpolate_pos; try exact M; lra.
- destruct g; cbn [gas_mu]; (apply Rmult_lt_0_compat; [apply interpolate_pos; try exact M; lra|apply Rinv_0_lt_compat, pow_lt; lra]).
- destruct g; cbn [gas_lambda]; (apply Rmult_lt_0_compat; [apply interpolate_pos; try exact M; lra|apply Rinv_0_lt_compat, pow_lt; lra]).
- destruct g; cbn [gas_c]; (apply Rmult_lt_0_compat; [lra|apply pow_lt; lra]).
Qed.

Definition real_mix (m : mix) : Prop :=
  0 <= c_air m /\ 0 <= c_argon m /\ 0 <= c_sf6 m /\ 0 <= c_krypton m /\ c_air m + c_argon m + c_sf6 m + c_krypton m = 100.

Lemma mixed_between m f lo hi : real_mix m -> (forall g, lo <= f g <= hi) -> lo <= mixed m f <= hi.
Proof.
intros [A [B [C [D S]]]] H; unfold mixed.
assert (X : forall g c, 0 <= c -> lo * c <= f g * c <= hi * c).
{ intros g c P; destruct (H g); split; apply Rmult_le_compat_r; assumption. }
destruct (X AIR _ A), (X ARGON _ B), (X SF6 _ C), (X KRYPTON _ D).
assert (SL : lo * c_air m + lo * c_argon m + lo * c_sf6 m + lo * c_krypton m = lo * 100) by (rewrite <- S; ring).
assert (SH : hi * c_air m + hi * c_argon m + hi * c_sf6 m + hi * c_krypton m = hi * 100) by (rewrite <- S; ring).
split; lra.
Qed.

Lemma mixed_pos m f : real_mix m -> (forall g, 0 < f g) -> 0 < mixed m f.
Proof.
intros M H.
set (lo := Rmin (Rmin (f AIR) (f ARGON)) (Rmin (f SF6) (f KRYPTON))).
set (hi := Rmax (Rmax (f AIR) (f ARGON)) (Rmax (f SF6) (f KRYPTON))).
assert (L : 0 < lo) by (unfold lo; repeat apply Rmin_pos; apply H).
destruct (mixed_between m f lo hi M) as [X _]; [|lra].
assert (A1 := Rmin_l (Rmin (f AIR) (f ARGON)) (Rmin (f SF6) (f KRYPTON))).
assert (A2 := Rmin_r (Rmin (f AIR) (f ARGON)) (Rmin (f SF6) (f KRYPTON))).
assert (A3 := Rmin_l (f AIR) (f ARGON)); assert (A4 := Rmin_r (f AIR) (f ARGON)).
assert (A5 := Rmin_l (f SF6) (f KRYPTON)); assert (A6 := Rmin_r (f SF6) (f KRYPTON)).
assert (B1 := Rmax_l (Rmax (f AIR) (f ARGON)) (Rmax (f SF6) (f KRYPTON))).
assert (B2 := Rmax_r (Rmax (f AIR) (f ARGON)) (Rmax (f SF6) (f KRYPTON))).
assert (B3 := Rmax_l (f AIR) (f ARGON)); assert (B4 := Rmax_r (f AIR) (f ARGON)).
assert (B5 := Rmax_l (f SF6) (f KRYPTON)); assert (B6 := Rmax_r (f SF6) (f KRYPTON)).
unfold lo, hi; intros [| | |]; lra.
Qed.

(* ---- gaps ---- *)
Lemma sigma_pos : 0 < sigma.
Proof. unfold sigma; apply Rmult_lt_0_compat; [lra|apply Rinv_0_lt_compat, pow_lt; lra]. Qed.

Lemma gap_mix l : real_gap l -> real_mix (al_air l).
Proof. unfold real_gap, real_mix; tauto. Qed.

Lemma inv_gt1 e : 0 < e < 1 -> 1 < 1 / e.
Proof.
intro E; apply (Rmult_lt_reg_r e); [lra|]; unfold Rdiv; rewrite Rmult_assoc, Rinv_l; lra.
Qed.

Lemma inv_le a b : 0 < a -> a <= b -> 1 / b <= 1 / a.
Proof. intros A B; unfold Rdiv; rewrite !Rmult_1_l; apply Rinv_le_contravar; assumption. Qed.

Lemma h_r_ok t ef eb : 0 < t -> 0 < ef < 1 -> 0 < eb < 1 ->
  get_h_r t ef eb = Ok (4 * sigma / (1 / ef + 1 / eb - 1) * t ^ 3) /\ 0 < 4 * sigma / (1 / ef + 1 / eb - 1) * t ^ 3.
Proof.
intros T F B; assert (F1 := inv_gt1 ef F); assert (B1 := inv_gt1 eb B); split.
- unfold get_h_r; rewrite !fdiv_ok by lra; cbn [bind]; rewrite fdiv_ok by lra; reflexivity.
- assert (S := sigma_pos); apply Rmult_lt_0_compat; [apply Rmult_lt_0_compat; [lra|apply Rinv_0_lt_compat; lra]|apply pow_lt, T].
Qed.

Lemma h_r_mono t ef eb ef' eb' : 0 < t -> 0 < ef' -> ef' <= ef -> ef < 1 -> 0 < eb' -> eb' <= eb -> eb < 1 ->
  4 * sigma / (1 / ef' + 1 / eb' - 1) * t ^ 3 <= 4 * sigma / (1 / ef + 1 / eb - 1) * t ^ 3.
Proof.
intros T F0 F F1 B0 B B1.
assert (I := inv_le ef' ef F0 F); assert (J := inv_le eb' eb B0 B).
assert (G := inv_gt1 ef ltac:(lra)); assert (H := inv_gt1 eb ltac:(lra)); assert (S := sigma_pos).
apply Rmult_le_compat_r; [left; apply pow_lt, T|]; apply Rmult_le_compat_l; [lra|].
apply Rinv_le_contravar; lra.
Qed.

Lemma h_g_ok l delta t : real_gap l -> mild (t - absolute_zero) ->
  exists h, get_h_g l delta t = Ok h /\ mixed (al_air l) (gas_lambda (t - absolute_zero)) / al_s l <= h /\ 0 < h.
Proof.
intros G M; assert (MX := gap_mix l G); assert (S : 0 < al_s l) by (destruct G; tauto).
assert (T : 0 < t) by (unfold mild, absolute_zero in M; lra).
unfold get_h_g; set (th := t - absolute_zero) in *.
set (rho := mixed (al_air l) (gas_rho th)); set (mu := mixed (al_air l) (gas_mu th)).
set (c := mixed (al_air l) gas_c); set (la := mixed (al_air l) (gas_lambda th)).
assert (P : 0 < rho /\ 0 < mu /\ 0 < c /\ 0 < la).
{ repeat split; apply mixed_pos; try exact MX; intro g; apply (gas_pos th g M). }
destruct P as [P1 [P2 [P3 P4]]].
assert (MU2 : 0 < mu ^ 2) by (apply pow_lt, P2).
unfold get_gr, get_pr; rewrite fdiv_ok by lra; cbn [bind]; rewrite fdiv_ok by lra; cbn [bind].
rewrite (fdiv_ok (mu * c)) by lra; cbn [bind].
set (gr := 981 / 100 * al_s l ^ 3 * Rabs delta * rho ^ 2 / t / mu ^ 2).
assert (GR : 0 <= gr).
{ unfold gr; apply div_ge0; [exact MU2|]; apply div_ge0; [exact T|].
  apply Rmult_le_pos; [apply Rmult_le_pos; [apply Rmult_le_pos; [lra|left; apply pow_lt, S]|apply Rabs_pos]|left; apply pow_lt, P1]. }
assert (PR : 0 < mu * c / la) by (apply Rmult_lt_0_compat; [apply Rmult_lt_0_compat; assumption|apply Rinv_0_lt_compat, P4]).
assert (GP : 0 <= gr * (mu * c / la)) by (apply Rmult_le_pos; lra).
unfold get_nu, fpow; destruct (Rlt_dec (gr * (mu * c / la)) 0); [lra|].
assert (F : forall nu, exists h, fdiv (get_cc nu * la) (al_s l) = Ok h /\ la / al_s l <= h /\ 0 < h).
{ intro nu; rewrite fdiv_ok by lra; eexists; split; [reflexivity|].
  assert (C := Rmax_l 1 nu); fold (get_cc nu) in C.
  assert (X : la / al_s l <= get_cc nu * la / al_s l).
  { unfold Rdiv; apply Rmult_le_compat_r; [left; apply Rinv_0_lt_compat, S|].
    assert (1 * la <= get_cc nu * la) by (apply Rmult_le_compat_r; lra); lra. }
  assert (0 < la / al_s l) by (apply Rmult_lt_0_compat; [exact P4|apply Rinv_0_lt_compat, S]); lra. }
destruct (Req_EM_T (gr * (mu * c / la)) 0); cbn [bind]; apply F.
Qed.

Lemma h_s_ok l t_m delta t ef eb : real_gap l -> 0 < t_m -> mild (t - absolute_zero) -> 0 < ef < 1 -> 0 < eb < 1 ->
  exists h, get_h_s l t_m delta t ef eb = Ok h /\ 0 < h.
Proof.
intros G TM M F B; destruct (h_r_ok t_m ef eb TM F B) as [E P]; destruct (h_g_ok l delta t G M) as [h [H [_ PH]]].
unfold get_h_s; rewrite E, H; cbn [bind]; eexists; split; [reflexivity|lra].
Qed.

Lemma h_s_mono l t_m delta t ef eb ef' eb' h h' : 0 < t_m -> 0 < ef' -> ef' <= ef -> ef < 1 -> 0 < eb' -> eb' <= eb -> eb < 1 ->
  get_h_s l t_m delta t ef eb = Ok h -> get_h_s l t_m delta t ef' eb' = Ok h' -> h' <= h.
Proof.
intros T F0 F F1 B0 B B1; unfold get_h_s.
destruct (h_r_ok t_m ef eb T ltac:(lra) ltac:(lra)) as [-> _], (h_r_ok t_m ef' eb' T ltac:(lra) ltac:(lra)) as [-> _].
cbn [bind]; destruct (get_h_g l delta t) as [hg|]; [|discriminate]; cbn [bind]; intros [= <-] [= <-].
assert (X := h_r_mono t_m ef eb ef' eb' T F0 F F1 B0 B B1); lra.
Qed.

Lemma mild_fixed : mild (283 - absolute_zero).
Proof. unfold mild, absolute_zero; lra. Qed.

(* ---- resistances ---- *)
Lemma layer_ok l : real_layer l -> exists r, layer_res l = Ok r /\ 0 < r.
Proof.
intros [N [H _]]; unfold layer_res, sumM.
assert (G : forall us, (forall u, In u us -> 0 < gu_d u /\ 0 < gu_lmd u) ->
  exists rs, mapM (fun u => fdiv (gu_d u) (gu_lmd u)) us = Ok rs /\ positive rs /\ length rs = length us).
{ induction us as [|u us IH]; intro P; cbn [mapM]; [exists []; split; [reflexivity|split; [intros x []|reflexivity]]|].
  destruct (P u (or_introl eq_refl)) as [D L]; rewrite fdiv_ok by lra; cbn [bind].
  destruct IH as [rs [-> [R LN]]]; [intros v V; apply P; right; exact V|]; cbn [bind].
  eexists; split; [reflexivity|split; [|simpl; congruence]].
  intros x [<-|X]; [apply Rmult_lt_0_compat; [exact D|apply Rinv_0_lt_compat, L]|apply R, X]. }
destruct (G (gl_units l) H) as [rs [-> [R L]]]; cbn [bind]; eexists; split; [reflexivity|].
apply positive_sum; [exact R|intros ->; simpl in L; destruct (gl_units l); [contradiction|discriminate]].
Qed.

Lemma r_more_ok more : forall front, real_layer front -> (forall al gl, In (al, gl) more -> real_gap al /\ real_layer gl) ->
  exists rs, r_more front more = Ok rs /\ positive rs /\ length rs = (2 * length more)%nat.
Proof.
induction more as [|[al gl] more IH]; intros front F H; cbn [r_more].
- exists []; split; [reflexivity|split; [intros x []|reflexivity]].
- destruct (H al gl (or_introl eq_refl)) as [G L].
  destruct F as [_ [_ [_ FB]]]; destruct (eps_total _ FB) as [ef E]; rewrite E; cbn [bind].
  assert (LF : real_surface (gl_sff gl)) by (destruct L as [_ [_ [X _]]]; exact X).
  destruct (eps_total _ LF) as [eb E']; rewrite E'; cbn [bind].
  destruct (h_s_ok al 283 15 283 ef eb G ltac:(lra) mild_fixed (eps_range _ _ E) (eps_range _ _ E')) as [h [-> P]]; cbn [bind].
  rewrite fdiv_ok by lra; cbn [bind].
  destruct (layer_ok gl L) as [rp [-> PR]]; cbn [bind].
  destruct (IH gl L) as [rs [-> [R LN]]]; [intros a g I; apply H; right; exact I|]; cbn [bind].
  eexists; split; [reflexivity|split; [|simpl; rewrite LN; lia]].
  intros x [<-|[<-|X]]; [apply Rmult_lt_0_compat; [lra|apply Rinv_0_lt_compat, P]|exact PR|apply R, X].
Qed.

Definition mild_all (theta : list R) : Prop := forall x, In x theta -> mild x.
Lemma mild_nth theta k : mild_all theta -> mild (nth k theta 0).
Proof.
intro H; destruct (Nat.lt_ge_cases k (length theta)) as [L|L]; [apply H, nth_In, L|].
rewrite nth_overflow by exact L; unfold mild; lra.
Qed.

Lemma r_calc_ok more theta : mild_all theta -> forall front i, real_layer front ->
  (forall al gl, In (al, gl) more -> real_gap al /\ real_layer gl) ->
  exists rs, r_more_calc front more theta i = Ok rs /\ positive rs /\ length rs = (2 * length more)%nat.
Proof.
intro MT; induction more as [|[al gl] more IH]; intros front i F H; cbn [r_more_calc].
- exists []; split; [reflexivity|split; [intros x []|reflexivity]].
- destruct (H al gl (or_introl eq_refl)) as [G L].
  destruct F as [_ [_ [_ FB]]]; destruct (eps_total _ FB) as [ef E]; rewrite E; cbn [bind].
  assert (LF : real_surface (gl_sff gl)) by (destruct L as [_ [_ [X _]]]; exact X).
  destruct (eps_total _ LF) as [eb E']; rewrite E'; cbn [bind].
  assert (M1 := mild_nth theta (2 * i + 1) MT); assert (M2 := mild_nth theta (2 * (i + 1)) MT).
  unfold get_h_s_with_surfaces_temp.
  destruct (h_s_ok al ((nth (2 * i + 1) theta 0 + nth (2 * (i + 1)) theta 0) / 2 + absolute_zero)
    (Rabs (nth (2 * i + 1) theta 0 - nth (2 * (i + 1)) theta 0))
    ((nth (2 * i + 1) theta 0 + nth (2 * (i + 1)) theta 0) / 2 + absolute_zero) ef eb G) as [h [-> P]].
  { unfold mild, absolute_zero in *; lra. }
  { unfold mild, absolute_zero in *; lra. }
  { exact (eps_range _ _ E). }
  { exact (eps_range _ _ E'). }
  cbn [bind]; rewrite fdiv_ok by lra; cbn [bind].
  destruct (layer_ok gl L) as [rp [-> PR]]; cbn [bind].
  destruct (IH gl (i + 1)%nat L) as [rs [-> [R LN]]]; [intros a g I; apply H; right; exact I|]; cbn [bind].
  eexists; split; [reflexivity|split; [|simpl; rewrite LN; lia]].
  intros x [<-|[<-|X]]; [apply Rmult_lt_0_compat; [lra|apply Rinv_0_lt_compat, P]|exact PR|apply R, X].
Qed.

Lemma last_real g : real_glass g -> real_layer (g_last g).
Proof.
intros [F M]; unfold g_last; revert F; generalize (g_first g); revert M.
induction (g_more g) as [|[al gl] more IH]; intros M f F; [exact F|].
assert (L : real_layer gl) by (apply (M al gl); left; reflexivity).
destruct more as [|x more]; [exact L|].
change (real_layer (last (map snd (x :: more)) f)).
apply IH; [intros a b I; apply M; right; exact I|exact F].
Qed.

Lemma ends_positive rs r0 r1 rn : positive rs -> 0 < r0 -> 0 < r1 -> 0 < rn -> positive (r0 :: r1 :: rs ++ [rn]).
Proof. intros P A B C x [<-|[<-|X]]; try assumption; apply in_app_or in X; destruct X as [X|[<-|[]]]; [apply P, X|exact C]. Qed.

Lemma inv_pos h : 0 < h -> 0 < 1 / h.
Proof. intro H; apply Rmult_lt_0_compat; [lra|apply Rinv_0_lt_compat, H]. Qed.

Lemma r_fixed_ok g : real_glass g -> exists reg, get_r_fixed g = Ok reg /\ positive reg /\
  length reg = (2 * S (length (g_more g)) + 1)%nat.
Proof.
intro G; assert (LR := last_real g G); destruct G as [F M].
unfold get_r_fixed, get_h_e, get_h_i.
assert (FF : real_surface (gl_sff (g_first g))) by (destruct F as [_ [_ [X _]]]; exact X).
destruct (eps_total _ FF) as [e E]; rewrite E; cbn [bind]; assert (ER := eps_range _ _ E).
rewrite fdiv_ok by lra; cbn [bind].
destruct (layer_ok _ F) as [r1 [-> P1]]; cbn [bind].
destruct (r_more_ok (g_more g) (g_first g) F M) as [rs [-> [PS LS]]]; cbn [bind].
assert (LB : real_surface (gl_sfb (g_last g))) by (destruct LR as [_ [_ [_ X]]]; exact X).
destruct (eps_total _ LB) as [e' E']; rewrite E'; cbn [bind]; assert (ER' := eps_range _ _ E').
rewrite fdiv_ok by lra; cbn [bind].
eexists; split; [reflexivity|split].
- apply ends_positive; try assumption; apply inv_pos; lra.
- simpl; rewrite app_length, LS; simpl; lia.
Qed.

Lemma radiative_pos e a b : 0 < e -> 0 < a -> 0 < b -> 0 < radiative e a b.
Proof.
intros E X Y; unfold radiative; apply Rmult_lt_0_compat; [apply Rmult_lt_0_compat; [exact E|exact sigma_pos]|].
assert (0 < a ^ 3) by (apply pow_lt, X); assert (0 < b ^ 3) by (apply pow_lt, Y).
assert (0 < a ^ 2 * b) by (apply Rmult_lt_0_compat; [apply pow_lt, X|exact Y]).
assert (0 < a * b ^ 2) by (apply Rmult_lt_0_compat; [exact X|apply pow_lt, Y]); lra.
Qed.

Lemma r_calc_all g m te ti theta : real_glass g -> mild te -> mild ti -> mild_all theta ->
  exists reg, get_r_calc g m te ti theta = Ok reg /\ positive reg /\ length reg = (2 * S (length (g_more g)) + 1)%nat.
Proof.
intros G MTE MTI MT; assert (LR := last_real g G); destruct G as [F M].
assert (FF : real_surface (gl_sff (g_first g))) by (destruct F as [_ [_ [X _]]]; exact X).
assert (LB : real_surface (gl_sfb (g_last g))) by (destruct LR as [_ [_ [_ X]]]; exact X).
assert (HE : exists h, get_h_e g m (nth 0 theta 0) te = Ok h /\ 0 < h).
{ unfold get_h_e; destruct (eps_total _ FF) as [e E]; rewrite E; cbn [bind]; assert (ER := eps_range _ _ E).
  destruct m as [|s]; eexists; (split; [reflexivity|]); [lra|].
  assert (M0 := mild_nth theta 0 MT).
  assert (0 < radiative e (nth 0 theta 0 + absolute_zero) (te + absolute_zero)) by (apply radiative_pos; unfold mild, absolute_zero in *; lra).
  destruct s; lra. }
assert (HI : exists h, get_h_i g m (nth (length theta - 1) theta 0) ti = Ok h /\ 0 < h).
{ unfold get_h_i; destruct m as [|s].
  - destruct (eps_total _ LB) as [e E]; rewrite E; cbn [bind]; assert (ER := eps_range _ _ E); eexists; split; [reflexivity|lra].
  - destruct (eps_total _ FF) as [e E]; rewrite E; cbn [bind]; assert (ER := eps_range _ _ E); eexists; split; [reflexivity|].
    assert (M0 := mild_nth theta (length theta - 1) MT).
    assert (0 < radiative e (nth (length theta - 1) theta 0 + absolute_zero) (ti + absolute_zero)) by (apply radiative_pos; unfold mild, absolute_zero in *; lra).
    destruct s; lra. }
unfold get_r_calc; destruct HE as [he [-> PE]], HI as [hi [HI PI]]; cbn [bind].
rewrite fdiv_ok by lra; cbn [bind].
destruct (layer_ok _ F) as [r1 [-> P1]]; cbn [bind].
destruct (r_calc_ok (g_more g) theta MT (g_first g) 0%nat F M) as [rs [-> [PS LS]]]; cbn [bind].
rewrite HI; cbn [bind]; rewrite fdiv_ok by lra; cbn [bind].
eexists; split; [reflexivity|split].
- apply ends_positive; try assumption; apply inv_pos; lra.
- simpl; rewrite app_length, LS; simpl; lia.
Qed.

(* ---- U values ---- *)
Lemma u_ok g : real_glass g -> exists reg, get_r_fixed g = Ok reg /\ positive reg /\ 0 < py_sum reg /\
  get_heat_transmittance g = Ok (1 / py_sum reg).
Proof.
intro G; destruct (r_fixed_ok g G) as [reg [E [P L]]]; exists reg.
assert (S : 0 < py_sum reg) by (apply positive_sum; [exact P|intros ->; simpl in L; lia]).
split; [exact E|split; [exact P|split; [exact S|]]].
unfold get_heat_transmittance; rewrite E; cbn [bind]; apply fdiv_ok; lra.
Qed.

Lemma layer_value l x : layer_res l = Ok x -> x = pane_resistance l.
Proof.
unfold layer_res, sumM, pane_resistance; generalize (gl_units l); intros us H.
destruct (bind_ok _ _ _ _ _ H) as [rs [M E]]; injection E as <-; change (py_sum rs) with (total rs); f_equal; clear H.
revert rs M; induction us as [|u us IH]; intros rs M; cbn [mapM] in M; [injection M as <-; reflexivity|].
destruct (bind_ok _ _ _ _ _ M) as [y [Y M1]]; destruct (bind_ok _ _ _ _ _ M1) as [ys [Z M2]]; injection M2 as <-.
cbn [map]; rewrite (IH _ Z); f_equal; unfold fdiv in Y; destruct (Req_EM_T (gu_lmd u) 0); [discriminate|].
injection Y as <-; reflexivity.
Qed.

Lemma coated_res a b x y : coated a b -> layer_res a = Ok x -> layer_res b = Ok y -> x <= y.
Proof. intros [E _] A B; rewrite (layer_value _ _ A), (layer_value _ _ B); exact E. Qed.

Lemma py_sum_cons x l : py_sum (x :: l) = x + py_sum l.
Proof. reflexivity. Qed.

Lemma r_more_mono more : forall more' front front' rs rs', coated front front' ->
  Forall2 (fun x y => fst x = fst y /\ coated (snd x) (snd y)) more more' ->
  (forall al gl, In (al, gl) more -> real_gap al) ->
  r_more front more = Ok rs -> r_more front' more' = Ok rs' -> py_sum rs <= py_sum rs'.
Proof.
induction more as [|[al gl] more IH]; intros more' front front' rs rs' C F2 G R R'.
- inversion F2; subst; cbn [r_more] in R, R'; injection R as <-; injection R' as <-; lra.
- inversion F2 as [|x [al' gl'] xs ys [EA CG] F2']; subst; cbn [fst snd] in EA, CG; subst al'.
  cbn [r_more] in R, R'.
  destruct (bind_ok _ _ _ _ _ R) as [ef [E1 R1]]; destruct (bind_ok _ _ _ _ _ R1) as [eb [E2 R2]].
  destruct (bind_ok _ _ _ _ _ R2) as [h [E3 R3]]; destruct (bind_ok _ _ _ _ _ R3) as [rg [E4 R4]].
  destruct (bind_ok _ _ _ _ _ R4) as [rp [E5 R5]]; destruct (bind_ok _ _ _ _ _ R5) as [r2 [E6 R6]].
  destruct (bind_ok _ _ _ _ _ R') as [ef' [E1' R1']]; destruct (bind_ok _ _ _ _ _ R1') as [eb' [E2' R2']].
  destruct (bind_ok _ _ _ _ _ R2') as [h' [E3' R3']]; destruct (bind_ok _ _ _ _ _ R3') as [rg' [E4' R4']].
  destruct (bind_ok _ _ _ _ _ R4') as [rp' [E5' R5']]; destruct (bind_ok _ _ _ _ _ R5') as [r2' [E6' R6']].
  injection R6 as <-; injection R6' as <-.
  assert (RP := coated_res _ _ _ _ CG E5 E5').
  assert (RA := G al gl (or_introl eq_refl)).
  assert (I := eps_range _ _ E1); assert (J := eps_range _ _ E2); assert (I' := eps_range _ _ E1'); assert (J' := eps_range _ _ E2').
  destruct C as [_ [_ C]]; destruct CG as [CU [CF CB]].
  assert (L1 := C _ _ E1 E1'); assert (L2 := CF _ _ E2 E2').
  assert (H := h_s_mono al 283 15 283 ef eb ef' eb' h h' ltac:(lra) ltac:(lra) L1 ltac:(lra) ltac:(lra) L2 ltac:(lra) E3 E3').
  destruct (h_s_ok al 283 15 283 ef' eb' RA ltac:(lra) mild_fixed I' J') as [h2 [H2 P2]]; rewrite E3' in H2; injection H2 as <-.
  rewrite fdiv_ok in E4, E4' by lra; injection E4 as <-; injection E4' as <-.
  assert (V := inv_le h' h P2 H).
  assert (S := IH ys gl gl' r2 r2' (conj CU (conj CF CB)) F2' (fun a g X => G a g (or_intror X)) E6 E6').
  rewrite !py_sum_cons; lra.
Qed.

Lemma coated_last g h : better_coated g h -> coated (g_last g) (g_last h).
Proof.
intros [F M]; unfold g_last; revert F; generalize (g_first g), (g_first h).
induction M as [|x y xs ys [_ C] M IH]; intros f f' F; [exact F|].
inversion M as [|x2 y2 xs2 ys2 C2 M2]; subst; [exact C|].
change (coated (last (map snd (x2 :: xs2)) f) (last (map snd (y2 :: ys2)) f')); apply IH, F.
Qed.

Lemma u_coated g h u u' : real_glass g -> real_glass h -> better_coated g h ->
  get_heat_transmittance g = Ok u -> get_heat_transmittance h = Ok u' -> u' <= u.
Proof.
intros G H B U U'; assert (CL := coated_last g h B).
destruct (u_ok g G) as [reg [E [_ [S E2]]]], (u_ok h H) as [reg' [E' [_ [S' E2']]]].
rewrite U in E2; injection E2 as ->; rewrite U' in E2'; injection E2' as ->.
apply inv_le; [exact S|].
unfold get_r_fixed in E, E'.
destruct (bind_ok _ _ _ _ _ E) as [he [A1 E1]]; destruct (bind_ok _ _ _ _ _ E1) as [r0 [A2 E2]].
destruct (bind_ok _ _ _ _ _ E2) as [r1 [A3 E3]]; destruct (bind_ok _ _ _ _ _ E3) as [rs [A4 E4]].
destruct (bind_ok _ _ _ _ _ E4) as [hi [A5 E5]]; destruct (bind_ok _ _ _ _ _ E5) as [rn [A6 E6]].
destruct (bind_ok _ _ _ _ _ E') as [he' [A1' E1']]; destruct (bind_ok _ _ _ _ _ E1') as [r0' [A2' E2']].
destruct (bind_ok _ _ _ _ _ E2') as [r1' [A3' E3']]; destruct (bind_ok _ _ _ _ _ E3') as [rs' [A4' E4']].
destruct (bind_ok _ _ _ _ _ E4') as [hi' [A5' E5']]; destruct (bind_ok _ _ _ _ _ E5') as [rn' [A6' E6']].
injection E6 as <-; injection E6' as <-.
destruct B as [CF CM].
assert (RP := coated_res _ _ _ _ CF A3 A3').
assert (M := r_more_mono _ _ _ _ _ _ CF CM (fun al gl I => proj1 (proj2 G al gl I)) A4 A4').
unfold get_h_e in A1, A1'; destruct (bind_ok _ _ _ _ _ A1) as [e [Q1 Q2]], (bind_ok _ _ _ _ _ A1') as [e' [Q1' Q2']].
injection Q2 as <-; injection Q2' as <-.
unfold get_h_i in A5, A5'; destruct (bind_ok _ _ _ _ _ A5) as [f [P1 P2]], (bind_ok _ _ _ _ _ A5') as [f' [P1' P2']].
injection P2 as <-; injection P2' as <-.
assert (V1 := eps_range _ _ Q1); assert (V2 := eps_range _ _ Q1'); assert (V3 := eps_range _ _ P1); assert (V4 := eps_range _ _ P1').
rewrite fdiv_ok in A2, A2', A6, A6' by lra; injection A2 as <-; injection A2' as <-; injection A6 as <-; injection A6' as <-.
destruct CF as [_ [CF _]]; assert (L1 := CF _ _ Q1 Q1'); destruct CL as [_ [_ CL]]; assert (L2 := CL _ _ P1 P1').
assert (I1 := inv_le (49 / 10 * e' + 163 / 10) (49 / 10 * e + 163 / 10) ltac:(lra) ltac:(lra)).
assert (I2 := inv_le (54 / 10 * f' + 41 / 10) (54 / 10 * f + 41 / 10) ltac:(lra) ltac:(lra)).
rewrite !py_sum_cons, !py_sum_snoc; lra.
Qed.

(* one more pane *)
Definition add_inside (g : glass) (al : air_layer) (gl : glass_layer) : glass :=
  {| g_first := g_first g; g_more := g_more g ++ [(al, gl)] |}.

Lemma r_more_app more al gl : forall front rs rs', r_more front more = Ok rs -> r_more front (more ++ [(al, gl)]) = Ok rs' ->
  real_gap al -> real_layer gl -> py_sum rs < py_sum rs'.
Proof.
induction more as [|[a g] more IH]; intros front rs rs' R R' GA GL; cbn [r_more app] in R, R'.
- injection R as <-.
  destruct (bind_ok _ _ _ _ _ R') as [ef [E1 R1]]; destruct (bind_ok _ _ _ _ _ R1) as [eb [E2 R2]].
  destruct (bind_ok _ _ _ _ _ R2) as [h [E3 R3]]; destruct (bind_ok _ _ _ _ _ R3) as [rg [E4 R4]].
  destruct (bind_ok _ _ _ _ _ R4) as [rp [E5 R5]].
  cbn [bind] in R5; injection R5 as <-.
  destruct (h_s_ok al 283 15 283 ef eb GA ltac:(lra) mild_fixed (eps_range _ _ E1) (eps_range _ _ E2)) as [h2 [H2 P2]].
  rewrite E3 in H2; injection H2 as <-.
  rewrite fdiv_ok in E4 by lra; injection E4 as <-.
  destruct (layer_ok gl GL) as [r [E6 P6]]; rewrite E5 in E6; injection E6 as <-.
  rewrite !py_sum_cons; assert (V := inv_pos h P2); unfold py_sum; simpl; lra.
- destruct (bind_ok _ _ _ _ _ R) as [ef [E1 R1]]; destruct (bind_ok _ _ _ _ _ R1) as [eb [E2 R2]].
  destruct (bind_ok _ _ _ _ _ R2) as [h [E3 R3]]; destruct (bind_ok _ _ _ _ _ R3) as [rg [E4 R4]].
  destruct (bind_ok _ _ _ _ _ R4) as [rp [E5 R5]]; destruct (bind_ok _ _ _ _ _ R5) as [r2 [E6 R6]].
  rewrite E1 in R'; cbn [bind] in R'; rewrite E2 in R'; cbn [bind] in R'; rewrite E3 in R'; cbn [bind] in R'.
  rewrite E4 in R'; cbn [bind] in R'; rewrite E5 in R'; cbn [bind] in R'.
  destruct (bind_ok _ _ _ _ _ R') as [r2' [E6' R6']]; injection R6 as <-; injection R6' as <-.
  assert (X := IH g r2 r2' E6 E6' GA GL); rewrite !py_sum_cons; lra.
Qed.

Lemma last_inside g al gl : g_last (add_inside g al gl) = gl.
Proof. unfold g_last, add_inside; cbn [g_first g_more]; rewrite map_app; apply last_last. Qed.

Lemma inside_real g al gl : real_glass g -> real_gap al -> real_layer gl -> real_glass (add_inside g al gl).
Proof.
intros [F M] A L; split; [exact F|]; cbn [add_inside g_more]; intros a b I; apply in_app_or in I.
destruct I as [I|[I|[]]]; [apply M, I|injection I as <- <-; auto].
Qed.

Lemma u_more g al gl u u' : real_glass g -> real_gap al -> real_layer gl -> gl_sfb gl = gl_sfb (g_last g) ->
  get_heat_transmittance g = Ok u -> get_heat_transmittance (add_inside g al gl) = Ok u' -> u' < u.
Proof.
intros G A L SB U U'; assert (H := inside_real g al gl G A L).
destruct (u_ok g G) as [reg [E [_ [S E2]]]], (u_ok _ H) as [reg' [E' [_ [S' E2']]]].
rewrite U in E2; injection E2 as ->; rewrite U' in E2'; injection E2' as ->.
unfold Rdiv; rewrite !Rmult_1_l; apply Rinv_lt_contravar; [apply Rmult_lt_0_compat; assumption|].
unfold get_r_fixed in E, E'.
destruct (bind_ok _ _ _ _ _ E) as [he [A1 E1]]; destruct (bind_ok _ _ _ _ _ E1) as [r0 [A2 E2]].
destruct (bind_ok _ _ _ _ _ E2) as [r1 [A3 E3]]; destruct (bind_ok _ _ _ _ _ E3) as [rs [A4 E4]].
destruct (bind_ok _ _ _ _ _ E4) as [hi [A5 E5]]; destruct (bind_ok _ _ _ _ _ E5) as [rn [A6 E6]].
injection E6 as <-.
change (get_h_e (add_inside g al gl) JIS_R3107 0 0) with (get_h_e g JIS_R3107 0 0) in E'.
rewrite A1 in E'; cbn [bind] in E'; rewrite A2 in E'; cbn [bind] in E'.
cbn [add_inside g_first g_more] in E'; rewrite A3 in E'; cbn [bind] in E'.
destruct (bind_ok _ _ _ _ _ E') as [rs' [A4' E4']].
assert (HI : get_h_i (add_inside g al gl) JIS_R3107 0 0 = Ok hi).
{ unfold get_h_i; rewrite last_inside, SB; exact A5. }
rewrite HI in E4'; cbn [bind] in E4'; rewrite A6 in E4'; cbn [bind] in E4'; injection E4' as <-.
assert (X := r_more_app _ _ _ _ _ _ A4 A4' A L).
rewrite !py_sum_cons, !py_sum_snoc; lra.
Qed.
