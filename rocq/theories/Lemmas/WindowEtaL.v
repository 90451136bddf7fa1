(* Solar gain of windows. *)
From Coq Require Import Reals ZArith List String Lra Lia.
From Verif Require Import Model.Py Model.JsonValue Model.Orientation Model.WindowEta Spec.WindowEtaSpec Lemmas.PyL.
Import ListNotations.
Local Open Scope R_scope.

Lemma entry_in {A} k (d : list (string * A)) v : entry k d = Ok v -> In (k, v) d.
Proof.
unfold entry; destruct (find _ d) as [[k' w]|] eqn:E; [|discriminate]; intro H; injection H as <-.
apply find_some in E; destruct E as (I & Q); simpl in Q; apply String.eqb_eq in Q; subst; exact I.
Qed.
Lemma entry_ok {A} k (d : list (string * A)) : In k (map fst d) -> exists v, entry k d = Ok v.
Proof.
unfold entry; intro I; destruct (find _ d) as [e|] eqn:E; [eexists; reflexivity|].
apply in_map_iff in I; destruct I as (e & <- & I); pose proof (find_none _ _ E e I) as N; simpl in N; rewrite String.eqb_refl in N; discriminate.
Qed.
Lemma entry_err {A} k (d : list (string * A)) : ~ In k (map fst d) -> entry k d = Err KeyError.
Proof.
unfold entry; intro I; destruct (find _ d) as [e|] eqn:E; [|reflexivity].
exfalso; apply I; apply find_some in E; destruct E as (J & Q); apply String.eqb_eq in Q; subst; apply in_map; exact J.
Qed.

(* the rows of the table: at least 8 and at most 88 hundredths, falling from left to right *)
Lemma row_range g a b c : glass_row g = Ok (a, b, c) -> (8 <= c < b /\ b < a <= 88)%Z.
Proof.
intro E; apply entry_in in E; simpl in E.
repeat (destruct E as [E|E]; [injection E as <- <- <- <-; lia|]); contradiction.
Qed.

Lemma frame_range f x : f_frame f = Ok x -> 72 / 100 <= x <= 8 / 10.
Proof. intro E; apply entry_in in E; simpl in E; repeat (destruct E as [E|E]; [injection E as <- <-; lra|]); contradiction. Qed.

Lemma eta_parts f g s e : get_eta_from_specification f g s = Ok e ->
  exists x a b c z, f_frame f = Ok x /\ glass_row g = Ok (a, b, c) /\ In (s, z) [("None", a); ("Shoji", b); ("ExtarnalBlind", c)]%string /\ e = IZR z / 100 * x.
Proof.
unfold get_eta_from_specification; intro E; apply bind_ok in E; destruct E as (x & X & E); apply bind_ok in E; destruct E as ([[a b] c] & G & E).
apply bind_ok in E; destruct E as (z & Z & E); injection E as <-; apply entry_in in Z; exists x, a, b, c, z; auto.
Qed.

Lemma eta_range f g s e : get_eta_from_specification f g s = Ok e -> 0 < e <= 704 / 1000.
Proof.
intro E; destruct (eta_parts _ _ _ _ E) as (x & a & b & c & z & X & G & I & ->); pose proof (frame_range _ _ X); pose proof (row_range _ _ _ _ G) as R.
assert (K : (8 <= z <= 88)%Z) by (simpl in I; repeat (destruct I as [I|I]; [injection I as _ <-; lia|]); contradiction).
destruct K as (K1 & K2); apply IZR_le in K1, K2; nra.
Qed.

(* against the frame of the window *)
Lemma eta_frame f g s e x : get_eta_from_specification f g s = Ok e -> f_frame f = Ok x -> e <= 88 / 100 * x.
Proof.
intros E F; destruct (eta_parts _ _ _ _ E) as (x' & a & b & c & z & X & G & I & ->); rewrite F in X; injection X as <-; pose proof (frame_range _ _ F); pose proof (row_range _ _ _ _ G) as R.
assert (K : (z <= 88)%Z) by (simpl in I; repeat (destruct I as [I|I]; [injection I as _ <-; lia|]); contradiction).
apply IZR_le in K; nra.
Qed.

Lemma eta_accepts f g s : (exists e, get_eta_from_specification f g s = Ok e) <-> In f frames /\ In g glasses /\ In s shades.
Proof.
split.
- intros (e & E); destruct (eta_parts _ _ _ _ E) as (x & a & b & c & z & X & G & I & _); apply entry_in in X, G.
  split; [apply (in_map fst) in X; exact X|split; [apply (in_map fst) in G; simpl in *; tauto|apply (in_map fst) in I; exact I]].
- intros (F & G & S); unfold get_eta_from_specification.
  destruct (entry_ok f [("WoodOrResin", 72 / 100); ("Steel", 8 / 10)]%string F) as (x & X); unfold f_frame; rewrite X; simpl.
  assert (K : exists r, glass_row g = Ok r) by (apply entry_ok; simpl in *; tauto); destruct K as ([[a b] c] & K); rewrite K; simpl.
  destruct (entry_ok s [("None", a); ("Shoji", b); ("ExtarnalBlind", c)]%string S) as (z & Z); rewrite Z; simpl; eexists; reflexivity.
Qed.

Lemma eta_key f g s err : get_eta_from_specification f g s = Err err -> err = KeyError.
Proof.
assert (K : forall A k (d : list (string * A)) er, entry k d = Err er -> er = KeyError)
  by (intros A k d er; unfold entry; destruct (find _ d); intro H; [discriminate|injection H as <-; reflexivity]).
unfold get_eta_from_specification, f_frame, glass_row; destruct (entry f _) as [x|] eqn:X; simpl; [|intro H; injection H as <-; exact (K _ _ _ _ X)].
destruct (entry g _) as [[[a b] c]|] eqn:G; simpl; [|intro H; injection H as <-; exact (K _ _ _ _ G)].
destruct (entry s _) as [z|] eqn:Z; simpl; [discriminate|intro H; injection H as <-; exact (K _ _ _ _ Z)].
Qed.

Lemma eta_shades f g : In f frames -> In g glasses ->
  exists bare shoji blind, get_eta_from_specification f g "None" = Ok bare /\ get_eta_from_specification f g "Shoji" = Ok shoji /\
    get_eta_from_specification f g "ExtarnalBlind" = Ok blind /\ blind < shoji /\ shoji < bare.
Proof.
intros F G.
destruct (entry_ok f [("WoodOrResin", 72 / 100); ("Steel", 8 / 10)]%string F) as (x & X).
assert (K : exists r, glass_row g = Ok r) by (apply entry_ok; simpl in *; tauto); destruct K as ([[a b] c] & K).
unfold get_eta_from_specification, f_frame; rewrite X; simpl; rewrite K; simpl; do 3 eexists; repeat split.
- destruct (row_range _ _ _ _ K) as ((_ & L) & _); apply IZR_lt in L; pose proof (frame_range f x X); nra.
- destruct (row_range _ _ _ _ K) as (_ & L & _); apply IZR_lt in L; pose proof (frame_range f x X); nra.
Qed.

Lemma eta_frames g s e1 e2 : get_eta_from_specification "WoodOrResin" g s = Ok e1 -> get_eta_from_specification "Steel" g s = Ok e2 -> e2 = 10 / 9 * e1.
Proof.
unfold get_eta_from_specification; simpl; intros E1 E2; apply bind_ok in E1; destruct E1 as ([[a b] c] & G & E1); rewrite G in E2; simpl in E2.
apply bind_ok in E1; destruct E1 as (z & Z & E1); rewrite Z in E2; simpl in E2; injection E1 as <-; injection E2 as <-; lra.
Qed.

(* with a curtain less than the bare panes of better glass *)
Lemma eta_panes f s g1 g2 g3 e1 e2 e3 : In g1 single_glass -> In g2 double_glass -> In g3 coated_glass ->
  get_eta_from_specification f g1 s = Ok e1 -> get_eta_from_specification f g2 s = Ok e2 -> get_eta_from_specification f g3 s = Ok e3 ->
  e3 <= e2 <= e1 /\ (s = "None"%string -> e3 < e2 < e1).
Proof.
intros G1 G2 G3 E1 E2 E3.
destruct (eta_parts _ _ _ _ E1) as (x & a & b & c & z & X & R1 & I1 & ->), (eta_parts _ _ _ _ E2) as (x2 & a2 & b2 & c2 & z2 & X2 & R2 & I2 & ->),
  (eta_parts _ _ _ _ E3) as (x3 & a3 & b3 & c3 & z3 & X3 & R3 & I3 & ->).
rewrite X in X2, X3; injection X2 as <-; injection X3 as <-; pose proof (frame_range _ _ X) as XR.
assert (A1 : (a, b, c) = (88, 38, 19)%Z) by (simpl in G1; repeat (destruct G1 as [<- |G1]; [injection R1 as <- <- <-; reflexivity|]); contradiction).
assert (A2 : (a2, b2, c2) = (79, 38, 17)%Z) by (simpl in G2; repeat (destruct G2 as [<- |G2]; [injection R2 as <- <- <-; reflexivity|]); contradiction).
assert (A3 : (a3 <= 64 /\ b3 <= 38 /\ c3 <= 15)%Z) by (simpl in G3; repeat (destruct G3 as [<- |G3]; [injection R3 as <- <- <-; lia|]); contradiction).
injection A1 as -> -> ->; injection A2 as -> -> ->; destruct A3 as (A3 & B3 & C3); apply IZR_le in A3, B3, C3.
simpl in I1, I2, I3.
destruct I1 as [I1|[I1|[I1|[]]]]; injection I1 as <- <-;
destruct I2 as [I2|[I2|[I2|[]]]]; try discriminate I2; injection I2 as <-;
destruct I3 as [I3|[I3|[I3|[]]]]; try discriminate I3; injection I3 as <-; split; try discriminate; intros; nra.
Qed.

Lemma divisor_range d f : frame_divisor d = Ok f -> f = 72 / 100 \/ f = 8 / 10.
Proof.
unfold frame_divisor; intro E; apply bind_ok in E; destruct E as (fi & _ & E); destruct (fi =? _)%string; [|injection E as <-; right; reflexivity].
apply bind_ok in E; destruct E as (fo & _ & E); destruct (fo =? _)%string; injection E as <-; [left|right]; reflexivity.
Qed.

Lemma divisor_frames d f xi xo : frame_divisor d = Ok f ->
  (forall s, str_item "TypeFrameInside" d = Ok s -> f_frame s = Ok xi) -> (forall s, str_item "TypeFrameOutside" d = Ok s -> f_frame s = Ok xo) ->
  (exists s, str_item "TypeFrameOutside" d = Ok s) -> xi <= f /\ xo <= f.
Proof.
unfold frame_divisor; intros E I O (so & S); apply bind_ok in E; destruct E as (fi & FI & E); specialize (I fi FI); specialize (O so S).
pose proof (frame_range _ _ I); pose proof (frame_range _ _ O).
destruct (fi =? "WoodOrResin")%string eqn:W; [|injection E as <-; lra].
rewrite S in E; simpl in E; destruct (so =? "WoodOrResin")%string eqn:W2; injection E as <-; [|lra].
apply String.eqb_eq in W, W2; subst; simpl in I, O; unfold f_frame, entry in I, O; simpl in I, O; injection I as <-; injection O as <-; lra.
Qed.

Lemma eta_of_parts kf kg ks d e : eta_of kf kg ks d = Ok e ->
  exists f g s, str_item kf d = Ok f /\ str_item kg d = Ok g /\ str_item ks d = Ok s /\ get_eta_from_specification f g s = Ok e.
Proof.
unfold eta_of; intro E; apply bind_ok in E; destruct E as (f & F & E); apply bind_ok in E; destruct E as (g & G & E); apply bind_ok in E; destruct E as (s & S & E).
exists f, g, s; auto.
Qed.

Lemma eta_double d e : says d "EtaInputMethod" "InputSpecification" -> says d "TypeWindow" "Double" -> get_eta d = Ok e ->
  exists fi gi si fo go so ei eo, says d "TypeFrameInside" fi /\ says d "TypeGlassInside" gi /\ says d "TypeShadeInside" si /\
    says d "TypeFrameOutside" fo /\ says d "TypeGlassOutside" go /\ says d "TypeShadeOutside" so /\
    get_eta_from_specification fi gi si = Ok ei /\ get_eta_from_specification fo go so = Ok eo /\ 0 < e /\ e < ei /\ e < eo.
Proof.
unfold says; intros M T E; unfold get_eta in E; rewrite M in E; simpl in E; rewrite T in E; simpl in E.
apply bind_ok in E; destruct E as (ei & EI & E); apply bind_ok in E; destruct E as (eo & EO & E); apply bind_ok in E; destruct E as (f & D & E); injection E as <-.
destruct (eta_of_parts _ _ _ _ _ EI) as (fi & gi & si & F1 & G1 & S1 & E1), (eta_of_parts _ _ _ _ _ EO) as (fo & go & so & F2 & G2 & S2 & E2).
exists fi, gi, si, fo, go, so, ei, eo; do 8 (split; [assumption|]).
destruct (eta_parts _ _ _ _ E1) as (xi & _ & _ & _ & _ & X1 & _), (eta_parts _ _ _ _ E2) as (xo & _ & _ & _ & _ & X2 & _).
pose proof (eta_frame _ _ _ _ _ E1 X1) as B1; pose proof (eta_frame _ _ _ _ _ E2 X2) as B2.
destruct (eta_range _ _ _ _ E1) as (P1 & _), (eta_range _ _ _ _ E2) as (P2 & _).
destruct (divisor_frames d f xi xo D) as (L1 & L2);
  [intros s S; rewrite F1 in S; injection S as <-; exact X1|intros s S; rewrite F2 in S; injection S as <-; exact X2|exists fo; exact F2|].
assert (FP : 0 < f) by (destruct (divisor_range _ _ D) as [-> | ->]; lra).
assert (Q : 0 < ei * eo) by nra.
split; [apply Rdiv_lt_0_compat; lra|].
split; apply (Rmult_lt_reg_r f); try exact FP; unfold Rdiv; rewrite Rmult_assoc, Rinv_l by lra; nra.
Qed.

Lemma eta_single d e : says d "EtaInputMethod" "InputSpecification" -> says d "TypeWindow" "Single" ->
  get_eta d = Ok e <-> exists f g s, says d "TypeFrame" f /\ says d "TypeGlass" g /\ says d "TypeShade" s /\ get_eta_from_specification f g s = Ok e.
Proof.
unfold says; intros M T; unfold get_eta; rewrite M; simpl; rewrite T; simpl; split.
- apply eta_of_parts.
- intros (f & g & s & F & G & S & E); unfold eta_of; rewrite F; simpl; rewrite G; simpl; rewrite S; exact E.
Qed.

Lemma value_single d e : says d "EtaInputMethod" "InputValue" -> says d "TypeWindow" "Single" -> get_eta d = Ok e <-> gives d "Eta" e.
Proof. unfold says, gives; intros M T; unfold get_eta; rewrite M; simpl; rewrite T; reflexivity. Qed.

Lemma value_double d i o : says d "EtaInputMethod" "InputValue" -> says d "TypeWindow" "Double" -> gives d "EtaInside" i -> gives d "EtaOutside" o ->
  forall e, get_eta d = Ok e -> 0 < i -> 0 < o -> 0 < e /\ (106 / 100 * o <= 72 / 100 -> e <= i) /\ (106 / 100 * i <= 72 / 100 -> e <= o).
Proof.
unfold says, gives; intros M T I O e E PI PO; unfold get_eta in E; rewrite M in E; simpl in E; rewrite T in E; simpl in E; rewrite I in E; simpl in E; rewrite O in E; simpl in E.
apply bind_ok in E; destruct E as (f & D & E); injection E as <-.
assert (FP : 72 / 100 <= f) by (destruct (divisor_range _ _ D) as [-> | ->]; lra).
assert (Q : 0 < i * o) by nra.
split; [apply Rdiv_lt_0_compat; lra|].
split; intro H; apply (Rmult_le_reg_r f); try lra; unfold Rdiv; rewrite Rmult_assoc, Rinv_l by lra; nra.
Qed.

Lemma eta_rejected d m : says d "EtaInputMethod" m ->
  (m <> "InputValue" -> m <> "InputSpecification" -> get_eta d = Err ValueError)%string /\
  forall t, says d "TypeWindow" t -> (m = "InputValue" \/ m = "InputSpecification")%string -> (t <> "Single" -> t <> "Double" -> get_eta d = Err NameError)%string.
Proof.
unfold says; intro M; unfold get_eta; rewrite M; simpl; split.
- intros A B; apply String.eqb_neq in A, B; rewrite A, B; reflexivity.
- intros t T [-> | ->] A B; apply String.eqb_neq in A, B; simpl; rewrite T; simpl; rewrite A, B; reflexivity.
Qed.
