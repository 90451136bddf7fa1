(* Reordering rooms and boundaries: from single steps to whole calculations. *)
From Coq Require Import ZArith.
From mathcomp Require Import all_ssreflect ssralg ssrnum zmodp matrix.
From Verif Require Import Model.OperationMode Model.Numpy Model.PreCalc Model.Tick Model.Step Model.OtTarget Model.CoreStep Model.Ground
  Model.Dec Model.Py Model.CoreLoop Model.CoreCalc Model.Infiltration Spec.Reorder Lemmas.ReorderL.
Set Implicit Arguments. Unset Strict Implicit. Unset Printing Implicit Defensive.
Import Order.TTheory GRing.Theory Num.Theory.
Local Open Scope ring_scope.

(* the loops of a calculation preserve a relation that every step preserves *)
Section Loops.
Lemma bind_rel A B A2 B2 (R : A -> A2 -> Prop) (S : B -> B2 -> Prop) r r2 f f2 : same_outcome R r r2 ->
  (forall x y, R x y -> same_outcome S (f x) (f2 y)) -> same_outcome S (bind r f) (bind r2 f2).
Proof. by case: r => [x|e]; case: r2 => [y|e2] //= H G; exact: G. Qed.

Lemma foldM_rel A A2 X (R : A -> A2 -> Prop) (f : A -> X -> res A) (f2 : A2 -> X -> res A2) l a a2 : R a a2 ->
  (forall x y n, R x y -> same_outcome R (f x n) (f2 y n)) -> same_outcome R (foldM f l a) (foldM f2 l a2).
Proof.
move=> H G; elim: l a a2 H => [//|n l IH] a a2 H /=; apply: bind_rel (G _ _ _ H) _ => x y xy; exact: IH.
Qed.

Lemma forall2_length A A2 (R : A -> A2 -> Prop) l l2 : List.Forall2 R l l2 -> List.length l = List.length l2.
Proof. by elim=> //= x y m m2 _ _ ->. Qed.

Lemma py_get_rel A A2 (R : A -> A2 -> Prop) l l2 n : List.Forall2 R l l2 -> same_outcome R (py_get l n) (py_get l2 n).
Proof.
move=> H; rewrite /py_get (forall2_length H); case: py_index => //= k.
elim: H k => [|x y m m2 xy _ IH] [|k] //=; exact: IH.
Qed.

Lemma py_set_rel A A2 (R : A -> A2 -> Prop) l l2 n a b : List.Forall2 R l l2 -> R a b ->
  same_outcome (List.Forall2 R) (py_set l n a) (py_set l2 n b).
Proof.
move=> H ab; rewrite /py_set (forall2_length H); case: py_index => //= k.
elim: H k => [|x y m m2 xy Hm IH] [|k] /=; constructor=> //; exact: IH.
Qed.

Variables (P G C O P2 G2 C2 O2 : Type) (RP : P -> P2 -> Prop) (RG : G -> G2 -> Prop) (RC : C -> C2 -> Prop) (RO : O -> O2 -> Prop).
Variables (make : Z -> res P) (gi : P -> G) (gt : P -> Z -> G -> res G) (ci : P -> C) (ho : P -> C -> G -> C) (tk : P -> Z -> C -> res (C * O)).
Variables (make2 : Z -> res P2) (gi2 : P2 -> G2) (gt2 : P2 -> Z -> G2 -> res G2) (ci2 : P2 -> C2) (ho2 : P2 -> C2 -> G2 -> C2)
  (tk2 : P2 -> Z -> C2 -> res (C2 * O2)).
Hypothesis makeE : forall n, same_outcome RP (make n) (make2 n).
Hypothesis giE : forall p p2, RP p p2 -> RG (gi p) (gi2 p2).
Hypothesis gtE : forall p p2 n g g2, RP p p2 -> RG g g2 -> same_outcome RG (gt p n g) (gt2 p2 n g2).
Hypothesis ciE : forall p p2, RP p p2 -> RC (ci p) (ci2 p2).
Hypothesis hoE : forall p p2 c c2 g g2, RP p p2 -> RC c c2 -> RG g g2 -> RC (ho p c g) (ho2 p2 c2 g2).
Hypothesis tkE : forall p p2 n c c2, RP p p2 -> RC c c2 ->
  same_outcome (fun r r2 => RC r.1 r2.1 /\ RO r.2 r2.2) (tk p n c) (tk2 p2 n c2).

Lemma calc_rel hourly dm du db : same_outcome (fun r r2 => RC r.1 r2.1 /\ List.Forall2 (opt_rel RO) r.2 r2.2)
  (calc P G C O make gi gt ci ho tk hourly dm du db) (calc P2 G2 C2 O2 make2 gi2 gt2 ci2 ho2 tk2 hourly dm du db).
Proof.
rewrite /calc; case: (get_n_step _ _ _ _) => //= -[[nm nr] nb]; case: ifP => // _.
apply: bind_rel (makeE hourly) _ => p p2 pp; apply: (@bind_rel _ _ _ _ RG).
  by apply: foldM_rel => [|x y n xy]; [exact: giE | exact: gtE].
move=> g g2 gg; case: ifP => // _; apply: (@bind_rel _ _ _ _ RC).
  apply: foldM_rel => [|x y n xy]; first by apply: hoE => //; exact: ciE.
  by apply: bind_rel (tkE n pp xy) _ => -[x1 o1] [y1 o2] [].
move=> c c2 cc; apply: foldM_rel => [|[x l] [y l2] n [/= xy ll]].
  by split=> //=; elim: (Z.to_nat nm) => [|k IH] /=; constructor.
apply: bind_rel (tkE n pp xy) _ => -[x1 o1] [y1 o2] [/= xy1 oo].
by apply: bind_rel (py_set_rel n ll (oo : opt_rel RO (Some o1) (Some o2))) _.
Qed.
End Loops.

Section Run.
Variable F : realFieldType.
Variables ni nj nm : nat.
Variables (rho : 'I_ni -> 'I_ni) (tau : 'I_nj -> 'I_nj).
Hypothesis rhoI : injective rho.
Hypothesis tauI : injective tau.
Variables (h h2 : house F ni nj nm).
Hypothesis Hh : reordered_house rho tau h h2.
Variables (e0 : F) (infil infil2 : infil_fun F ni) (x_sat : F -> F) (x0 : F).
Hypothesis Hi : reordered_infil rho infil infil2.
Variables (gr gr2 : pred 'I_nj).
Hypothesis Hg : forall j, gr2 j = gr (tau j).
Variables data data2 : seq (step_data F ni nj).
Hypothesis Hd : List.Forall2 (reordered_data rho tau) data data2.

Definition ground_rel (g : ground_conditions F #|gr| nm) (g2 : ground_conditions F #|gr2| nm) : Prop :=
  forall k k2, enum_val k = tau (enum_val k2) -> (forall m, g_dsh g2 k2 m = g_dsh g k m) /\ g_q g2 k2 0 = g_q g k 0.

Lemma aveE : theta_o_ave data2 = theta_o_ave data.
Proof.
rewrite /theta_o_ave -[size data]/(List.length data) (forall2_length Hd); congr (_ / _).
by elim: Hd => [|x y l l2 xy _ IH]; rewrite ?big_nil // !big_cons (rs_theta_o xy) IH.
Qed.

Lemma ground_tickE t g g2 : ground_rel g g2 ->
  ground_rel (ground_tick (make_ground gr h (theta_o_ave data)) t g) (ground_tick (make_ground gr2 h2 (theta_o_ave data2)) t g2).
Proof.
move=> gg k k2 kE; have [dE qE] := gg k k2 kE.
have dsE m : (cmul (g_q g2) (mask_get gr2 (phi_a1 h2)) + emul (mask_get gr2 (r_ms h2)) (g_dsh g2)) k2 m
    = (cmul (g_q g) (mask_get gr (phi_a1 h)) + emul (mask_get gr (r_ms h)) (g_dsh g)) k m.
  by rewrite !mxE (rh_phi_a1 Hh) (rh_r_ms Hh) dE qE kE.
split=> [m|]; first exact: dsE.
rewrite /= aveE; set ds2 := cmul _ _ + _ in dsE *; set ds := cmul _ _ + _ in dsE *.
have rE : rowsum ds2 k2 0 = rowsum ds k 0 by rewrite ![LHS]mxE [RHS]mxE; apply: eq_bigr => m _; exact: dsE.
by clearbody ds2 ds; rewrite !mxE -/(rowsum _) kE (rh_phi_a0 Hh) (rh_h_r Hh) (rh_h_c Hh) -?kE; move: rE; rewrite !mxE => ->.
Qed.

Lemma mask_setE p (a a2 : 'M[F]_(nj, p)) (b : 'M[F]_(#|gr|, p)) (b2 : 'M[F]_(#|gr2|, p)) :
  (forall j m, a2 j m = a (tau j) m) -> (forall k k2, enum_val k = tau (enum_val k2) -> forall m, b2 k2 m = b k m) ->
  forall j m, mask_set (mask := gr2) a2 b2 j m = mask_set (mask := gr) a b (tau j) m.
Proof.
move=> aE bE j m; rewrite !mxE; case: pickP => [k2 /eqP k2E|no2]; case: pickP => [k /eqP kE|no].
- by apply: bE; rewrite k2E.
- have gj : gr (tau j) by rewrite -Hg -k2E; exact: (enum_valP k2).
  have := no (enum_rank_in gj (tau j)); by rewrite enum_rankK_in ?eqxx.
- have gj : gr2 j by rewrite Hg -kE; exact: (enum_valP k).
  have := no2 (enum_rank_in gj j); by rewrite enum_rankK_in ?eqxx.
- exact: aE.
Qed.

Lemma core_calcE hourly dm du db : same_outcome (reordered_run rho tau)
  (core_calc e0 infil x_sat x0 h gr data hourly dm du db) (core_calc e0 infil2 x_sat x0 h2 gr2 data2 hourly dm du db).
Proof.
rewrite /core_calc; apply: (@calc_rel _ _ _ _ _ _ _ _ (pp_rel rho tau) ground_rel (reordered_state rho tau) (reordered_step rho tau)).
- move=> _; have := make_ppE rhoI tauI Hh (delta_t F hourly); by case: (make_pp h _) => [q|]; case: (make_pp h2 _) => [q2|].
- by move=> _ _ _ k k2 _; split=> [m|]; rewrite !mxE.
- move=> _ _ n g g2 _ gg; apply: bind_rel (py_get_rel n Hd) _ => s s2 ss /=; rewrite (rs_theta_o ss); exact: ground_tickE.
- by move=> *; split=> //= *; move=> *; rewrite !mxE.
- move=> _ _ c c2 g g2 _ cc gg; split=> /=; rewrite /by_room /by_boundary /by_term.
  all: try by case: cc.
  + by apply: mask_setE => [|k k2 kE]; [exact: (rc_a cc) | have [] := gg k k2 kE].
  + move=> j; apply: mask_setE => [j2 m|k k2 kE m]; rewrite ord1; first exact: (rc_q cc).
    by have [] := gg k k2 kE.
- move=> q q2 n c c2 qq cc; apply: bind_rel (py_get_rel n Hd) _ => s s2 ss.
  have := tickE rhoI tauI Hh ss cc e0 x_sat (delta_t F hourly) Hi qq.
  by case: (run_tick _ infil _ _ _ _ _ _) => [[c' o]|]; case: (run_tick _ infil2 _ _ _ _ _ _) => [[c2' o2]|] //= tt; split=> //; case: tt.
Qed.
End Run.

(* houses with a symmetry *)
Section Symmetry.
Variable F : realFieldType.
Variables ni nj nm : nat.
Variables (rho : 'I_ni -> 'I_ni) (tau : 'I_nj -> 'I_nj).
Lemma symmetric_run (h : house F ni nj nm) (e0 : F) (infil : infil_fun F ni) x_sat x0 (gr : pred 'I_nj) data hourly dm du db cf log :
  injective rho -> injective tau -> reordered_house rho tau h h -> reordered_infil rho infil infil -> (forall j, gr (tau j) = gr j) ->
  List.Forall2 (reordered_data rho tau) data data -> core_calc e0 infil x_sat x0 h gr data hourly dm du db = Ok (cf, log) ->
  reordered_run rho tau (cf, log) (cf, log).
Proof.
move=> ri ti Hh Hi Hg Hd E; have := core_calcE ri ti Hh e0 x_sat x0 Hi (fun j => esym (Hg j)) Hd hourly dm du db.
by rewrite E.
Qed.

Lemma symmetric_rooms (h : house F ni nj nm) (e0 : F) (infil : infil_fun F ni) x_sat x0 (gr : pred 'I_nj) data hourly dm du db cf log :
  injective rho -> injective tau -> reordered_house rho tau h h -> reordered_infil rho infil infil -> (forall j, gr (tau j) = gr j) ->
  List.Forall2 (reordered_data rho tau) data data -> core_calc e0 infil x_sat x0 h gr data hourly dm du db = Ok (cf, log) ->
  forall n c o, List.nth_error log n = Some (Some (c, o)) -> forall i,
  [/\ theta_r c (rho i) 0 = theta_r c i 0, x_r c (rho i) 0 = x_r c i 0, operation_mode c (rho i) = operation_mode c i,
      o_l_cs o (rho i) 0 = o_l_cs o i 0 & o_l_cl o (rho i) 0 = o_l_cl o i 0].
Proof.
move=> ri ti Hh Hi Hg Hd E n c o En i; have [_ /= L] := symmetric_run ri ti Hh Hi Hg Hd E.
have H (l l2 : seq (option (conditions F ni nj nm * outputs F ni nj))) m x y : List.Forall2 (opt_rel (reordered_step rho tau)) l l2 ->
    List.nth_error l m = Some x -> List.nth_error l2 m = Some y -> opt_rel (reordered_step rho tau) x y.
  by move=> H; elim: H m => [|a b k k2 ab _ IH] [|m] //=; [move=> [<-] [<-] | exact: IH].
have [[m t _ x _ _ _ _ _ _] [_ _ l _ cl _ _ _ _ _ _ _]] := H _ _ _ _ _ L En En.
by split; apply/esym; [exact: t|exact: x|exact: m|exact: l|exact: cl].
Qed.
End Symmetry.

Section Leak.
Variable F : rcfType.
Variable ni : nat.
Variable rho : 'I_ni -> 'I_ni.
Hypothesis rhoI : injective rho.
Lemma leakE (c : F) v v2 story pressure t t2 theta_o : by_room rho v v2 -> by_room rho t t2 ->
  same_outcome (by_room rho) (infiltration_residential c v story pressure t theta_o)
    (infiltration_residential c v2 story pressure t2 theta_o).
Proof.
move=> vE tE; rewrite /infiltration_residential.
have bij : {on predT, bijective rho} by apply: onW_bij; exact: injF_bij.
have -> : \sum_i v2 i 0 = \sum_i v i 0 by rewrite [RHS](reindex rho bij) /=; apply: eq_bigr => i _; exact: vE.
have -> : \sum_i t2 i 0 * v2 i 0 = \sum_i t i 0 * v i 0.
  by rewrite [RHS](reindex rho bij) /=; apply: eq_bigr => i _; rewrite vE tE.
case: ifP => // _; case: coef_a => //= a; case: coef_b => //= b i; by rewrite !mxE vE.
Qed.
End Leak.
