(* a sensible description becomes a physical house of the core *)
From Coq Require Import Reals ZArith List String Lra Lia.
From mathcomp Require Import all_ssreflect ssralg ssrnum zmodp matrix.
From Verif Require Import Model.Py Model.Numpy Model.RealNumbers Model.Dec Model.PreCalc Model.Tick Model.CoreLoop Model.CoreCalc Model.Infiltration Model.Assemble
  Spec.Physical Spec.InfiltrationSpec.
From Verif Require Import Lemmas.PyL Lemmas.RealNumbersL Lemmas.CoreCalcL Lemmas.InfiltrationL Lemmas.ViewLengthL.
From Verif Require Model.HouseDict Model.ReadHouse Model.ResponseFactor Model.ShapeFactor Model.Initializer Model.Schedule Spec.HouseSpec Spec.ViewFactor
  Lemmas.ShapeFactorL Lemmas.VentL.
From Verif Require Lemmas.SensibleL Lemmas.FiniteGainsL Lemmas.MakeHouseL Lemmas.RoomsL Lemmas.ReadBackL Lemmas.ScheduleL Spec.SensibleSpec Spec.CompleteSpec Spec.HouseholdSpec Model.BoundaryDict Model.BoundarySimple.
Set Implicit Arguments. Unset Strict Implicit. Unset Printing Implicit Defensive.
Import Order.TTheory GRing.Theory Num.Theory.
Import HouseDict ReadHouse Initializer SensibleL PreCalc.
Local Open Scope ring_scope.
Delimit Scope R_scope with coqR.

Lemma ge0R (x : real) : (0 <= x)%coqR -> 0 <= x. Proof. by move=> H; apply/R_leP. Qed.
Lemma gt0R (x : real) : (0 < x)%coqR -> 0 < x. Proof. by move=> H; apply/R_ltP. Qed.
Lemma le1R (x : real) : (x <= 1)%coqR -> x <= 1. Proof. by move=> H; apply/R_leP. Qed.

Lemma py_index_lt n z k : py_index (Z.of_nat n) z = Ok k -> (k < n)%coq_nat.
Proof.
rewrite /py_index; case: andP => [[/Z.leb_le A /Z.ltb_lt B] [<-]|_]; first by lia.
by case: andP => // -[/Z.leb_le A /Z.ltb_lt B] [<-]; lia.
Qed.

Lemma nth_some A (l : list A) n x d : nth_error l n = Some x -> List.nth n l d = x.
Proof. exact: nth_error_nth. Qed.

Lemma colE n (l : list R) (i : 'I_n) x : nth_error l i = Some x -> col n l i 0 = x.
Proof. by move=> E; rewrite mxE (nth_some _ E). Qed.

Lemma sum_total n (row : list R) : List.length row = n -> \sum_(k < n) (List.nth k row R0 : R) = HouseSpec.total row.
Proof.
elim: row n => [|x row IH] n <- /=; first by rewrite big_ord0.
by rewrite big_ord_recl /= (IH (List.length row)).
Qed.

(* the sum over the boundaries of one room *)
Lemma sum_selected A (P : A -> bool) (f : A -> option R) (l : list A) (g : list R) x :
  Forall2 (fun a y => f a = Some y) l g -> HouseSpec.adds_up_to (List.map f (List.filter P l)) x ->
  \sum_(j < List.length l | if nth_error l j is Some a then P a else false) (List.nth j g R0 : R) = x.
Proof.
move=> F; elim: F x => [|a y {}l {}g E F IH] x /=; first by rewrite big_ord0 => ->.
rewrite big_mkcond big_ord_recl /= -big_mkcond /=.
case: (P a) => /= [|H]; last by rewrite add0r; exact: IH.
by rewrite E => -[z [H ->]]; rewrite (IH _ H).
Qed.

Section House.
Variables (cr : core_rooms) (cb : core_boundaries) (bs : list bdry) (h_r : list R) (ni : nat).
Hypothesis rooms : forall i, (i < ni)%coq_nat -> sensible_row cr ni i.
Hypothesis cols : forall j d, nth_error bs j = Some d -> sensible_column cb ni (List.length bs) j d.
Hypothesis conns : cb_connected cb = List.map bd_connected_space_id bs.
Hypothesis areas : cb_area cb = List.map bd_area bs.
Hypothesis hcs : cb_h_c cb = List.map bd_h_c bs.
Hypothesis h_r_len : List.length h_r = List.length bs.
Hypothesis h_r_pos : Forall (fun x => 0 < x)%coqR h_r.
Hypothesis mrt : forall i, (i < ni)%coq_nat -> HouseSpec.adds_up_to (List.map bd_f_mrt_hum (HouseSpec.of_room (Z.of_nat i) bs)) 1%coqR.
Notation nj := (List.length bs).

Lemma bd_at (j : 'I_nj) : exists d, nth_error bs j = Some d.
Proof. by case E: (nth_error bs j) => [d|]; [exists d|move: (proj1 (nth_error_None _ _) E); move/ssrnat.leP; rewrite leqNgt ltn_ord]. Qed.

Lemma room_lt (i : 'I_ni) : (i < ni)%coq_nat. Proof. exact/ssrnat.ltP. Qed.

Lemma assemble_ok : exists h, assemble ni nj cr cb bs h_r = Ok h /\
  (forall j, forall d, nth_error bs j = Some d -> (forall jj : 'I_nj, jj = j :> nat -> bd_flr d = Some (flr h jj 0) /\ bd_f_mrt_hum d = Some (f_mrt_hum h jj 0))) /\
  physical_boundaries h /\ physical_rooms (delta_t real 4) h /\ physical_hum h /\
  (forall i, 0 <= v_vent_ex h i 0 /\ 0 <= v_ntrl h i 0) /\ (forall i, 0 <= cap_h h i 0) /\ (forall i, 0 <= cap_c h i 0) /\
  (forall i, beta h i 0 = 0) /\ (forall j, 0 <= flr h j 0) /\ (forall i, is_rad_c h i = false) /\
  (forall i, is_rad_h h i = List.nth i (cr_is_radiative_heating cr) false) /\
  (forall j, 0 < phi_a0 h j 0) /\ (forall j d, nth_error bs (nat_of_ord j) = Some d -> conn h j = Z.to_nat (bd_connected_space_id d)).
Proof.
have [fl Efl] : exists fl, mapM (fun b => number (bd_flr b)) bs = Ok fl.
  by apply: mapM_total => d /(In_nth_error bs)[j J]; case: (col_flr _ _ _ _ _ (cols J)) => f [-> _]; exists f.
have [fm Efm] : exists fm, mapM (fun b => number (bd_f_mrt_hum b)) bs = Ok fm.
  by apply: mapM_total => d /(In_nth_error bs)[j J]; case: (col_mrt _ _ _ _ _ (cols J)) => f [-> _]; exists f.
rewrite /assemble Efl Efm /=; eexists; split; first reflexivity.
have numE x y : number x = Ok y -> x = Some y by case: x => //= z [->].
have Ffl := VentL.mapM_forall2 _ _ _ _ _ Efl; have Ffm := VentL.mapM_forall2 _ _ _ _ _ Efm.
have atfl j d : nth_error bs j = Some d -> nth_error fl j = bd_flr d.
  by move=> J; case: (proj2 (mapM_ok _ _ _ _ _ Efl) j d J) => y [/numE -> ->].
have atfm j d : nth_error bs j = Some d -> nth_error fm j = bd_f_mrt_hum d.
  by move=> J; case: (proj2 (mapM_ok _ _ _ _ _ Efm) j d J) => y [/numE -> ->].
have connE (j : 'I_nj) d : nth_error bs j = Some d -> room_of ni (List.nth j (cb_connected cb) (-1)%Z) = Z.to_nat (bd_connected_space_id d).
  move=> J; rewrite conns (@nth_some _ _ j (bd_connected_space_id d)) ?nth_error_map ?J // /room_of.
  by case: (Z.ltb_spec (bd_connected_space_id d) 0) => // L; case: (col_room _ _ _ _ _ (cols J)); lia.
split.
  move=> j d J jj E /=; rewrite -E in J.
  have [f [F _]] := col_flr _ _ _ _ _ (cols J); have [g [G _]] := col_mrt _ _ _ _ _ (cols J).
  by rewrite (@colE _ _ _ f) ?(@colE _ _ _ g) ?(atfl _ _ J) ?(atfm _ _ J).
split.
  constructor=> /= j; have [d J] := bd_at j; have C := cols J.
  - by rewrite (connE _ _ J); apply/ssrnat.ltP; case: (col_room _ _ _ _ _ C); lia.
  - rewrite (@colE _ _ _ (bd_area d)) ?areas ?nth_error_map ?J //; apply/R_ltP; exact: (col_area _ _ _ _ _ C).
  - rewrite (@colE _ _ _ (bd_h_c d)) ?hcs ?nth_error_map ?J //; apply/R_ltP; exact: (col_h_c _ _ _ _ _ C).
  - rewrite mxE; apply/R_ltP; apply: (proj1 (Forall_forall _ _) h_r_pos); apply: nth_In; rewrite h_r_len; exact/ssrnat.ltP.
  - by case: (col_response _ _ _ _ _ C) => rf [E [P _]]; rewrite mxE (nth_some _ E); apply: ge0R; lra.
  - by case: (col_response _ _ _ _ _ C) => rf [E [_ [P _]]]; rewrite mxE (nth_some _ E); apply: ge0R; lra.
  - move=> k c; rewrite /rear_of J /=; case K: (bd_k_inside d) => [[z c']|] //.
    have [Z1 Z2] := col_rear _ _ _ _ _ C _ _ K; rewrite VentL.py_index_in //.
    case: insubP => // o _ _ [_ <-]; case: (col_response _ _ _ _ _ C) => rf [E [_ [P1 P2]]]; rewrite mxE (nth_some _ E).
    by split; [apply: ge0R|apply: le1R; rewrite R_mulE]; nra.
split.
  have dtE : delta_t real 4 = 900%coqR :> R.
    rewrite /delta_t /z2f (R_p2fE 4) R_divE; last lra.
    rewrite R_natE; have -> : 3600%nat = Z.to_nat 3600 by []. rewrite INR_IZR_INZ Z2Nat.id //; lra.
  constructor=> /=.
  - by rewrite dtE; apply: gt0R; lra.
  - by move=> i; have [v [E [P _]]] := row_volume _ _ _ (rooms (room_lt i)); rewrite (colE E); apply/R_ltP.
  - by move=> i; have [v [_ [P [E _]]]] := row_volume _ _ _ (rooms (room_lt i)); rewrite (colE E); apply: gt0R; lra.
  - by move=> i; have [v [_ [P [_ [E _]]]]] := row_volume _ _ _ (rooms (room_lt i)); rewrite (colE E); apply: ge0R; lra.
  - by move=> i; have [v [_ [P [_ [_ [E _]]]]]] := row_volume _ _ _ (rooms (room_lt i)); rewrite (colE E); apply: gt0R; lra.
  - by move=> i; have [v [_ [P [_ [_ [_ [E _]]]]]]] := row_volume _ _ _ (rooms (room_lt i)); rewrite (colE E); apply: ge0R; lra.
  - move=> i k; have [v [_ [_ [_ [_ [_ [_ [row [E [_ [P _]]]]]]]]]]] := row_volume _ _ _ (rooms (room_lt i)).
    by rewrite mxE (nth_some _ E); apply/R_leP; exact: P.
  - move=> i; have [v [Ev [_ [_ [_ [_ [_ [row [E [L [_ P]]]]]]]]]]] := row_volume _ _ _ (rooms (room_lt i)).
    under eq_bigr do rewrite mxE (nth_some _ E).
    by rewrite (sum_total L) (colE Ev) dtE R_divE; [apply/R_ltP|lra].
  - move=> i; have [q1 [q2 [v1 [v2 [E1 [E2 [_ [_ [P _]]]]]]]]] := row_coil _ _ _ (rooms (room_lt i)).
    by rewrite (colE E1) (colE E2); apply/andP; split; [apply/R_leP|apply/R_ltP]; case: P.
  - move=> i; have [q1 [q2 [v1 [v2 [_ [_ [E1 [E2 [_ [P _]]]]]]]]]] := row_coil _ _ _ (rooms (room_lt i)).
    by rewrite (colE E1) (colE E2); apply/andP; split; apply/R_leP; case: P.
  - move=> i; have [q1 [q2 [v1 [v2 [E1 [E2 [E3 [E4 [_ [_ P]]]]]]]]]] := row_coil _ _ _ (rooms (room_lt i)).
    by rewrite (colE E1) (colE E2) (colE E3) (colE E4); apply/R_leP; rewrite !R_mulE !R_addE !R_oppE; exact: P.
split.
  constructor=> /=.
  - move=> j; have [d J] := bd_at j; have [f [F P]] := col_mrt _ _ _ _ _ (cols J).
    by rewrite (@colE _ _ _ f) ?(atfm _ _ J) //; apply/R_leP.
  - move=> i; under eq_bigr do rewrite mxE.
    rewrite (eq_bigl (fun j : 'I_nj => if nth_error bs j is Some a then (bd_connected_space_id a =? Z.of_nat i)%Z else false)); last first.
      move=> j; have [d J] := bd_at j; rewrite J (connE _ _ J); have [L _] := col_room _ _ _ _ _ (cols J).
      by apply/eqP/idP => [<-|/Z.eqb_eq ->]; [rewrite Z2Nat.id // Z.eqb_refl|rewrite Nat2Z.id].
    rewrite (@sum_selected _ (fun a => (bd_connected_space_id a =? Z.of_nat i)%Z) bd_f_mrt_hum bs fm 1%coqR) //.
      by elim: Ffm => //= a y l g /numE E _ IH; constructor.
    exact: mrt (room_lt i).
split.
  move=> i; have [u [E P]] := row_vent _ _ _ (rooms (room_lt i)); have [u' [E' P']] := row_natural _ _ _ (rooms (room_lt i)).
  by rewrite /= (colE E) (colE E'); split; apply/R_leP.
split.
  by move=> i; have [x [m [_ [E P]]]] := row_heating _ _ _ (rooms (room_lt i)); rewrite /= (colE E); apply/R_leP.
split.
  by move=> i; have [_ E] := row_cooling _ _ _ (rooms (room_lt i)); rewrite /= (colE E); apply: ge0R; lra.
split.
  by move=> i; rewrite /= (colE (row_beta _ _ _ (rooms (room_lt i)))).
split.
  move=> j; have [d J] := bd_at j; have [f [F P]] := col_flr _ _ _ _ _ (cols J).
  by rewrite /= (@colE _ _ _ f) ?(atfl _ _ J) //; apply/R_leP.
split.
  by move=> i; have [E _] := row_cooling _ _ _ (rooms (room_lt i)); rewrite /= (nth_some _ E).
split=> //; split; last exact: connE.
by move=> j; have [d J] := bd_at j; case: (col_response _ _ _ _ _ (cols J)) => rf [E [P _]]; rewrite /= mxE (nth_some _ E); apply/R_ltP.
Qed.
End House.

(* the matrices of the core are those that are read *)
Section Matrices.
Variables (inv : list (list R) -> res (list (list R))) (cr : core_rooms) (cb : core_boundaries) (bs : list bdry) (h_r : list R) (ni : nat).
Notation nj := (List.length bs).
Variable h : house real ni nj 12.
Hypothesis read : read_boundaries inv ni bs = Ok cb.
Hypothesis made : assemble ni nj cr cb bs h_r = Ok h.

Lemma read_fields : [/\ cb_connected cb = List.map bd_connected_space_id bs,
  cb_p_is_js cb = List.map (fun i => List.map (p_entry i) bs) (range 0 (Z.of_nat ni)),
  cb_flr_js_is cb = List.map (fun b => List.map (fun i => p_times (p_entry i b) (bd_flr b)) (range 0 (Z.of_nat ni))) bs,
  cb_f_mrt_hum_is_js cb = List.map (fun i => List.map (fun b => p_times (p_entry i b) (bd_f_mrt_hum b)) bs) (range 0 (Z.of_nat ni)) &
  mapM (k_ei_row nj) bs = Ok (cb_k_ei cb)].
Proof.
move: read; rewrite /read_boundaries; case: (mapM _ bs) => //= g; case: (mapM _ bs) => //= rf; case: (mapM _ bs) => //= ab.
by case E: (mapM _ bs) => [k|] //= [<-].
Qed.

Lemma connE (j : 'I_nj) b : nth_error bs j = Some b -> conn h j = room_of ni (bd_connected_space_id b).
Proof.
move=> J; have [C _ _ _ _] := read_fields; move: made; rewrite /assemble; case: (mapM _ bs) => //= fl; case: (mapM _ bs) => //= fm [<-] /=.
by rewrite C (@nth_some _ _ j (bd_connected_space_id b)) // nth_error_map J.
Qed.

Lemma entryE (i : 'I_ni) (j : 'I_nj) b : nth_error bs j = Some b -> p_is_js h i j = p_entry (Z.of_nat i) b.
Proof.
move=> J; rewrite mxE (connE J) /room_of /p_entry; case: Z.ltb_spec => L.
  case: eqP => [E|_]; first by move: (ltn_ord i); rewrite -E ltnn.
  by case: Z.eqb_spec => // E; lia.
by case: eqP => E; case: Z.eqb_spec => // N; lia.
Qed.

Lemma matrices : [/\ forall (i : 'I_ni) (j : 'I_nj), nth_error (List.nth i (cb_p_is_js cb) nil) j = Some (p_is_js h i j),
  forall j k : 'I_nj, nth_error (List.nth j (cb_k_ei cb) nil) k = Some (k_ei_js_js h j k),
  forall (j : 'I_nj) (i : 'I_ni), nth_error (List.nth j (cb_flr_js_is cb) nil) i = Some (Some (flr_js_is h j i)) &
  forall (i : 'I_ni) (j : 'I_nj), nth_error (List.nth i (cb_f_mrt_hum_is_js cb) nil) j = Some (Some (f_mrt_hum_is_js h i j))].
Proof.
have [_ Ep Ef Em Ek] := read_fields.
have R (i : 'I_ni) : nth_error (range 0 (Z.of_nat ni)) i = Some (Z.of_nat i) by apply: ReadBackL.nth_range; exact/ssrnat.ltP.
have fields (j : 'I_nj) b : nth_error bs j = Some b -> bd_flr b = Some (flr h j 0) /\ bd_f_mrt_hum b = Some (f_mrt_hum h j 0) /\ k_ei h j = rear_of nj (Some b).
  move=> J; move: made; rewrite /assemble; case Efl: (mapM _ bs) => [fl|] //=; case Efm: (mapM _ bs) => [fm|] //= [<-] /=.
  have numE x y : number x = Ok y -> x = Some y by case: x => //= z [->].
  have [y [/numE -> Y]] := proj2 (mapM_ok _ _ _ _ _ Efl) j b J; have [z [/numE -> Z]] := proj2 (mapM_ok _ _ _ _ _ Efm) j b J.
  by rewrite (colE Y) (colE Z) J.
split.
- move=> i j; have [b J] := bd_at j; rewrite Ep (@nth_some _ _ i (List.map (p_entry (Z.of_nat i)) bs)); last by rewrite nth_error_map R.
  by rewrite nth_error_map J /= (entryE i J).
- move=> j k; have [b J] := bd_at j; have [_ [_ K]] := fields _ _ J; have [row [Er Rr]] := proj2 (mapM_ok _ _ _ _ _ Ek) j b J.
  rewrite (nth_some _ Rr) mxE K /rear_of /=; move: Er; rewrite /k_ei_row; case: (bd_k_inside b) => [[z c]|] /=; last first.
    by move=> [<-]; apply: nth_error_repeat; exact/ssrnat.ltP.
  rewrite /py_set repeat_length; case Ez: (py_index _ z) => [k'|] //= [<-].
  have Lk : (k' < nj)%N by apply/ssrnat.ltP; exact: py_index_lt Ez.
  rewrite CoreLoopL.nth_set_nth ?repeat_length; last exact/ssrnat.ltP.
  rewrite (insubT (fun m => m < nj)%N Lk) /= -val_eqE /=.
  case: Nat.eqb_spec => [->|N]; first by rewrite eqxx.
  by case: eqP => // _; apply: nth_error_repeat; exact/ssrnat.ltP.
- move=> j i; have [b J] := bd_at j; have [E1 _] := fields _ _ J.
  rewrite Ef (@nth_some _ _ j (List.map (fun i => p_times (p_entry i b) (bd_flr b)) (range 0 (Z.of_nat ni)))); last by rewrite nth_error_map J.
  by rewrite nth_error_map R /= E1 /= /flr_js_is /cmul mxE /p_js_is mxE (entryE i J) R_mulE Rmult_comm.
- move=> i j; have [b J] := bd_at j; have [_ [E1 _]] := fields _ _ J.
  rewrite Em (@nth_some _ _ i (List.map (fun b => p_times (p_entry (Z.of_nat i) b) (bd_f_mrt_hum b)) bs)); last by rewrite nth_error_map R.
  by rewrite nth_error_map J /= E1 /= /f_mrt_hum_is_js /rmul mxE (entryE i J).
Qed.
End Matrices.

(* building data of a complete description *)
Lemma building_known bd s c p : make_building_dict bd = Ok (s, c, p) -> known_story s /\ known_pressure p.
Proof.
rewrite /make_building_dict; case: (story bd) => //= s'; case E: (_ || _) => //=; case: (c_value bd) => //= c'; case: (inside_pressure bd) => //= p'.
case G: (_ || _) => // -[<- _ <-]; split.
  by case/orP: E => /Z.eqb_eq ->; [left|right].
by case/orP: G => [/orP[]|] /String.eqb_eq ->; rewrite /known_pressure; auto.
Qed.

Section Run.
Variables (round1 : R -> R) (tbl : Schedule.tables) (cal : list string) (ws : list BoundaryDict.wstep) (d : house_in).
Variables (inv : list (list R) -> res (list (list R))) (f_ver : list R -> R).
Hypothesis nearest : HouseSpec.to_nearest_tenth round1.
Hypothesis full : forall room type, HouseholdSpec.complete tbl room type.
Hypothesis tables : SensibleSpec.sensible_tables tbl cal.
Hypothesis year_cal : List.length cal = 365%nat.
Hypothesis year_ws : List.length ws = MakeHouseL.year.
Hypothesis weather_ok : SensibleSpec.sensible_weather ws d.
Hypothesis complete : CompleteSpec.complete_house d.
Hypothesis sensible : SensibleSpec.sensible_house inv d.
Hypothesis solver : SensibleSpec.solver_works f_ver d.
Hypothesis heating : SensibleSpec.convective_heating d \/ SensibleSpec.one_room d.

Lemma year_steps : (365 * 96)%coq_nat = MakeHouseL.year.
Proof. by rewrite (Nat.mul_comm 24) -Nat.mul_assoc; exact: (congr1 (Nat.mul 365)). Qed.

Lemma numbers_total rows n : (n < MakeHouseL.year)%coq_nat ->
  (forall r, List.In r rows -> List.length r = MakeHouseL.year /\ Forall (fun x : option R => x <> None) r) -> exists l, numbers rows n = Ok l.
Proof.
move=> Ln P; apply: mapM_total => r /P[Lr /(proj1 (Forall_forall _ _)) N].
case E: (nth_error r n) => [x|]; last first.
  by have G := proj1 (nth_error_None _ _) E; rewrite Lr in G; case: (Nat.lt_irrefl _ (Nat.lt_le_trans _ _ _ Ln G)).
by have := N _ (nth_error_In _ _ E); case: x {E} => [x _|//]; exists x.
Qed.

Lemma steps_total ni nj m weather : make_house round1 tbl cal ws d = Ok m -> List.length weather = (365 * 96)%coq_nat ->
  exists data, steps_of ni nj m weather = Ok data.
Proof.
move=> Hm Lw; have [P1 P2] := FiniteGainsL.house_numbers _ _ _ _ _ _ Hm complete weather_ok year_ws.
apply: mapM_total => -[n w] I; have [_] := proj1 (in_seq _ _ _) (in_combine_l _ _ _ _ I); rewrite Lw => Ln.
have Ln' : (n < MakeHouseL.year)%coq_nat by move: Ln; rewrite Nat.add_0_l year_steps.
by rewrite /step_of; have [q ->] := numbers_total Ln' P1; have [t ->] := numbers_total Ln' P2; eexists.
Qed.

Lemma runs : exists m, make_house round1 tbl cal ws d = Ok m /\
  exists h g, core_input f_ver inv m = Ok (h, g) /\
  physical_boundaries h /\ physical_rooms (delta_t real 4) h /\ physical_hum h /\
  forall (e0 : real) (x_sat : real -> real) x0 weather d_main d_run_up d_build s c p,
  List.length weather = (365 * 96)%coq_nat -> m_building m = (s, c, p) ->
  (0 <= d_main <= 365)%Z -> (0 <= d_build <= d_run_up)%Z -> (d_run_up <= 365)%Z ->
  exists data, steps_of _ _ m weather = Ok data /\
  exists infil, (forall theta o, infiltration_residential (F := R_rcfType) c (v_room h) s p theta o = Ok (infil theta o)) /\
  exists cf log, core_calc e0 infil x_sat x0 h g data 4 d_main d_run_up d_build = Ok (cf, log).
Proof.
have [m Hm] := MakeHouseL.house_total round1 tbl cal ws d full year_cal year_ws complete.
exists m; split=> //.
have [rooms [bds [bss [names [a [bd [Hr [Hb [Hd [Nm [A [Bs [Sp [Bd [Bu Sch]]]]]]]]]]]]]]] := house_components _ _ _ _ _ _ Hm.
have [rooms' [bds' [bd' [ids [types [Hr' [Hb' [_ [Hi [Ht [V [Cr _]]]]]]]]]]]] := complete.
move: Hr'; rewrite Hr => -[E]; rewrite -{}E in Hi Ht Cr => {Hb'}.
have [Sr [Sb Fl]] := sensible Hr Hb.
have [Ls [cr [Rs Rows]]] := rooms_sensible _ _ Sp Cr Sr.
have [cb [Rb [Cc [Ca [Ch Cols]]]]] := boundaries_sensible _ _ _ _ _ _ _ nearest Bs Bd Sb Fl.
rewrite -Ls in Rows Rb Cols; rewrite /core_input Rs; cbn [bind]; rewrite Rb; cbn [bind].
set ni := List.length (m_spaces m) in Rows Rb Cols *; set bs := m_boundaries m in Bd Cc Ca Ch Cols Rb *.
set h_r := ShapeFactor.h_r_js _ _ _ _.
have Rooms i : (i < ni)%coq_nat -> exists2 r, nth_error rooms i = Some r & sensible_row cr ni i.
  rewrite /ni Ls; case E: (nth_error rooms i) => [r|] L; last by move: (proj1 (nth_error_None _ _) E); lia.
  by exists r => //; rewrite -Ls; case: (Rows _ _ E).
have Apos : Forall (fun x => 0 < x)%coqR (cb_area cb).
  rewrite Ca; apply/Forall_forall => x /in_map_iff[b [<- /(In_nth_error bs)[j J]]]; exact: col_area _ _ _ _ _ (Cols _ _ J).
have In_rooms r : List.In r (List.map (room_of ni) (cb_connected cb)) -> (r < ni)%coq_nat.
  rewrite Cc => /in_map_iff[z [<- /in_map_iff[b [<- /(In_nth_error bs)[j J]]]]]; have [Z1 Z2] := col_room _ _ _ _ _ (Cols _ _ J).
  by rewrite /room_of; case: (Z.ltb_spec (bd_connected_space_id b) 0); lia.
have Hlen : List.length h_r = List.length bs.
  by rewrite /h_r h_r_length ?Ca ?Cc ?map_length // -Cc.
have Hpos : Forall (fun x => 0 < x)%coqR h_r.
  have Sv : ViewFactor.solved f_ver ni (List.map (room_of ni) (cb_connected cb)) (cb_area cb).
    have Of := out_fields _ _ _ _ _ _ Bs Bd.
    have Rf b : List.In b bs -> room_of ni (bd_connected_space_id b) = Z.to_nat (bd_connected_space_id b) /\ (0 <= bd_connected_space_id b)%Z.
      case/(In_nth_error bs) => j J; have [Z1 Z2] := col_room _ _ _ _ _ (Cols _ _ J).
      by rewrite /room_of; case: (Z.ltb_spec (bd_connected_space_id b) 0) => //; lia.
    by move=> i _; rewrite Cc Ca (surfaces_read _ _ _ i Rf Of); exact: solver.
  have := ShapeFactorL.bounds_spec _ _ _ _ Apos Sv; apply: Forall_impl => x [L _]; apply: Rlt_le_trans L.
  by rewrite /ViewFactor.black; nra.
have Mrt i : (i < ni)%coq_nat -> HouseSpec.adds_up_to (List.map bd_f_mrt_hum (HouseSpec.of_room (Z.of_nat i) bs)) 1%coqR.
  by rewrite /ni Ls => L; apply: (mrt_room _ _ _ _ _ _ _ Bs Bd Sb Fl); lia.
have [h [Eh [Sh [Pb [Pr [Ph [Pv [Ph1 [Pc1 [Be [Fl0 [Rc [Rh [Pa Cn]]]]]]]]]]]]]] :=
  assemble_ok (fun i L => let: ex_intro2 _ _ R := Rooms i L in R) Cols Cc Ca Ch Hlen Hpos Mrt.
rewrite Eh; cbn [bind]; exists h; eexists; split; first reflexivity.
do 3 (split=> //).
move=> e0 x_sat x0 weather d_main d_run_up d_build s c p Lw Eb [D1 D2] [D3 D4] D5.
have [data Dt] := steps_total ni (List.length bs) Hm Lw; exists data; split=> //.
rewrite Eb in Bu; have [Ks Kp] := building_known Bu.
have N0 : (0 < ni)%coq_nat.
  case: V => _ [_ [C _]]; rewrite /ni Ls -(map_length r_room_type) Ht map_length.
  by case: (types) C => //= *; lia.
have v0 i : 0 <= v_room h i 0 by apply: ltW; exact: ph_room Pr _.
have t0 : 0 < \sum_i v_room h i 0.
  have N0' : (0 < ni)%N by apply/ssrnat.ltP.
  by rewrite (bigD1 (Ordinal N0')) //= ltr_paddr ?(ph_room Pr) // sumr_ge0.
have [infil [I1 I2]] := @infil_fun_ex R_rcfType ni c (v_room h) s p t0 v0 Ks Kp.
exists infil; split=> //.
have Ld : List.length data = (365 * 96)%coq_nat.
  rewrite (proj1 (mapM_ok _ _ _ _ _ Dt)) combine_length seq_length Nat.min_id; exact: Lw.
have Air sd : List.In sd data -> physical_air h sd.
  case/(In_nth_error data) => n En i; have [q1 q2] := Pv i; split=> //; apply: addr_ge0 => //.
  case Ep: (nth_error (combine (List.seq 0 (List.length weather)) weather) n) => [[k w]|]; last first.
    have L : (n < List.length data)%coq_nat by apply/nth_error_Some; rewrite En.
    by move: (proj1 (nth_error_None _ _) Ep) L; rewrite (proj1 (mapM_ok _ _ _ _ _ Dt)); lia.
  have [y [Ey]] := proj2 (mapM_ok _ _ _ _ _ Dt) _ _ Ep; rewrite En => -[Esd]; rewrite -{y}Esd in Ey.
  have K : (k < 365 * 96)%coq_nat.
    have [_] := proj1 (in_seq _ _ _) (in_combine_l _ _ _ _ (nth_error_In _ _ Ep)); rewrite Nat.add_0_l Lw; exact: id.
  have [q [_ Ey1]] := bind_ok _ _ _ _ _ Ey; have [t [_ [<-]]] := bind_ok _ _ _ _ _ Ey1; rewrite mxE.
  case E1: (nth_error (Schedule.v_local (m_schedules m)) i) => [row|]; last first.
    have -> : List.nth i (Schedule.v_local (m_schedules m)) nil = nil by apply: nth_overflow; exact: proj1 (nth_error_None _ _) E1.
    by apply: ge0R; case: (k) => [|?]; exact: Rle_refl.
  rewrite (nth_some _ E1); case E2: (nth_error row k) => [x|]; last by rewrite nth_overflow; [apply: ge0R; exact: Rle_refl|exact: proj1 (nth_error_None _ _) E2].
  rewrite (nth_some _ E2); apply: ge0R.
  apply: (local_vent_ge0 _ _ _ _ _ _ i k x tables year_cal Sch).
  - by rewrite (proj1 (mapM_ok _ _ _ _ _ A)) (proj1 (mapM_ok _ _ _ _ _ Nm)).
  - by rewrite (proj1 (mapM_ok _ _ _ _ _ Nm)) -Ls; exact/ssrnat.ltP.
  - exact: K.
  - by exists row.
have Zd : Z.of_nat (size data) = (365 * 96)%Z by rewrite -[size data]/(List.length data) Ld Nat2Z.inj_mul.
apply: core_calc_total => //; rewrite ?Zd; [|lia|lia].
move=> sd _; case: heating => [Cv|[r One]].
    left=> i; rewrite Rc orbF Rh; have [r Er _] := Rooms _ (room_lt i).
    have Ir := nth_error_In _ _ Er; have [_ [_ [_ [_ [_ [_ [_ [[e [He _]] _]]]]]]]] := proj1 (Forall_forall _ _) Cr _ Ir.
    by have /(_ _ He (Cv _ _ _ Hr Ir He)) E := proj2 (Rows _ _ Er); rewrite (nth_some _ E).
  have Rm : rooms = r :: nil by move: One; rewrite Hr => -[].
  have Ir : List.In r rooms by rewrite Rm; left.
  have N1 : ni = 1%nat by rewrite /ni Ls Rm.
  have U (i k : 'I_ni) : i = k by apply: val_inj; case: i k => [[|i] Li] [[|k] Lk] //=; move: Li Lk; rewrite N1.
  have [_ [_ [_ [_ [_ [_ [_ [[e [He _]] _]]]]]]]] := proj1 (Forall_forall _ _) Cr r Ir.
  case: (string_dec (odflt ""%string (e_type e)) "radiative") => Te.
    right; split; last by exists (Ordinal (introT ssrnat.ltP N0)) => k /eqP[]; exact: U.
      constructor=> //.
        by move=> i; rewrite Be lexx ltr01.
      move=> i; have Er : nth_error rooms 0 = Some r by rewrite Rm.
      have Te1 : e_type e = Some "radiative"%string by case: (e_type e) Te => //= t ->.
      have [j [b [f [J [Jr [F Fp]]]]]] := flr_room _ _ _ _ _ _ _ Bs Bd Sb Fl _ _ _ Er He Te1.
      have Lj : (j < List.length bs)%N by apply/ssrnat.ltP/nth_error_Some; rewrite J.
      exists (Ordinal Lj); split.
      - by rewrite (Cn (Ordinal Lj) _ J) Jr; rewrite (U i (Ordinal (introT ssrnat.ltP N0))).
      - by have [E _] := Sh _ _ J (Ordinal Lj) erefl; move: E; rewrite F => -[<-]; exact: gt0R.
      - exact: Pa.
    by move=> i k /eqP[]; exact: U.
  left=> i; rewrite Rc orbF Rh.
  have Er : nth_error rooms i = Some r by rewrite (U i (Ordinal (introT ssrnat.ltP N0))) Rm.
  have Te' : e_type e <> Some "radiative"%string by move=> E; apply: Te; rewrite E.
  by have /(_ _ He Te') E := proj2 (Rows _ _ Er); rewrite (nth_some _ E).
Qed.
End Run.
