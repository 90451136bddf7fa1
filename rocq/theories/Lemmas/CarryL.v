(* the core holds what the files say *)
From Coq Require Import Reals ZArith List String Lia.
From mathcomp Require Import all_ssreflect ssralg ssrnum zmodp matrix.
From Verif Require Import Model.Py Model.RealNumbers Model.PreCalc Model.Assemble Spec.AssembleSpec Lemmas.PyL Lemmas.AssembleL.
From Verif Require Model.HouseDict Model.ReadHouse Model.ResponseFactor Model.ShapeFactor Model.Initializer Model.Schedule Model.BoundaryDict Lemmas.VentL Lemmas.CoreLoopL.
Set Implicit Arguments. Unset Strict Implicit. Unset Printing Implicit Defensive.
Import HouseDict ReadHouse Initializer PreCalc.
Local Open Scope ring_scope.

Lemma some_at A (l : list A) n (i : 'I_n) : List.length l = n -> exists x, nth_error l i = Some x.
Proof.
by move=> L; case E: (nth_error l i) => [x|]; [exists x|move: (proj1 (nth_error_None _ _) E); move/ssrnat.leP; rewrite L leqNgt ltn_ord].
Qed.

Lemma bindP A B (a : res A) (f : A -> res B) b : bind a f = Ok b -> exists x, a = Ok x /\ f x = Ok b.
Proof. exact: bind_ok. Qed.
Lemma key_ok A (x : option A) y : BoundaryDict.key x = Ok y -> x = Some y. Proof. by case: x => //= z [->]. Qed.
Lemma number_ok x y : number x = Ok y -> x = Some y. Proof. by case: x => //= z [->]. Qed.

Lemma col_map n A (f : A -> R) (l : list A) (i : 'I_n) x : nth_error l i = Some x -> col n (List.map f l) i 0 = f x.
Proof. by move=> E; apply: colE; rewrite nth_error_map E. Qed.

Lemma col_mapM n A (f : A -> res R) (l : list A) r (i : 'I_n) x : mapM f l = Ok r -> nth_error l i = Some x -> f x = Ok (col n r i 0).
Proof. by move=> M E; have [y [Y Ny]] := proj2 (mapM_ok _ _ _ _ _ M) _ _ E; rewrite (colE Ny). Qed.

Lemma flag_ok yes no x f : read_flag yes no x = Ok f -> x = if f then yes else no.
Proof. by rewrite /read_flag; case: String.eqb_spec => [-> [<-]|_] //; case: String.eqb_spec => [-> [<-]|_]. Qed.

Section Input.
Variables (f_ver : list R -> R) (inv : list (list R) -> res (list (list R))) (m : mid_data).
Notation ni := (List.length (m_spaces m)).
Notation nj := (List.length (m_boundaries m)).
Variables (h : house real ni nj 12) (g : pred 'I_nj).
Hypothesis made : core_input f_ver inv m = Ok (h, g).

Lemma rooms_held (i : 'I_ni) s : nth_error (m_spaces m) i = Some s -> holds_room h s i.
Proof.
move=> E; have [cr [Rs H1]] := bindP made; have [cb [_ H2]] := bindP H1; have [h' [A [Eh _]]] := bindP H2.
rewrite -{}Eh {H1 H2}.
have [rh [Mh H1]] := bindP Rs; have [rc [Mc H2]] := bindP H1; have [q1 [M1 H3]] := bindP H2; have [q2 [M2 H4]] := bindP H3.
have [v1 [M3 H5]] := bindP H4; have [v2 [M4 [Ecr]]] := bindP H5; rewrite -{}Ecr in A => {Rs H1 H2 H3 H4 H5}.
have [fl [_ H1]] := bindP A; have [fm [_ [<-]]] := bindP H1 => {A H1}.
have [[b x] [Hh Nh]] := proj2 (mapM_ok _ _ _ _ _ Mh) _ _ E.
have [[b' x'] [Hc Nc]] := proj2 (mapM_ok _ _ _ _ _ Mc) _ _ E.
have nb : List.nth i (List.map fst rh) false = b by apply: nth_some; rewrite nth_error_map Nh.
have nc : List.nth i (List.map fst rc) false = b' by apply: nth_some; rewrite nth_error_map Nc.
have nx : col ni (List.map snd rh) i 0 = x by apply: colE; rewrite nth_error_map Nh.
constructor; cbn [v_room PreCalc.beta v_vent_ex v_int v_ntrl c_sh g_sh c_lh g_lh is_rad_h cap_h is_rad_c q_min q_max v_min v_max
  cr_volume cr_beta cr_v_vent_ex cr_v_int_vent cr_v_ntrl cr_c_sh cr_g_sh cr_c_lh cr_g_lh cr_is_radiative_heating cr_lr_h_max
  cr_is_radiative_cooling cr_q_min cr_q_max cr_v_min cr_v_max].
- exact: col_map E.
- exact: col_map E.
- exact: col_map E.
- by move=> k y Y; rewrite mxE (@nth_some _ _ i (sp_next_spaces s)) ?nth_error_map ?E // (nth_some _ Y).
- exact: col_map E.
- by rewrite !(col_map _ E).
- by rewrite nb; move: Hh; rewrite /radiative_heating; case: ro_installed => [|[<-]] // K; have [y [_ [<-]]] := bindP K.
- rewrite nb nx; move: Hh; rewrite /radiative_heating; case: ro_installed => [|[<- <-]] //.
  by move=> K; have [y [Y [<- <-]]] := bindP K; rewrite (key_ok Y).
- by rewrite nc; move: Hc; rewrite /radiative_cooling; case: ro_installed => [|[<-]] // K; have [y [_ [<-]]] := bindP K.
- by rewrite /= (key_ok (col_mapM M1 E)) (key_ok (col_mapM M2 E)) (key_ok (col_mapM M3 E)) (key_ok (col_mapM M4 E)).
Qed.

Lemma boundaries_held (j : 'I_nj) b : nth_error (m_boundaries m) j = Some b ->
  holds_boundary h g b j /\
  (exists f rf f', ResponseFactor.create_factory (bd_spec b) = Ok f /\ ResponseFactor.get_response_factors inv f = Ok (rf, f') /\ holds_response h rf j) /\
  h_r h j 0 = List.nth j (ShapeFactor.h_r_js f_ver ni (List.map (fun b => room_of ni (bd_connected_space_id b)) (m_boundaries m))
                            (List.map bd_area (m_boundaries m))) R0.
Proof.
move=> E; have [cr [_ H1]] := bindP made; have [cb [Rb H2]] := bindP H1; have [h' [A [Eh Eg]]] := bindP H2.
rewrite -{}Eh -{}Eg {H1 H2}.
have [gr [Mg H1]] := bindP Rb; have [rfs [Mr H2]] := bindP H1; have [ab [Ma H3]] := bindP H2; have [k_ei [_ [Ecb]]] := bindP H3.
rewrite -{}Ecb in A * => {Rb H1 H2 H3}.
have [fl [Mf H1]] := bindP A; have [fm [Mm [<-]]] := bindP H1 => {A H1}.
have [gb [Hg Ng]] := proj2 (mapM_ok _ _ _ _ _ Mg) _ _ E.
have [abb [Ha Na]] := proj2 (mapM_ok _ _ _ _ _ Ma) _ _ E.
have [[rf f'] [Hr Nr]] := proj2 (mapM_ok _ _ _ _ _ Mr) _ _ E.
have nr : List.nth j (List.map fst rfs) no_response = rf by apply: nth_some; rewrite nth_error_map Nr.
cbn [cb_response cb_connected cb_area cb_h_c cb_is_solar_abs cb_k_eo cb_is_ground].
split; last split.
- constructor; cbn [conn a_srf h_c flr is_solar_abs f_mrt_hum PreCalc.k_eo PreCalc.k_ei].
  + by rewrite (nth_some _ Ng); exact: flag_ok Hg.
  + move=> P; rewrite (@nth_some _ _ j (bd_connected_space_id b)) ?nth_error_map ?E // /room_of.
    by case: (Z.ltb_spec (bd_connected_space_id b) 0) => L; lia.
  + exact: col_map E.
  + exact: col_map E.
  + exact: number_ok (col_mapM Mf E).
  + by rewrite (nth_some _ Na); exact: flag_ok Ha.
  + exact: number_ok (col_mapM Mm E).
  + exact: col_map E.
  + move=> k c K Kc; rewrite /rear_of E /= Kc VentL.py_index_in //.
    have L : (Z.to_nat k < nj)%N by apply/ssrnat.ltP; lia.
    by rewrite (insubT (fun m => m < nj)%N L) /=; eexists; split; [reflexivity|rewrite /= Z2Nat.id //; lia].
  + by move=> K; rewrite /rear_of E /= K.
- have [f [F1 F2]] := bindP Hr; exists f, rf, f'; split=> //; split=> //.
  split; first by rewrite mxE nr. split; first by rewrite mxE nr.
  by move=> k x; do 2 (split; first by move=> X; rewrite mxE nr (nth_some _ X)); move=> X; rewrite mxE nr (nth_some _ X).
- by cbn [PreCalc.h_r]; rewrite mxE List.map_map.
Qed.
End Input.

Lemma nth_combine A B (l : list A) (r : list B) n a b : nth_error l n = Some a -> nth_error r n = Some b -> nth_error (combine l r) n = Some (a, b).
Proof. by elim: l r n => [|x l IH] [|y r] [|n] //=; [move=> [->] [->]|exact: IH]. Qed.

Lemma steps_held ni nj m weather data : steps_of ni nj m weather = Ok data ->
  List.length data = List.length weather /\
  forall n w, nth_error weather n = Some w -> exists s, nth_error data n = Some s /\
    holds_step (m_schedules m) (m_q_trs_sol m) (m_theta_o_sol m) n w s.
Proof.
move=> M; have [L P] := mapM_ok _ _ _ _ _ M.
split; first by rewrite L combine_length seq_length Nat.min_id.
move=> n w W.
have Ln : (n < List.length weather)%coq_nat by apply/nth_error_Some; rewrite W.
have C : nth_error (combine (List.seq 0 (List.length weather)) weather) n = Some (n, w).
  by apply: nth_combine => //; rewrite (nth_error_nth' _ 0%N) ?seq_length // seq_nth.
have [s [S Ns]] := P _ _ C; exists s; split=> //.
have [q [Mq H1]] := bindP S; have [t [Mt [<-]]] := bindP H1 => {S H1}.
have num rows r k x : numbers rows n = Ok r -> (k < List.length rows)%coq_nat -> nth_error r k = Some x -> at_step rows n k (Some x).
  move=> N Lk X; case R: (nth_error rows k) => [row|]; last by move: (proj1 (nth_error_None _ _) R); lia.
  have [y [Y Ny]] := proj2 (mapM_ok _ _ _ _ _ N) _ _ R; move: X; rewrite Ny => -[<-]; exists row; split=> //.
  by have [z [Z /number_ok Y2]] := bindP Y; move: Z; rewrite Y2; case: (nth_error row n) => //= u [->].
have colnum n' rows r (k : 'I_n') : numbers rows n = Ok r -> (k < List.length rows)%coq_nat -> at_step rows n k (Some (col n' r k 0)).
  move=> N Lk; apply: (num _ r) => //; case X: (nth_error r k) => [x|]; first by rewrite (colE X).
  by move: (proj1 (nth_error_None _ _) X) Lk; rewrite (proj1 (mapM_ok _ _ _ _ _ N)); lia.
have colof (rows : list (list R)) (i : 'I_ni) x : at_step rows n i x -> col_of ni rows n i 0 = x.
  by case=> row [R X]; rewrite mxE (nth_some _ R) (nth_some _ X).
constructor=> //=; try exact: colof.
- by move=> i Li; exact: colnum.
- by move=> j Lj; exact: colnum.
Qed.
