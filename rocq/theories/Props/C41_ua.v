From Coq Require Import Reals ZArith List Permutation Lra Lia.
From Verif Require Import Model.Py Model.FactorNu Model.EesHouse Model.CheckUa Model.PartSpec Spec.EnvelopeSpec Spec.IndexSpec
  Lemmas.PartSpecL Lemmas.PartSpecGainL Lemmas.PartSpecTotalL Model.ModelHouse Lemmas.ModelHouseNonnegL Examples.IndexEx.
Import ListNotations.
Local Open Scope R_scope.

(* C41: for non-negative standard losses, maxima and demand the recursion ends, divides by no zero, and returns one multiplier for each part type.
   All multipliers are the same level, cut off at each part's maximum; the total loss is the demand, or the largest possible loss. *)
Theorem C41_multipliers : forall (q_std f_max : part_type -> R) q, (forall p, 0 <= q_std p) -> (forall p, 0 <= f_max p) -> 0 <= q ->
  exists d v, get_f_u_psi q_std f_max q = Ok d /\ 0 <= v /\ (forall p, entry p d = Ok (Rmin v (f_max p))) /\ Permutation (map fst d) part_types /\
    sum (map (fun p => q_std p * Rmin v (f_max p)) part_types) = Rmin q (sum (map (fun p => q_std p * f_max p) part_types)).
Proof. exact get_f_ok. Qed.
Print Assumptions C41_multipliers.

(* a larger demand never lowers the multiplier of a part that exists *)
Theorem C41_monotone : forall (q_std f_max : part_type -> R) q q' d d' p x x',
  (forall p, 0 <= q_std p) -> (forall p, 0 <= f_max p) -> 0 <= q <= q' ->
  get_f_u_psi q_std f_max q = Ok d -> get_f_u_psi q_std f_max q' = Ok d' -> 0 < q_std p -> entry p d = Ok x -> entry p d' = Ok x' -> x <= x'.
Proof. exact fill_mono. Qed.
Print Assumptions C41_monotone.

(* whole conversion: the parts keep their areas and the recalculated UA is the given one, or that of the house without any insulation if that is less *)
Theorem C41_met : forall region u_a eta_h eta_c h gps ws ds eps ecs, nonneg_house h -> 0 < house_area h -> 0 <= u_a ->
  spec_from_indices region u_a eta_h eta_c h = Ok (gps, ws, ds, eps, ecs) ->
  exists worst q, loss_with get_u_psi_max region h worst /\ total_q region gps ws ds eps = Ok q /\
  envelope_total_area gps ws ds ecs = house_area h /\ q / house_area h = Rmin u_a (worst / house_area h).
Proof.
intros region u_a eta_h eta_c h gps ws ds eps ecs NN A U OK.
assert (UA : 0 <= house_area h * u_a) by (apply Rmult_le_pos; lra).
destruct (result_loss _ _ _ _ _ _ _ _ _ _ NN UA OK) as (std & v & _ & _ & _ & _ & _ & _ & Q).
destruct (result_parts _ _ _ _ _ _ _ _ _ _ NN UA OK) as (_ & _ & _ & [RG _ _] & _).
exists (loss_amount get_u_psi_max region h); eexists; split; [apply loss_with_ok; [exact RG|reflexivity]|].
split; [exact Q|]; split; [apply (result_area _ _ _ _ _ _ _ _ _ _ NN UA OK)|].
assert (D : forall x y, x <= y -> x / house_area h <= y / house_area h).
{ intros x y L; apply Rmult_le_compat_r; [left; apply Rinv_0_lt_compat, A|exact L]. }
assert (E : u_a = house_area h * u_a / house_area h) by (field; lra); rewrite E at 2.
unfold Rmin; destruct (Rle_dec (house_area h * u_a) _) as [L|L], (Rle_dec (house_area h * u_a / house_area h) _) as [M|M]; try reflexivity.
- exfalso; apply M, D, L.
- apply Rle_antisym; [|exact M]; apply D; lra.
Qed.
Print Assumptions C41_met.

(* every U (psi) value lies between 0 and the value of the uninsulated part *)
Theorem C41_values : forall region u_a eta_h eta_c h gps ws ds eps ecs, nonneg_house h -> 0 <= house_area h * u_a ->
  spec_from_indices region u_a eta_h eta_c h = Ok (gps, ws, ds, eps, ecs) ->
  (forall g, In g gps -> exists u, spec_u (gp_spec_of g) = Ok u /\ 0 <= u <= get_u_psi_max (value_of (gp_kind (gp_ns g)))) /\
  (forall w, In w ws -> 0 <= ws_u (w_spec w) <= get_u_psi_max PWindow) /\ (forall d, In d ds -> 0 <= d_u d <= get_u_psi_max PDoor) /\
  (forall e, In e eps -> 0 <= ep_psi e <= get_u_psi_max PPerimeter).
Proof.
intros region u_a eta_h eta_c h gps ws ds eps ecs NN UA OK.
destruct (result_loss _ _ _ _ _ _ _ _ _ _ NN UA OK) as (std & v & ST & V & G & W & D & E & _).
destruct (result_parts _ _ _ _ _ _ _ _ _ _ NN UA OK) as (_ & _ & _ & [_ (std' & _ & ST' & SP & _) _] & _).
assert (B : forall p, 0 <= u_level std v p <= get_u_psi_max p).
{ intro p; assert (P : 0 < std p) by (specialize (ST p); rewrite ST' in ST; injection ST as <-; apply SP).
  rewrite u_level_min by exact P; assert (0 < get_u_psi_max p) by apply u_max_pos; assert (0 <= std p * v) by (apply Rmult_le_pos; lra).
  split; [unfold Rmin; destruct (Rle_dec _ _); lra|apply Rmin_r]. }
split; [intros g I; destruct (G g I) as (t & S0 & T); exists (u_level std v t); split; [exact S0|change (value_of (gp_kind (gp_ns g))) with (std_part_of_type (gp_kind (gp_ns g))); rewrite T; apply B]|].
split; [intros g I; rewrite (W g I); apply B|]; split; [intros g I; rewrite (D g I); apply B|intros g I; rewrite (E g I); apply B].
Qed.
Print Assumptions C41_values.

(* the uninsulated parts: the surface resistances and a board of plaster (9.5 mm) or, for floors, of plywood (12 mm);
   windows and doors as in region 8 *)
Theorem C41_uninsulated : let plaster := 95 / 10000 / (22 / 100) in let plywood := 12 / 1000 / (16 / 100) in
  1 / get_u_psi_max PRoof = 9 / 100 + plaster + 4 / 100 /\ 1 / get_u_psi_max PCeiling = 9 / 100 + plaster + 9 / 100 /\
  1 / get_u_psi_max PBoundaryCeiling = 9 / 100 + plaster + 9 / 100 /\ 1 / get_u_psi_max PWall = 11 / 100 + plaster + 4 / 100 /\
  1 / get_u_psi_max PBoundaryWall = 11 / 100 + plaster + 11 / 100 /\ 1 / get_u_psi_max PFloor = 15 / 100 + plywood + 4 / 100 /\
  1 / get_u_psi_max PBoundaryFloor = 15 / 100 + plywood + 15 / 100 /\
  get_u_psi_std 8 PWindow = Ok (get_u_psi_max PWindow) /\ get_u_psi_std 8 PDoor = Ok (get_u_psi_max PDoor) /\ get_u_psi_max PPerimeter = 100.
Proof. exact uninsulated_values. Qed.
Print Assumptions C41_uninsulated.

(* in regions 1 to 7 the standard value of every part is below that of the uninsulated part; in region 8 it is not *)
Theorem C41_standard : forall region p u, (1 <= region <= 7)%Z -> get_u_psi_std region p = Ok u -> 0 < u < get_u_psi_max p.
Proof. exact standard_below. Qed.
Print Assumptions C41_standard.

Theorem C41_standard_refuted : exists u v, get_u_psi_std 8 PBoundaryWall = Ok u /\ get_u_psi_max PBoundaryWall < u /\
  get_u_psi_std 8 PBoundaryFloor = Ok v /\ get_u_psi_max PBoundaryFloor < v.
Proof. exact standard_above. Qed.
Print Assumptions C41_standard_refuted.

(* describable houses in regions 1 to 7 are converted *)
Theorem C41_total : forall region u_a eta_h eta_c h, (1 <= region <= 7)%Z -> nonneg_house h -> describable h -> 0 <= house_area h * u_a ->
  exists r, spec_from_indices region u_a eta_h eta_c h = Ok r.
Proof. exact spec_total. Qed.
Print Assumptions C41_total.

(* from floor area, envelope area and U_A: a detached house of usual size in regions 1 to 7 is converted, has at least the given envelope area,
   and the recalculated UA is the given one or that of the same house without any insulation *)
Theorem C41_detached : forall region a env u_a eta_h eta_c, (1 <= region <= 7)%Z -> 11 <= a <= 1000 ->
  env <= 2 * (a / (177 / 100)) + 41 * sqrt (a / (177 / 100)) -> 0 <= u_a ->
  exists gps ws ds eps ecs area q worst, indices_to_lv2 Detached region a env u_a eta_h eta_c = Ok (gps, ws, ds, eps, ecs) /\
  envelope_total_area gps ws ds ecs = area /\ env <= area /\ total_q region gps ws ds eps = Ok q /\ q / area = Rmin u_a (worst / area) /\
  exists s h, calc_area Detached a (1 / 10) InsFloor InsBase (Some env) = Ok s /\ get_model_house_no_spec s = Ok h /\ loss_with get_u_psi_max region h worst.
Proof.
intros region a env u_a eta_h eta_c RG A M U; destruct (index_house a env A M) as (s & h & S0 & H & NN & DE & _ & HA & HP).
destruct (C41_total region u_a eta_h eta_c h RG NN DE) as (((((gps & ws) & ds) & eps) & ecs) & E); [apply Rmult_le_pos; lra|].
destruct (C41_met _ _ _ _ _ _ _ _ _ _ NN HP U E) as (worst & q & W & Q & AR & UA).
exists gps, ws, ds, eps, ecs, (house_area h), q, worst; unfold indices_to_lv2; rewrite S0; cbn [bind]; rewrite H; cbn [bind].
split; [exact E|]; split; [exact AR|]; split; [rewrite HA; apply Rmax_l|]; split; [exact Q|]; split; [exact UA|].
exists s, h; split; [reflexivity|split; [exact H|exact W]].
Qed.
Print Assumptions C41_detached.

(* dwellings in apartment houses are never converted *)
Theorem C41_dwelling_refuted : forall region a env u_a eta_h eta_c, exists e, indices_to_lv2 Attached region a env u_a eta_h eta_c = Err e.
Proof. exact attached_never. Qed.
Print Assumptions C41_dwelling_refuted.

(* dwellings with a floor to another dwelling, and all houses in region 8, are never converted *)
Theorem C41_attached_refuted : forall region u_a eta_h eta_c h g, In g (n_gps h) ->
  gp_kind g = UPWARD_BOUNDARY_FLOOR \/ gp_kind g = DOWNWARD_BOUNDARY_FLOOR -> exists e, spec_from_indices region u_a eta_h eta_c h = Err e.
Proof. exact attached_fails. Qed.
Print Assumptions C41_attached_refuted.

Theorem C41_region_8_refuted : forall u_a eta_h eta_c h, exists e, spec_from_indices 8 u_a eta_h eta_c h = Err e.
Proof. exact region_8_fails. Qed.
Print Assumptions C41_region_8_refuted.

Theorem C41_region : forall region u_a eta_h eta_c h, (region < 1 \/ 8 < region)%Z -> exists e, spec_from_indices region u_a eta_h eta_c h = Err e.
Proof. exact region_fails. Qed.
Print Assumptions C41_region.

(* "never divides by zero" fails for a negative demand when nothing loses heat *)
Theorem C41_division_refuted : exists q_std f_max q, (forall p : part_type, 0 <= q_std p) /\ (forall p : part_type, 0 <= f_max p) /\
  get_f_u_psi q_std f_max q = Err ZeroDivisionError.
Proof.
exists (fun _ => 0), (fun _ => 1), (-1); split; [intro; lra|]; split; [intro; lra|]; apply nothing_to_distribute; [intro; lra|lra].
Qed.
Print Assumptions C41_division_refuted.

Example C41_example : nonneg_house ex_house /\ house_area ex_house = 102 /\ describable ex_house /\
  (exists gps ws ds eps ecs, spec_from_indices 6 (87 / 100) (28 / 10) (14 / 10) ex_house = Ok (gps, ws, ds, eps, ecs)) /\
  (exists g, In g (n_gps ex_flat) /\ gp_kind g = DOWNWARD_BOUNDARY_FLOOR).
Proof.
split; [exact ex_house_nonneg|]; split; [exact ex_house_area|]; split; [exact ex_house_describable|]; split; [|eexists; split; [left; reflexivity|reflexivity]].
destruct (C41_total 6 (87 / 100) (28 / 10) (14 / 10) ex_house ltac:(lia) ex_house_nonneg ex_house_describable) as (((((gps & ws) & ds) & eps) & ecs) & E).
{ rewrite ex_house_area; lra. }
exists gps, ws, ds, eps, ecs; exact E.
Qed.
