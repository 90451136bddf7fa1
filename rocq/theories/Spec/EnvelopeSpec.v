(* Vocabulary for the properties of the converter. *)
From Coq Require Import Reals List ZArith String.
From Verif Require Import Model.Py Model.FactorH Model.FactorNu Model.FactorF Model.EesHouse Model.Lv3.
Import ListNotations.
Local Open Scope R_scope.

Definition sum (l : list R) : R := fold_right Rplus 0 l.

(* main, other and non-occupant rooms in the order in which the shares are listed *)
Definition rooms : list space_type := [MAIN; OTHER; NON].

(* the part of the floor area that belongs to a room *)
Definition floor_share (a_mr a_or a_total : R) (s : space_type) : R :=
  match s with MAIN => a_mr / a_total | OTHER => a_or / a_total | NON => (a_total - a_mr - a_or) / a_total | _ => 0 end.

Definition same_place (e e' : envelope) : Prop := e_next_space e' = e_next_space e /\ e_direction e' = e_direction e.

(* g' is the share of g for room s: only name, area and room differ *)
Definition gp_share (k : R) (s : space_type) (g g' : general_part) : Prop :=
  gp_area g' = k * gp_area g /\ e_space_type (gp_env (gp_ns g')) = s /\ same_place (gp_env (gp_ns g)) (gp_env (gp_ns g')) /\
  gp_kind (gp_ns g') = gp_kind (gp_ns g) /\ gp_shade (gp_ns g') = gp_shade (gp_ns g) /\ gp_spec_of g' = gp_spec_of g.
Definition w_share (k : R) (s : space_type) (w w' : window) : Prop :=
  w_area w' = k * w_area w /\ e_space_type (w_env (w_ns w')) = s /\ same_place (w_env (w_ns w)) (w_env (w_ns w')) /\
  w_shade (w_ns w') = w_shade (w_ns w) /\ w_spec w' = w_spec w.
Definition d_share (k : R) (s : space_type) (d d' : door) : Prop :=
  d_area d' = k * d_area d /\ e_space_type (d_env (d_ns d')) = s /\ same_place (d_env (d_ns d)) (d_env (d_ns d')) /\
  d_shade (d_ns d') = d_shade (d_ns d) /\ d_u d' = d_u d.
Definition hb_share (k : R) (s : space_type) (b b' : heatbridge) : Prop :=
  hb_length b' = k * hb_length b /\ hb_space_type b' = s /\ hb_next_spaces b' = hb_next_spaces b /\ hb_directions b' = hb_directions b /\
  hb_psi b' = hb_psi b.

(* every part is replaced by its shares for the three rooms, in order *)
Definition split_into {A} (share : R -> space_type -> A -> A -> Prop) (a_mr a_or a_total : R) (l l' : list A) : Prop :=
  List.length l' = (3 * List.length l)%nat /\
  forall i x k s, nth_error l i = Some x -> nth_error rooms k = Some s ->
  exists y, nth_error l' (3 * i + k) = Some y /\ share (floor_share a_mr a_or a_total s) s x y.

Definition underfloor_perimeter (p p' : perimeter) : Prop :=
  ep_name (ep_ns p') = ep_name (ep_ns p) /\ ep_next_space (ep_ns p') = ep_next_space (ep_ns p) /\ ep_length (ep_ns p') = ep_length (ep_ns p) /\
  ep_space_type (ep_ns p') = UNDERFLOOR /\ ep_psi p' = ep_psi p.
Definition underfloor_center (c c' : center) : Prop :=
  ec_name (ec_ns c') = ec_name (ec_ns c) /\ ec_area (ec_ns c') = ec_area (ec_ns c) /\ ec_space_type (ec_ns c') = "underfloor"%string /\
  ec_layers c' = ec_layers c.

Definition areas (p : parts) : list R :=
  map gp_area (ps_gps p) ++ map w_area (ps_ws p) ++ map d_area (ps_ds p) ++ map (fun c => ec_area (ec_ns c)) (ps_ecs p).
Definition lengths (p : parts) : list R := map hb_length (ps_hbs p) ++ map (fun e => ep_length (ep_ns e)) (ps_eps p).

(* Heat loss (W/K) of a part by its area or length, its U (psi) value and the temperature difference coefficient of the space behind it *)
Definition gp_loss (region : Z) (g : general_part) (q : R) : Prop :=
  exists u h, spec_u (gp_spec_of g) = Ok u /\ get_h (e_next_space (gp_env (gp_ns g))) region = Ok h /\ q = gp_area g * (u * h).
Definition w_loss (region : Z) (w : window) (q : R) : Prop :=
  exists h, get_h (e_next_space (w_env (w_ns w))) region = Ok h /\ q = w_area w * (ws_u (w_spec w) * h).
Definition d_loss (region : Z) (d : door) (q : R) : Prop :=
  exists h, get_h (e_next_space (d_env (d_ns d))) region = Ok h /\ q = d_area d * (d_u d * h).
Definition ep_loss (region : Z) (p : perimeter) (q : R) : Prop :=
  exists h, get_h (ep_next_space (ep_ns p)) region = Ok h /\ q = ep_length (ep_ns p) * (ep_psi p * h).

(* a heat bridge between several spaces: the mean of their coefficients *)
Definition hb_loss (region : Z) (b : heatbridge) (q : R) : Prop :=
  exists hs, Forall2 (fun n h => get_h n region = Ok h) (hb_next_spaces b) hs /\ hs <> [] /\
  q * INR (List.length hs) = hb_length b * hb_psi b * sum hs.

(* Solar gain (W per W/m2): only parts facing outdoor receive sun *)
Definition opaque_gain (region : Z) (s : season) (e : envelope) (shade : opaque_shade) (u m : R) : Prop :=
  (e_next_space e <> OUTDOOR /\ m = 0) \/
  (e_next_space e = OUTDOOR /\ exists nu f, get_nu (e_direction e) region s = Ok nu /\ get_f_sh shade = Ok f /\ m = e_area e * (34 / 1000 * u) * nu * f).
Definition gp_gain (region : Z) (s : season) (g : general_part) (m : R) : Prop :=
  exists u, (e_next_space (gp_env (gp_ns g)) = OUTDOOR -> spec_u (gp_spec_of g) = Ok u) /\
  opaque_gain region s (gp_env (gp_ns g)) (gp_shade (gp_ns g)) u m.
Definition d_gain (region : Z) (s : season) (d : door) (m : R) : Prop := opaque_gain region s (d_env (d_ns d)) (d_shade (d_ns d)) (d_u d) m.
Definition glass_gain (w : window_spec) (s : season) : R := match s with Heating => ws_eta_d_h w | Cooling => ws_eta_d_c w end.
Definition w_gain (region : Z) (s : season) (w : window) (m : R) : Prop :=
  exists f, get_f (w_shade (w_ns w)) region s (e_direction (w_env (w_ns w))) = Ok f /\
  ((e_next_space (w_env (w_ns w)) <> OUTDOOR /\ m = 0) \/
   (e_next_space (w_env (w_ns w)) = OUTDOOR /\ exists nu, get_nu (e_direction (w_env (w_ns w))) region s = Ok nu /\
    m = w_area w * glass_gain (w_spec w) s * f * nu)).

(* a heat bridge between several spaces: the mean over them, where only those facing outdoor receive sun *)
Definition hb_gain (region : Z) (s : season) (b : heatbridge) (m : R) : Prop :=
  exists nus, Forall2 (fun nd nu => exists d, Direction (snd nd) = Ok d /\
      ((fst nd = OUTDOOR /\ get_nu d region s = Ok nu) \/ (fst nd <> OUTDOOR /\ nu = 0))) (combine (hb_next_spaces b) (hb_directions b)) nus /\
  nus <> [] /\ m * INR (List.length nus) = hb_length b * (34 / 1000 * hb_psi b) * sum nus.

(* total heat loss and solar gain; heat bridges do not count *)
Definition house_loss (region : Z) (p : parts) (q : R) : Prop :=
  exists g w d e, Forall2 (gp_loss region) (ps_gps p) g /\ Forall2 (w_loss region) (ps_ws p) w /\ Forall2 (d_loss region) (ps_ds p) d /\
  Forall2 (ep_loss region) (ps_eps p) e /\ q = sum g + sum w + sum d + sum e.
Definition house_gain (region : Z) (s : season) (p : parts) (m : R) : Prop :=
  exists g w d, Forall2 (gp_gain region s) (ps_gps p) g /\ Forall2 (w_gain region s) (ps_ws p) w /\ Forall2 (d_gain region s) (ps_ds p) d /\
  m = sum g + sum w + sum d.

(* the U value times temperature difference coefficient of every part lies between lo and hi *)
Definition u_between (region : Z) (lo hi : R) (p : parts) : Prop :=
  (forall g u h, In g (ps_gps p) -> spec_u (gp_spec_of g) = Ok u -> get_h (e_next_space (gp_env (gp_ns g))) region = Ok h -> lo <= u * h <= hi) /\
  (forall w h, In w (ps_ws p) -> get_h (e_next_space (w_env (w_ns w))) region = Ok h -> lo <= ws_u (w_spec w) * h <= hi) /\
  (forall d h, In d (ps_ds p) -> get_h (e_next_space (d_env (d_ns d))) region = Ok h -> lo <= d_u d * h <= hi).
