{
 "claims": [
  {
   "property": "C01",
   "status": "partial",
   "theorems": [
    "C01_visits",
    "C01_range",
    "C01_simulation",
    "C01_rejected",
    "C01_negative_run_up_refuted"
   ],
   "note": "Proved for n_step_hourly > 0, n_d_main >= 0 and 0 <= n_d_run_up_build <= n_d_run_up; the rejected inputs are characterised. Refuted for a negative building part of the run-up, which the code accepts."
  },
  {
   "property": "C02",
   "status": "partial",
   "theorems": [
    "C02_room_heat_balance_partial",
    "C02_room_heat_balance_as_coded",
    "C02_room_heat_balance_iff",
    "C02_room_heat_balance_refuted"
   ],
   "note": "Holds for rooms without air paths from other rooms; refuted otherwise: the code enters the inter-room air term with the opposite sign of the documented equation (sequence.py 128-129). The balance the code does satisfy is proved as well."
  },
  {
   "property": "C03",
   "status": "proved",
   "theorems": [
    "C03_operative_temperature"
   ],
   "note": ""
  },
  {
   "property": "C04",
   "status": "proved",
   "theorems": [
    "C04_furniture"
   ],
   "note": ""
  },
  {
   "property": "C05",
   "status": "partial",
   "theorems": [
    "C05_surface_response_partial",
    "C05_surface_response_refuted"
   ],
   "note": "Holds where the two sides of an inner wall have the same h_c, h_r and area; refuted otherwise: the rear-side terms use the front side's coefficients (pre_calc_parameters.py 491-509)."
  },
  {
   "property": "C06",
   "status": "proved",
   "theorems": [
    "C06_load",
    "C06_linear_balance"
   ],
   "note": ""
  },
  {
   "property": "C07",
   "status": "partial",
   "theorems": [
    "C07_radiant_capacity_partial",
    "C07_radiant_capacity_refuted",
    "C07_house_refuted"
   ],
   "note": "Holds when at most one room has radiant equipment; refuted for a time step of a house with floor heating in two rooms (only one correction pass)."
  },
  {
   "property": "C08",
   "status": "partial",
   "theorems": [
    "C08_load_sign_partial",
    "C08_load_sign_refuted",
    "C08_house_refuted"
   ],
   "note": "Holds for a room that is the only conditioned one in a step (no air paths between rooms); refuted for a time step of a house with two heated rooms."
  },
  {
   "property": "C09",
   "status": "proved",
   "theorems": [
    "C09_vapour_balance"
   ],
   "note": ""
  },
  {
   "property": "C10",
   "status": "partial",
   "theorems": [
    "C10_dehumidification_partial",
    "C10_no_cooling_no_latent",
    "C10_never_more_humid",
    "C10_air_paths_refuted"
   ],
   "note": "Proved for every room that receives no air from other rooms (latent load equals what the final humidity implies, never positive); for all houses: no latent load without cooling, and no room ends more humid than with the equipment off. Refuted for rooms that receive air from other rooms: for any saturation curve there is a two-room house in which the coil of a cooled room adds moisture, because the decision is taken room by room before the other rooms' dehumidification is known."
  },
  {
   "property": "C11",
   "status": "partial",
   "theorems": [
    "C11_equilibrium_partial",
    "C11_equilibrium_refuted"
   ],
   "note": "Proved for houses without air paths between rooms; refuted with an air path."
  },
  {
   "property": "C12",
   "status": "proved",
   "theorems": [
    "C12_solar_split"
   ],
   "note": ""
  },
  {
   "property": "C13",
   "status": "proved",
   "theorems": [
    "C13_mrt_weights"
   ],
   "note": ""
  },
  {
   "property": "C14",
   "status": "partial",
   "theorems": [
    "C14_equation",
    "C14_factors",
    "C14_bounds",
    "C14_own_partial",
    "C14_order_refuted"
   ],
   "note": "Existence, uniqueness, ranges and sums proved for all orders, given that fsolve returns a zero of its function. Own-boundary clause proved for boundaries listed room by room; refuted for other orders: get_h_r_js concatenates room by room and does not put the values back (shape_factor.py 27-30)."
  },
  {
   "property": "C15",
   "status": "proved",
   "theorems": [
    "C15_separate",
    "C15_steady",
    "C15_contraction",
    "C15_converges"
   ],
   "note": "Exact arithmetic. The damping condition is a hypothesis on the response factors; C30 covers what the response factor code guarantees."
  },
  {
   "property": "C16",
   "status": "proved",
   "theorems": [
    "C16_hand_over",
    "C16_calculation"
   ],
   "note": ""
  },
  {
   "property": "C17",
   "status": "partial",
   "theorems": [
    "C17_history_accepted",
    "C17_mode_meaning",
    "C17_transitions",
    "C17_illegal_mode",
    "C17_constant_conditions_partial",
    "C17_constant_room_partial",
    "C17_clothing_order",
    "C17_constant_conditions_refuted",
    "C17_step",
    "C17_run"
   ],
   "note": "All clauses proved except non-oscillation, which needs PMV(middle) != 0; at exactly 0 the mode oscillates for ever (refuted). For rooms the order of the PMV values is not a premise: it holds exactly up to the skin temperature (C17_clothing_order), and hotter rooms are cooled. C17_step and C17_run say that the modes of the rooms in a calculation are those of the automaton."
  },
  {
   "property": "C18",
   "status": "proved",
   "theorems": [
    "C18_target_realises_pmv",
    "C18_monotone",
    "C18_room_target",
    "C18_house"
   ],
   "note": "exp(-0.036 m) is an arbitrary non-negative number in the model."
  },
  {
   "property": "C19",
   "status": "proved",
   "theorems": [
    "C19_occupants"
   ],
   "note": ""
  },
  {
   "property": "C20",
   "status": "proved",
   "theorems": [
    "C20_bounds",
    "C20_volume",
    "C20_symmetric",
    "C20_monotone",
    "C20_value",
    "C20_accepts",
    "C20_calculation",
    "C20_step"
   ],
   "note": "Monotonicity in the C value and temperature difference for C >= 0. Exact real arithmetic with an exact square root. C20_step says that the steps of a calculation use it at the air temperatures of the rooms."
  },
  {
   "property": "C21",
   "status": "proved",
   "theorems": [
    "C21_value",
    "C21_integer",
    "C21_range",
    "C21_continuous",
    "C21_accepts"
   ],
   "note": ""
  },
  {
   "property": "C22",
   "status": "partial",
   "theorems": [
    "C22_places_partial",
    "C22_exchanged",
    "C22_cooking_refuted"
   ],
   "note": "Proved for rooms whose two cooking schedules coincide (in particular rooms without cooking); refuted otherwise: schedule_loader.py 93-111 exchanges the heat and the vapour schedule of cooking. What the code does compute is proved as C22_exchanged."
  },
  {
   "property": "C23",
   "status": "proved",
   "theorems": [
    "C23_range",
    "C23_monotone",
    "C23_accepted"
   ],
   "note": ""
  },
  {
   "property": "C24",
   "status": "proved",
   "theorems": [
    "C24_value",
    "C24_on_the_hour",
    "C24_envelope",
    "C24_intervals"
   ],
   "note": "The reading in make_weather of the weather file itself (pandas) and the rounding to 3 and 6 decimals are not modelled; the interpolation and the interval check are."
  },
  {
   "property": "C25",
   "status": "proved",
   "theorems": [
    "C25_direction",
    "C25_regions",
    "C25_places",
    "C25_accepts"
   ],
   "note": "Exact real arithmetic. The azimuth is undefined in the nadir as well as in the zenith (solar_position.py marks both); the property is read accordingly. Places strictly between the poles."
  },
  {
   "property": "C26",
   "status": "proved",
   "theorems": [
    "C26_parts",
    "C26_bounds",
    "C26_view",
    "C26_turned_away",
    "C26_horizontal",
    "C26_directions"
   ],
   "note": ""
  },
  {
   "property": "C27",
   "status": "partial",
   "theorems": [
    "C27_range",
    "C27_geometry",
    "C27_night",
    "C27_deeper",
    "C27_deeper_sky",
    "C27_sky",
    "C27_no_sunshade_refuted",
    "C27_no_sunshade_as_coded",
    "C27_create"
   ],
   "note": "Ranges, geometry, monotonicity and night proved. Refuted: a window without sunshade has the shading ratio 1 (solar_shading.py 233), so it transmits no direct sunlight at all."
  },
  {
   "property": "C28",
   "status": "partial",
   "theorems": [
    "C28_diffuse",
    "C28_parts",
    "C28_bounds",
    "C28_incident_partial",
    "C28_incident_refuted",
    "C28_dark",
    "C28_monotone",
    "C28_defined"
   ],
   "note": "Non-negative, zero without radiation, monotone: proved. Upper bound proved with the factor 1.003 and exactly for eta <= 0.997; refuted for eta = 1: the transmittance polynomial exceeds 1 near normal incidence."
  },
  {
   "property": "C29",
   "status": "proved",
   "theorems": [
    "C29_opaque",
    "C29_lower",
    "C29_monotone",
    "C29_transparent",
    "C29_no_sun",
    "C29_create"
   ],
   "note": "Exact real arithmetic."
  },
  {
   "property": "C30",
   "status": "proved",
   "theorems": [
    "C30_transfer",
    "C30_solutions",
    "C30_wall",
    "C30_ground",
    "C30_completes",
    "C30_best_fit",
    "C30_massless",
    "C30_steady_state",
    "C30_opening",
    "C30_create"
   ],
   "note": "Exact real arithmetic. np.linalg.inv is a parameter: the sums and ratios hold whatever it returns, completion and optimality of the fit hold if it inverts every matrix with trivial kernel; a Gauss elimination shows that such a function exists."
  },
  {
   "property": "C31",
   "status": "partial",
   "theorems": [
    "C31_outside_partial",
    "C31_off_by",
    "C31_inner",
    "C31_ground",
    "C31_own_coefficients",
    "C31_core",
    "C31_refuted"
   ],
   "note": "Rounding is an arbitrary function to the nearest tenth. Weights of external boundaries add up to 1 when the temperature difference coefficient is a whole number of tenths and within the rounding error otherwise; refuted for coefficients such as 0.05 and 0.15. Ground boundaries get no weights at all in the file and are driven by the ground temperature only in the ground run."
  },
  {
   "property": "C32",
   "status": "partial",
   "theorems": [
    "C32_entries",
    "C32_total",
    "C32_completes",
    "C32_rejects_partial",
    "C32_negative_refuted"
   ],
   "note": "Proved for upstream room numbers of the house. Refuted for negative numbers, which the code accepts (numpy index from the end)."
  },
  {
   "property": "C33",
   "status": "proved",
   "theorems": [
    "C33_accepted",
    "C33_only_valid",
    "C33_at_most_four",
    "C33_values",
    "C33_equipment"
   ],
   "note": "Floats as exact reals."
  },
  {
   "property": "C34",
   "status": "partial",
   "theorems": [
    "C34_readable_partial",
    "C34_rooms",
    "C34_cooling_refuted",
    "C34_boundaries",
    "C34_walls",
    "C34_kind",
    "C34_furniture",
    "C34_beta",
    "C34_matrices",
    "C34_radiative_cooling_refuted"
   ],
   "note": "Reading back is proved for rooms with convective cooling, the only kind the reader accepts: refuted for houses without convective cooling (KeyError in pre_calc_parameters.py 280-293). The JSON text itself is not modelled: what is written is taken as what is read. The written radiative cooling capacity is never found (C34_radiative_cooling_refuted)."
  },
  {
   "property": "C35",
   "status": "partial",
   "theorems": [
    "C35_view_factors_partial",
    "C35_no_floor",
    "C35_only_floor",
    "C35_radiant_partial",
    "C35_radiant_each",
    "C35_radiant_undefined",
    "C35_refuted"
   ],
   "note": "View factors proved for rooms with floor area and other area, radiant shares for rooms with floor area. Refuted otherwise: 0.55 without floor, 0.45 with floors only, undefined radiant shares without floor (also for rooms without radiant heating)."
  },
  {
   "property": "C36",
   "status": "partial",
   "theorems": [
    "C36_partition",
    "C36_area",
    "C36_common_boundary",
    "C36_similar_partial",
    "C36_order_partial",
    "C36_similar_refuted",
    "C36_order_refuted",
    "C36_same_neighbour"
   ],
   "note": "Partition and total area proved for all lists; similarity within groups and order proved when different coefficients differ by more than the tolerance, refuted otherwise (the tolerance is not transitive). The merging itself (integrate) ends with AttributeError in the code and is not modelled beyond the areas."
  },
  {
   "property": "C37",
   "status": "partial",
   "theorems": [
    "C37_split",
    "C37_sizes",
    "C37_nonneg_partial",
    "C37_nonneg_refuted",
    "C37_heat_loss",
    "C37_heatbridge_loss",
    "C37_heatbridge_gain",
    "C37_solar_gain",
    "C37_no_floor"
   ],
   "note": "Split, sizes, heat loss and solar gain proved for all parts. Non-negative shares hold when the occupied rooms fit into the house; nothing checks that, so the unconditional claim is refuted."
  },
  {
   "property": "C38",
   "status": "partial",
   "theorems": [
    "C38_floors_positive",
    "C38_walls_positive",
    "C38_underfloor_partial",
    "C38_floors_partial",
    "C38_walls",
    "C38_walls_two_rooms",
    "C38_underfloor_refuted",
    "C38_floors_refuted"
   ],
   "note": "Positivity, exact inner walls and exact inner floors proved; the floors need at least two rooms and an underfloor space not larger than the inner floor. Refuted without these conditions."
  },
  {
   "property": "C39",
   "status": "partial",
   "theorems": [
    "C39_ventilation",
    "C39_no_main_room",
    "C39_upstream_refuted"
   ],
   "note": "Ventilation shares, volumes and transfer to the non-occupant room proved; the named upstream rooms ('main', 'other') never exist, hence that part is refuted."
  },
  {
   "property": "C40",
   "status": "partial",
   "theorems": [
    "C40_total",
    "C40_geometry",
    "C40_foundation",
    "C40_openings",
    "C40_parts",
    "C40_sides",
    "C40_prescribed_partial",
    "C40_prescribed_refuted",
    "C40_nonneg_partial",
    "C40_nonneg_refuted"
   ],
   "note": "Acceptance, geometry, foundations, openings and parts proved for all model houses. A prescribed envelope area is met down to the smallest possible envelope (otherwise larger: refuted). Areas are nonnegative for detached houses of 11 to 1000 m2 with a tenth of openings and insulated floor; refuted in general (no openings: negative windows)."
  },
  {
   "property": "C41",
   "status": "partial",
   "theorems": [
    "C41_multipliers",
    "C41_monotone",
    "C41_met",
    "C41_values",
    "C41_uninsulated",
    "C41_standard",
    "C41_standard_refuted",
    "C41_total",
    "C41_detached",
    "C41_dwelling_refuted",
    "C41_attached_refuted",
    "C41_region_8_refuted",
    "C41_region",
    "C41_division_refuted"
   ],
   "note": "Recursion, monotonicity and attainment of UA proved; conversion is total for describable houses in regions 1-7. Refuted for dwellings with floors to other dwellings, for region 8 and for negative demand. Detached model houses of 11 to 1000 m2 are converted end to end (C41_detached); dwellings in apartment buildings are never converted (C41_dwelling_refuted)."
  },
  {
   "property": "C42",
   "status": "partial",
   "theorems": [
    "C42_means",
    "C42_between_partial",
    "C42_between_refuted",
    "C42_split"
   ],
   "note": "UA and eta_A are the stated means; UA lies between part values without earth floors, refuted with perimeters (loss without area)."
  },
  {
   "property": "C43",
   "status": "partial",
   "theorems": [
    "C43_u_value",
    "C43_correction",
    "C43_loss",
    "C43_accepted",
    "C43_rejected",
    "C43_nonneg_partial",
    "C43_nonneg_refuted"
   ],
   "note": "Proved: a U value becomes the boards of the structure with insulation between them and reproduces min(U, bare structure) plus the thermal bridge correction; layered structures keep their layers, scaled so that every part's U value grows by the correction and the total loss is area*(U+dU); which descriptions are rejected. Nonnegative resistances hold only while the corrected U value leaves room for the surface resistances (partial, with a steel wall as counterexample)."
  },
  {
   "property": "C44",
   "status": "partial",
   "theorems": [
    "C44_general_part_partial",
    "C44_window_partial",
    "C44_door_partial",
    "C44_earth_floor",
    "C44_heat_bridge",
    "C44_inner",
    "C44_layer",
    "C44_reread",
    "C44_lists",
    "C44_sunshade_refuted",
    "C44_lengths",
    "C44_directions"
   ],
   "note": "Earth floors, heat bridges, inner walls and floors, windows with default or simple sunshades, general parts and doors without detailed sunshades come back unchanged; exactly which parts do is stated as an equivalence. Whatever has once been read survives every further round trip. Refuted for sunshades given by lengths (KeyError) and for windows marked as having no sunshade (TypeError)."
  },
  {
   "property": "C45",
   "status": "partial",
   "theorems": [
    "C45_accepted_refuted",
    "C45_missing",
    "C45_general_part_partial",
    "C45_door_partial",
    "C45_window_partial"
   ],
   "note": "Refuted as stated: no dictionary written for a general part, window or door is accepted, since id, is_floor and h_c are missing (windows also write connected_id instead of connected_room_id and no eta_value). Proved: these entries are necessary; with just them added, acceptance is equivalent to an explicit condition (known direction, no detailed sunshade, for windows single glazing and a simple sunshade or none), and the initializer takes over the part's name, room, area, coefficients and layers."
  },
  {
   "property": "C46",
   "status": "partial",
   "theorems": [
    "C46_saturation_defined",
    "C46_saturation_positive",
    "C46_saturation_increasing",
    "C46_saturation_values",
    "C46_arrays_agree",
    "C46_humidity_ratio",
    "C46_vapour_pressure",
    "C46_inverse_partial",
    "C46_inverse_refuted",
    "C46_relative_humidity",
    "C46_saturated_air_refuted",
    "C46_pmv_vapour_pressure"
   ],
   "note": "Refuted: the two conversions are not inverse to each other (0.622 against 0.62198), so saturated air is logged with up to 100.0033 %. Proved with the exact factor between them; saturation pressure strictly increasing on the whole range including the change of formula at 0 degree C."
  },
  {
   "property": "C47",
   "status": "proved",
   "theorems": [
    "C47_range",
    "C47_least",
    "C47_even",
    "C47_increasing",
    "C47_returned"
   ],
   "note": "Real-number model of get_ppd."
  },
  {
   "property": "C48",
   "status": "partial",
   "theorems": [
    "C48_max_ge_rated",
    "C48_increasing",
    "C48_positive_partial",
    "C48_rated_heating_refuted",
    "C48_rated_below_minimum",
    "C48_air_flow",
    "C48_minimum_flow",
    "C48_turn_down"
   ],
   "note": "Refuted for rooms below 0.13 m2, whose rated heating capacity is negative; the exact condition is part of C48_positive_partial. The module is not used by the rest of the program."
  },
  {
   "property": "C49",
   "status": "proved",
   "theorems": [
    "C49_ends",
    "C49_linear",
    "C49_monotone",
    "C49_limits",
    "C49_sign",
    "C49_positive",
    "C49_used"
   ],
   "note": "Includes the exact load below which the calculated flow is not positive, and where the flow is used in the moisture balance."
  },
  {
   "property": "C50",
   "status": "partial",
   "theorems": [
    "C50_completes",
    "C50_negative_days",
    "C50_columns",
    "C50_detail_rooms",
    "C50_detail_modes",
    "C50_detail_boundaries",
    "C50_detail_outdoor",
    "C50_hourly_means",
    "C50_hourly_sums",
    "C50_hourly_outdoor",
    "C50_hourly_mode",
    "C50_dry_air_refuted",
    "C50_any_interval_partial",
    "C50_intervals_refuted"
   ],
   "note": "record of core/log.py with pandas columns as lists. For quarter-hour steps every digest row is the rounded mean (loads: sum of W, i.e. four times the energy) of the hour's four values, and no column overwrites another. Refuted: other intervals are still indexed in quarter hours, so rows show wrong hours; outdoor humidity is rounded to 0.01 kg/kg. CSV output is not modelled."
  },
  {
   "property": "C51",
   "status": "proved",
   "theorems": [
    "C51_step_completes",
    "C51_two_radiant_rooms_fail",
    "C51_calculation_completes"
   ],
   "note": "Steps in which no radiant equipment is asked for (any number of rooms, with or without air paths) and steps that condition one room with any equipment (no air paths between rooms); whole calculations over such steps. A house with floor heating in two rooms, both asked for, stops on a singular matrix."
  },
  {
   "property": "C52",
   "status": "proved",
   "theorems": [
    "C52_multiple",
    "C52_error",
    "C52_half",
    "C52_odd",
    "C52_monotone",
    "C52_fixed"
   ],
   "note": "Numbers are exact reals; binary representation errors of decimal numbers are outside the model."
  },
  {
   "property": "C53",
   "status": "proved",
   "theorems": [
    "C53_monotone"
   ],
   "note": ""
  },
  {
   "property": "C54",
   "status": "proved",
   "theorems": [
    "C54_first_law",
    "C54_radiant_exchange"
   ],
   "note": ""
  },
  {
   "property": "C55",
   "status": "partial",
   "theorems": [
    "C55_repeat_partial",
    "C55_repeat_as_coded",
    "C55_repeat_refuted"
   ],
   "note": "Holds for openings and given factors. Refuted for walls and floors: every call appends the outside resistance (or 3 m of earth) to the lists of the object once more, so a second call describes a wall that is thicker by that layer."
  },
  {
   "property": "C56",
   "status": "partial",
   "theorems": [
    "C56_conserved_partial",
    "C56_each_room",
    "C56_lost_refuted"
   ],
   "note": "Proved when every boundary belongs to a room of the house; refuted otherwise: boundaries of unknown rooms are dropped without an error."
  },
  {
   "property": "C57",
   "status": "proved",
   "theorems": [
    "C57_complete"
   ],
   "note": "Which descriptions are complete is stated in Spec/CompleteSpec.v. Exact real arithmetic; weather and schedules as parsed lists of the right length."
  },
  {
   "property": "C58",
   "status": "proved",
   "theorems": [
    "C58_eta_met",
    "C58_sun"
   ],
   "note": "Proved for non-negative houses without shades on opaque parts."
  },
  {
   "property": "C59",
   "status": "proved",
   "theorems": [
    "C59_clothing_temperature",
    "C59_pmv_increasing",
    "C59_standard",
    "C59_velocity",
    "C59_differential",
    "C59_same_pressure",
    "C59_media"
   ],
   "note": "scipy.optimize.newton is a parameter assumed to return an exact zero not below -273; its convergence is not modelled."
  },
  {
   "property": "C60",
   "status": "partial",
   "theorems": [
    "C60_rooms",
    "C60_surfaces",
    "C60_all_steps",
    "C60_total_refuted"
   ],
   "note": "Proved for whole runs: room heat (rooms receiving no air from other rooms, see C02), vapour, furniture, radiant exchange, sun, surface totals times area. Refuted: the recorded total qiall_s is W/m2 while its parts are W (sequence.py 268, log.py 127-149)."
  },
  {
   "property": "C61",
   "status": "proved",
   "theorems": [
    "C61_same_pmv",
    "C61_clothing_temperature",
    "C61_increasing",
    "C61_target",
    "C61_transfer",
    "C61_constant",
    "C61_methods"
   ],
   "note": "Solvers are parameters assumed to return exact zeros not below -273 degree C. Stated over Coq's reals, which Model/RealNumbers.v makes an instance of the field the core model is written over (adds the standard library's epsilon axiom)."
  },
  {
   "property": "C62",
   "status": "proved",
   "theorems": [
    "C62_steady",
    "C62_stays",
    "C62_unique",
    "C62_exists",
    "C62_textbook"
   ],
   "note": "Airflow between rooms is excluded because the code's heat balance is wrong there (C02). Walls: transmission factors add up to one and both faces of an inner wall are alike; C30 derives the first for walls given by resistances. Convergence towards the steady state is not claimed."
  },
  {
   "property": "C63",
   "status": "proved",
   "theorems": [
    "C63_factor",
    "C63_deeper",
    "C63_faces"
   ],
   "note": "Only simple overhangs: for detailed shades the code cannot compute a factor (TypeError), see DESIGN.md."
  },
  {
   "property": "C64",
   "status": "proved",
   "theorems": [
    "C64_reordered",
    "C64_step",
    "C64_leakage",
    "C64_symmetric"
   ],
   "note": "For exact arithmetic: floating-point sums taken in another order can differ in their last digits. Ids are assumed to be renumbered together with the lists."
  },
  {
   "property": "C65",
   "status": "proved",
   "theorems": [
    "C65_accepts",
    "C65_rows",
    "C65_length",
    "C65_exact",
    "C65_nonneg"
   ],
   "note": "Files are lists of numeric lines; reading and writing CSV text is not modelled. That the eight supplied files have 8760 lines, one decimal and no negative radiation is a premise (true of the files at this commit)."
  },
  {
   "property": "C66",
   "status": "partial",
   "theorems": [
    "C66_rooms",
    "C66_inner",
    "C66_sunshade_refuted",
    "C66_chain_partial",
    "C66_last_refuted",
    "C66_name_refuted"
   ],
   "note": "Proved for the first three conversions on detached houses of usual size. Refuted: a sunshade given by its lengths is accepted by one conversion and refused by the next; the last conversion returns for no input because it reads an undefined name."
  },
  {
   "property": "C67",
   "status": "partial",
   "theorems": [
    "C67_table",
    "C67_rejected",
    "C67_space_refuted",
    "C67_largest",
    "C67_layers_partial",
    "C67_layers_refuted"
   ],
   "note": "Table, rejected combinations and agreement with the table of largest U values proved. Refuted: unknown adjacent spaces are accepted; the layers written for a U value assume a fixed place, e.g. 0.15 instead of 0.04 below a floor over the open air. C67_layers_partial says exactly where they agree."
  },
  {
   "property": "C68",
   "status": "partial",
   "theorems": [
    "C68_share",
    "C68_accepts",
    "C68_shades",
    "C68_panes",
    "C68_frames",
    "C68_single",
    "C68_given_single",
    "C68_double",
    "C68_given_partial",
    "C68_given_refuted",
    "C68_rejected"
   ],
   "note": "Proved for windows given by specification. Refuted for gains given as numbers: two gains of 0.9 make 1.19; C68_given_partial states a sufficient condition."
  },
  {
   "property": "C69",
   "status": "partial",
   "theorems": [
    "C69_angles",
    "C69_factor",
    "C69_outdoor",
    "C69_space",
    "C69_region",
    "C69_side",
    "C69_open_space_refuted"
   ],
   "note": "Proved for the directions and spaces the converter knows. Refuted: it has no name for a space open to the outside."
  },
  {
   "property": "C70",
   "status": "proved",
   "theorems": [
    "C70_value",
    "C70_order",
    "C70_frame",
    "C70_infiltration",
    "C70_structures"
   ],
   "note": "Proved."
  },
  {
   "property": "C71",
   "status": "proved",
   "theorems": [
    "C71_runs",
    "C71_matrices",
    "C71_carries",
    "C71_steps"
   ],
   "note": "Proved. Assumed of the library calls: fsolve finds a zero for every room; the least squares fit gives layered walls a positive first response and a first transmission between 0 and 1 (windows and doors need nothing). Two rooms with radiant heating are excluded because the step may then be singular (C51)."
  },
  {
   "property": "C72",
   "status": "partial",
   "theorems": [
    "C72_not_drier",
    "C72_run_not_drier",
    "C72_no_source_partial",
    "C72_run_no_source_partial",
    "C72_air_paths",
    "C72_no_source_refuted",
    "C72_grows_refuted",
    "C72_forgets"
   ],
   "note": "Lower bound proved for all houses, upper bound for rooms that receive no air from other rooms. With air paths the upper bound is false in every house (C72_air_paths): the vapour arriving from other rooms is counted, the vapour leaving with the air displaced is not. In a house of two rooms it grows without bound (C72_grows_refuted)."
  },
  {
   "property": "C73",
   "status": "partial",
   "theorems": [
    "C73_runaway_refuted",
    "C73_air_paths_refuted",
    "C73_step_partial",
    "C73_measure",
    "C73_run_partial",
    "C73_free_partial",
    "C73_forgotten_partial",
    "C73_walls"
   ],
   "note": "Proved for houses without boundaries facing another room and without air paths, for any common operation (C73_run_partial) and without assumptions on the operation when nobody heats or cools and infiltration does not depend on the room temperatures (C73_free_partial, C73_forgotten_partial). The walls of the response factor fit leak if the fitted answer rises (C73_walls). Missing: inner walls, equipment that reacts to the state. With air paths between rooms it is false: a house of two rooms runs away (C73_runaway_refuted, C73_air_paths_refuted)."
  },
  {
   "property": "C74",
   "status": "partial",
   "theorems": [
    "C74_exists",
    "C74_unique",
    "C74_run_partial",
    "C74_settles_partial"
   ],
   "note": "C74_exists and C74_unique hold with inner walls and people, for infiltration that does not depend on room temperatures. The approach (C74_run_partial, C74_settles_partial) is proved for leaky houses without inner walls and air paths, with people; missing: inner walls, air paths, infiltration that depends on room temperatures, equipment at work."
  },
  {
   "property": "C75",
   "status": "partial",
   "theorems": [
    "C75_step_partial",
    "C75_run_partial",
    "C75_heat",
    "C75_operated_partial",
    "C75_free_partial",
    "C75_exists",
    "C75_settles_partial",
    "C75_limit_partial",
    "C75_air_paths",
    "C75_air_paths_refuted"
   ],
   "note": "One step and runs with air paths smaller than the outdoor air, coils idle or doing the same in rooms without air from other rooms (C75_step_partial, C75_run_partial), heated and cooled houses with equal targets (C75_heat, C75_operated_partial), unattended leaky houses with people (C75_free_partial), the humidity at rest (C75_exists, C75_settles_partial, C75_limit_partial). Missing: coils at work in rooms that get air from other rooms, targets that differ with the humidity. False where rooms get at least as much air from rooms as from outside (C75_air_paths, C75_air_paths_refuted), because the moisture balance counts the air that arrives and not the air that leaves."
  },
  {
   "property": "C76",
   "status": "partial",
   "theorems": [
    "C76_replaces",
    "C76_less_partial",
    "C76_rooms_refuted",
    "C76_air_paths_refuted"
   ],
   "note": "Proved: C76_replaces for any house; C76_less_partial for one conditioned room without air paths. Missing, because false: several conditioned rooms (C76_rooms_refuted: a room that asks for part of its heating only gets a higher target when its neighbour gets heat) and air paths between rooms (C76_air_paths_refuted: the exchange term enters the heat balance with the wrong sign)."
  },
  {
   "property": "C77",
   "status": "proved",
   "theorems": [
    "C77_light",
    "C77_unique",
    "C77_conserved",
    "C77_shares",
    "C77_pane_inside",
    "C77_pane_outside",
    "C77_turned",
    "C77_both_ways",
    "C77_numbers",
    "C77_no_pane"
   ],
   "note": "Proved for all stacks of panes; the specification is the balance of light in the gaps between the panes, whose solution is shown to exist and to be unique. A pane outside lets no more sun in when the panes transmit alike both ways."
  },
  {
   "property": "C78",
   "status": "partial",
   "theorems": [
    "C78_u_value",
    "C78_resistances",
    "C78_resistances_calc",
    "C78_heat_in",
    "C78_temperatures",
    "C78_balance",
    "C78_share",
    "C78_shgc",
    "C78_sun",
    "C78_coating",
    "C78_more_panes",
    "C78_emissivity",
    "C78_emissivity_table",
    "C78_gas",
    "C78_table",
    "C78_mixture",
    "C78_gap",
    "C78_convection",
    "C78_fill",
    "C78_at_10",
    "C78_counts",
    "C78_inside_refuted",
    "C78_inside_partial"
   ],
   "note": "Proved: balance, U value, every single resistance against the formulas of the standard (Spec/GlassResist.v), coatings, panes, solar heat gain, gases, emissivities. The root finder of scipy is not modelled: the theorems are about every root, and one exists and is unique for fixed resistances. Missing, because false: with JIS_A2103 the inside surface takes the emissivity of the outermost pane (C78_inside_refuted); it holds with JIS_R3107 (C78_inside_partial)."
  }
 ]
}