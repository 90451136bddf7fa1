{
 "C02": {
  "note": "Holds for rooms without air paths from other rooms; refuted otherwise: the code enters the inter-room air term with the opposite sign of the documented equation (sequence.py 128-129). The balance the code does satisfy is proved as well."
 },
 "C05": {
  "note": "Holds where the two sides of an inner wall have the same h_c, h_r and area; refuted otherwise: the rear-side terms use the front side's coefficients (pre_calc_parameters.py 491-509)."
 },
 "C07": {
  "note": "Holds when at most one room has radiant equipment; refuted for a time step of a house with floor heating in two rooms (only one correction pass)."
 },
 "C08": {
  "note": "Holds for a room that is the only conditioned one in a step (no air paths between rooms); refuted for a time step of a house with two heated rooms."
 },
 "C10": {
  "note": "Proved for every room that receives no air from other rooms (latent load equals what the final humidity implies, never positive); for all houses: no latent load without cooling, and no room ends more humid than with the equipment off. Refuted for rooms that receive air from other rooms: for any saturation curve there is a two-room house in which the coil of a cooled room adds moisture, because the decision is taken room by room before the other rooms' dehumidification is known."
 },
 "C11": {
  "note": "Proved for houses without air paths between rooms; refuted with an air path."
 },
 "C17": {
  "note": "All clauses proved except non-oscillation, which needs PMV(middle) != 0; at exactly 0 the mode oscillates for ever (refuted). For rooms the order of the PMV values is not a premise: it holds exactly up to the skin temperature (C17_clothing_order), and hotter rooms are cooled. C17_step and C17_run say that the modes of the rooms in a calculation are those of the automaton."
 },
 "C51": {
  "note": "Steps in which no radiant equipment is asked for (any number of rooms, with or without air paths) and steps that condition one room with any equipment (no air paths between rooms); whole calculations over such steps. A house with floor heating in two rooms, both asked for, stops on a singular matrix."
 },
 "C18": {
  "note": "exp(-0.036 m) is an arbitrary non-negative number in the model."
 },
 "C01": {
  "note": "Proved for n_step_hourly > 0, n_d_main >= 0 and 0 <= n_d_run_up_build <= n_d_run_up; the rejected inputs are characterised. Refuted for a negative building part of the run-up, which the code accepts."
 },
 "C15": {
  "note": "Exact arithmetic. The damping condition is a hypothesis on the response factors; C30 covers what the response factor code guarantees."
 },
 "C14": {
  "note": "Existence, uniqueness, ranges and sums proved for all orders, given that fsolve returns a zero of its function. Own-boundary clause proved for boundaries listed room by room; refuted for other orders: get_h_r_js concatenates room by room and does not put the values back (shape_factor.py 27-30)."
 },
 "C20": {
  "note": "Monotonicity in the C value and temperature difference for C >= 0. Exact real arithmetic with an exact square root. C20_step says that the steps of a calculation use it at the air temperatures of the rooms."
 },
 "C22": {
  "note": "Proved for rooms whose two cooking schedules coincide (in particular rooms without cooking); refuted otherwise: schedule_loader.py 93-111 exchanges the heat and the vapour schedule of cooking. What the code does compute is proved as C22_exchanged."
 },
 "C24": {
  "note": "The reading in make_weather of the weather file itself (pandas) and the rounding to 3 and 6 decimals are not modelled; the interpolation and the interval check are."
 },
 "C25": {
  "note": "Exact real arithmetic. The azimuth is undefined in the nadir as well as in the zenith (solar_position.py marks both); the property is read accordingly. Places strictly between the poles."
 },
 "C27": {
  "note": "Ranges, geometry, monotonicity and night proved. Refuted: a window without sunshade has the shading ratio 1 (solar_shading.py 233), so it transmits no direct sunlight at all."
 },
 "C28": {
  "note": "Non-negative, zero without radiation, monotone: proved. Upper bound proved with the factor 1.003 and exactly for eta <= 0.997; refuted for eta = 1: the transmittance polynomial exceeds 1 near normal incidence."
 },
 "C29": {
  "note": "Exact real arithmetic."
 },
 "C30": {
  "note": "Exact real arithmetic. np.linalg.inv is a parameter: the sums and ratios hold whatever it returns, completion and optimality of the fit hold if it inverts every matrix with trivial kernel; a Gauss elimination shows that such a function exists."
 },
 "C55": {
  "note": "Holds for openings and given factors. Refuted for walls and floors: every call appends the outside resistance (or 3 m of earth) to the lists of the object once more, so a second call describes a wall that is thicker by that layer."
 },
 "C31": {
  "note": "Rounding is an arbitrary function to the nearest tenth. Weights of external boundaries add up to 1 when the temperature difference coefficient is a whole number of tenths and within the rounding error otherwise; refuted for coefficients such as 0.05 and 0.15. Ground boundaries get no weights at all in the file and are driven by the ground temperature only in the ground run."
 },
 "C32": {
  "note": "Proved for upstream room numbers of the house. Refuted for negative numbers, which the code accepts (numpy index from the end)."
 },
 "C33": {
  "note": "Floats as exact reals."
 },
 "C34": {
  "note": "Reading back is proved for rooms with convective cooling, the only kind the reader accepts: refuted for houses without convective cooling (KeyError in pre_calc_parameters.py 280-293). The JSON text itself is not modelled: what is written is taken as what is read. The written radiative cooling capacity is never found (C34_radiative_cooling_refuted)."
 },
 "C35": {
  "note": "View factors proved for rooms with floor area and other area, radiant shares for rooms with floor area. Refuted otherwise: 0.55 without floor, 0.45 with floors only, undefined radiant shares without floor (also for rooms without radiant heating)."
 },
 "C36": {
  "note": "Partition and total area proved for all lists; similarity within groups and order proved when different coefficients differ by more than the tolerance, refuted otherwise (the tolerance is not transitive). The merging itself (integrate) ends with AttributeError in the code and is not modelled beyond the areas."
 },
 "C56": {
  "note": "Proved when every boundary belongs to a room of the house; refuted otherwise: boundaries of unknown rooms are dropped without an error."
 },
 "C57": {
  "note": "Which descriptions are complete is stated in Spec/CompleteSpec.v. Exact real arithmetic; weather and schedules as parsed lists of the right length."
 },
 "C37": {
  "note": "Split, sizes, heat loss and solar gain proved for all parts. Non-negative shares hold when the occupied rooms fit into the house; nothing checks that, so the unconditional claim is refuted."
 },
 "C38": {
  "note": "Positivity, exact inner walls and exact inner floors proved; the floors need at least two rooms and an underfloor space not larger than the inner floor. Refuted without these conditions."
 },
 "C39": {
  "note": "Ventilation shares, volumes and transfer to the non-occupant room proved; the named upstream rooms ('main', 'other') never exist, hence that part is refuted."
 },
 "C41": {
  "note": "Recursion, monotonicity and attainment of UA proved; conversion is total for describable houses in regions 1-7. Refuted for dwellings with floors to other dwellings, for region 8 and for negative demand. Detached model houses of 11 to 1000 m2 are converted end to end (C41_detached); dwellings in apartment buildings are never converted (C41_dwelling_refuted)."
 },
 "C42": {
  "note": "UA and eta_A are the stated means; UA lies between part values without earth floors, refuted with perimeters (loss without area)."
 },
 "C58": {
  "note": "Proved for non-negative houses without shades on opaque parts."
 },
 "C40": {
  "note": "Acceptance, geometry, foundations, openings and parts proved for all model houses. A prescribed envelope area is met down to the smallest possible envelope (otherwise larger: refuted). Areas are nonnegative for detached houses of 11 to 1000 m2 with a tenth of openings and insulated floor; refuted in general (no openings: negative windows)."
 },
 "C43": {
  "note": "Proved: a U value becomes the boards of the structure with insulation between them and reproduces min(U, bare structure) plus the thermal bridge correction; layered structures keep their layers, scaled so that every part's U value grows by the correction and the total loss is area*(U+dU); which descriptions are rejected. Nonnegative resistances hold only while the corrected U value leaves room for the surface resistances (partial, with a steel wall as counterexample)."
 },
 "C44": {
  "note": "Earth floors, heat bridges, inner walls and floors, windows with default or simple sunshades, general parts and doors without detailed sunshades come back unchanged; exactly which parts do is stated as an equivalence. Whatever has once been read survives every further round trip. Refuted for sunshades given by lengths (KeyError) and for windows marked as having no sunshade (TypeError)."
 },
 "C45": {
  "note": "Refuted as stated: no dictionary written for a general part, window or door is accepted, since id, is_floor and h_c are missing (windows also write connected_id instead of connected_room_id and no eta_value). Proved: these entries are necessary; with just them added, acceptance is equivalent to an explicit condition (known direction, no detailed sunshade, for windows single glazing and a simple sunshade or none), and the initializer takes over the part's name, room, area, coefficients and layers."
 },
 "C46": {
  "note": "Refuted: the two conversions are not inverse to each other (0.622 against 0.62198), so saturated air is logged with up to 100.0033 %. Proved with the exact factor between them; saturation pressure strictly increasing on the whole range including the change of formula at 0 degree C."
 },
 "C47": {
  "note": "Real-number model of get_ppd."
 },
 "C48": {
  "note": "Refuted for rooms below 0.13 m2, whose rated heating capacity is negative; the exact condition is part of C48_positive_partial. The module is not used by the rest of the program."
 },
 "C49": {
  "note": "Includes the exact load below which the calculated flow is not positive, and where the flow is used in the moisture balance."
 },
 "C52": {
  "note": "Numbers are exact reals; binary representation errors of decimal numbers are outside the model."
 },
 "C59": {
  "note": "scipy.optimize.newton is a parameter assumed to return an exact zero not below -273; its convergence is not modelled."
 },
 "C50": {
  "note": "record of core/log.py with pandas columns as lists. For quarter-hour steps every digest row is the rounded mean (loads: sum of W, i.e. four times the energy) of the hour's four values, and no column overwrites another. Refuted: other intervals are still indexed in quarter hours, so rows show wrong hours; outdoor humidity is rounded to 0.01 kg/kg. CSV output is not modelled."
 },
 "C60": {
  "note": "Proved for whole runs: room heat (rooms receiving no air from other rooms, see C02), vapour, furniture, radiant exchange, sun, surface totals times area. Refuted: the recorded total qiall_s is W/m2 while its parts are W (sequence.py 268, log.py 127-149)."
 },
 "C61": {
  "note": "Solvers are parameters assumed to return exact zeros not below -273 degree C. Stated over Coq's reals, which Model/RealNumbers.v makes an instance of the field the core model is written over (adds the standard library's epsilon axiom)."
 },
 "C62": {
  "note": "Airflow between rooms is excluded because the code's heat balance is wrong there (C02). Walls: transmission factors add up to one and both faces of an inner wall are alike; C30 derives the first for walls given by resistances. Convergence towards the steady state is not claimed."
 },
 "C63": {
  "note": "Only simple overhangs: for detailed shades the code cannot compute a factor (TypeError), see DESIGN.md."
 },
 "C64": {
  "note": "For exact arithmetic: floating-point sums taken in another order can differ in their last digits. Ids are assumed to be renumbered together with the lists."
 },
 "C65": {
  "note": "Files are lists of numeric lines; reading and writing CSV text is not modelled. That the eight supplied files have 8760 lines, one decimal and no negative radiation is a premise (true of the files at this commit)."
 },
 "C66": {
  "note": "Proved for the first three conversions on detached houses of usual size. Refuted: a sunshade given by its lengths is accepted by one conversion and refused by the next; the last conversion returns for no input because it reads an undefined name."
 },
 "C67": {
  "note": "Table, rejected combinations and agreement with the table of largest U values proved. Refuted: unknown adjacent spaces are accepted; the layers written for a U value assume a fixed place, e.g. 0.15 instead of 0.04 below a floor over the open air. C67_layers_partial says exactly where they agree."
 },
 "C68": {
  "note": "Proved for windows given by specification. Refuted for gains given as numbers: two gains of 0.9 make 1.19; C68_given_partial states a sufficient condition."
 },
 "C69": {
  "note": "Proved for the directions and spaces the converter knows. Refuted: it has no name for a space open to the outside."
 },
 "C70": {
  "note": "Proved."
 },
 "C71": {
  "note": "Proved. Assumed of the library calls: fsolve finds a zero for every room; the least squares fit gives layered walls a positive first response and a first transmission between 0 and 1 (windows and doors need nothing). Two rooms with radiant heating are excluded because the step may then be singular (C51)."
 },
 "C72": {
  "note": "Lower bound proved for all houses, upper bound for rooms that receive no air from other rooms. With air paths the upper bound is false in every house (C72_air_paths): the vapour arriving from other rooms is counted, the vapour leaving with the air displaced is not. In a house of two rooms it grows without bound (C72_grows_refuted)."
 },
 "C73": {
  "note": "Proved for houses without boundaries facing another room and without air paths, for any common operation (C73_run_partial) and without assumptions on the operation when nobody heats or cools and infiltration does not depend on the room temperatures (C73_free_partial, C73_forgotten_partial). The walls of the response factor fit leak if the fitted answer rises (C73_walls). Missing: inner walls, equipment that reacts to the state. With air paths between rooms it is false: a house of two rooms runs away (C73_runaway_refuted, C73_air_paths_refuted)."
 },
 "C74": {
  "note": "C74_exists and C74_unique hold with inner walls and people, for infiltration that does not depend on room temperatures. The approach (C74_run_partial, C74_settles_partial) is proved for leaky houses without inner walls and air paths, with people; missing: inner walls, air paths, infiltration that depends on room temperatures, equipment at work."
 },
 "C75": {
  "note": "One step and runs with air paths smaller than the outdoor air, coils idle or doing the same in rooms without air from other rooms (C75_step_partial, C75_run_partial), heated and cooled houses with equal targets (C75_heat, C75_operated_partial), unattended leaky houses with people (C75_free_partial), the humidity at rest (C75_exists, C75_settles_partial, C75_limit_partial). Missing: coils at work in rooms that get air from other rooms, targets that differ with the humidity. False where rooms get at least as much air from rooms as from outside (C75_air_paths, C75_air_paths_refuted), because the moisture balance counts the air that arrives and not the air that leaves."
 },
 "C76": {
  "note": "Proved: C76_replaces for any house; C76_less_partial for one conditioned room without air paths. Missing, because false: several conditioned rooms (C76_rooms_refuted: a room that asks for part of its heating only gets a higher target when its neighbour gets heat) and air paths between rooms (C76_air_paths_refuted: the exchange term enters the heat balance with the wrong sign)."
 },
 "C77": {
  "note": "Proved for all stacks of panes; the specification is the balance of light in the gaps between the panes, whose solution is shown to exist and to be unique. A pane outside lets no more sun in when the panes transmit alike both ways."
 },
 "C78": {
  "note": "Proved: balance, U value, every single resistance against the formulas of the standard (Spec/GlassResist.v), coatings, panes, solar heat gain, gases, emissivities. The root finder of scipy is not modelled: the theorems are about every root, and one exists and is unique for fixed resistances. Missing, because false: with JIS_A2103 the inside surface takes the emissivity of the outermost pane (C78_inside_refuted); it holds with JIS_R3107 (C78_inside_partial)."
 }
}