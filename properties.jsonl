{"id": "C01", "title": "Every requested time step is simulated exactly once, in order", "statement": "core.calc visits the steps -n_run_up, ..., -1, 0, ..., n_main-1 of the requested run-up and main periods once each and in increasing order: first the ground-only steps, then the run-up steps with the whole building, then the main steps; exactly the main steps write a result column, and column n is written by step n only. A run-up shorter than its whole-building part is rejected with ValueError before any step runs.", "quantifier": "all values (including zero and negative ones) of n_step_hourly, n_d_main, n_d_run_up, n_d_run_up_build", "why_tests_cant": "a test fixes a few periods; the claim covers every combination of period lengths and step sizes, including empty ones", "anchors": ["heat_load_calc/core/core.py:calc", "heat_load_calc/core/period.py:get_n_step", "heat_load_calc/core/sequence.py:run_tick", "heat_load_calc/core/sequence_ground.py:run_tick"]}
{"id": "C02", "title": "The room air heat balance closes at every step", "statement": "For every building and every state the temperatures and loads a step produces satisfy the documented room heat balance (docs/derivation/heat_balance.adoc eq. 4.2): stored heat = convection from surfaces + outdoor air + air arriving from neighbour rooms + internal gains + equipment output + exchange with furniture.", "quantifier": "all buildings (any number of rooms and boundaries), all parameter values, all previous states and all schedules for which the step completes", "why_tests_cant": "tests run a handful of one- and two-room buildings; the balance must hold for every matrix the inputs can produce", "anchors": ["heat_load_calc/core/sequence.py:run_tick", "heat_load_calc/core/pre_calc_parameters.py:make_pre_calc_parameters", "docs/derivation/heat_balance.adoc"]}
{"id": "C03", "title": "Reported operative temperature is the h-weighted mean of air and mean radiant temperature", "statement": "In every result of a step, operative temperature = (h_c * air temperature + h_r * mean radiant temperature)/(h_c + h_r) for every room, and mean radiant temperature is the form-factor weighted sum of the reported surface temperatures, whatever the equipment did in that step.", "quantifier": "all buildings, states and equipment outcomes for which the step completes", "why_tests_cant": "the operative temperature is not computed by that formula but recovered from a linear solve; only a proof shows the two agree on every input", "anchors": ["heat_load_calc/core/sequence.py:run_tick", "heat_load_calc/core/next_condition.py:calc_next_temp_and_load"]}
{"id": "C04", "title": "Furniture temperature and humidity follow their own balance", "statement": "The furniture temperature and humidity returned by a step satisfy the backward-difference balance of eq. (4.4) of the derivation and eq. (6) of the vapour derivation: heat (moisture) stored in furniture over the step equals exchange with the new air state plus absorbed solar heat.", "quantifier": "all rooms, capacities, conductances, step lengths and states", "why_tests_cant": "needs all real parameter values, including zero conductance", "anchors": ["heat_load_calc/core/sequence.py:run_tick"]}
{"id": "C05", "title": "Surface temperatures satisfy the wall response equations", "statement": "The surface temperature of every boundary equals phi_A0 * (new surface heat flow) + phi_T0 * (new rear temperature) + the history terms, where the new rear temperature is the one implied by the equivalent temperatures that the very same step reports.", "quantifier": "all boundaries, including internal walls whose two sides have different areas and heat transfer coefficients", "why_tests_cant": "a test on symmetric partitions cannot show that the row scaling in AX, FIA, CRX and FLB is the right one for every pair of surfaces", "anchors": ["heat_load_calc/core/sequence.py:run_tick", "heat_load_calc/core/pre_calc_parameters.py:make_pre_calc_parameters", "docs/derivation/heat_balance.adoc"]}
{"id": "C06", "title": "Equipment is used only where asked and reaches the set point exactly", "statement": "In every step, a room that is not heating/cooling (mode off, or natural operative temperature already satisfies the target) gets zero convective and zero radiative load; a room that heats or cools ends at its target operative temperature, interpolated by the air-conditioning ratio towards the natural temperature; and the linear balance kt*theta = Lc + kr*Lr + k holds.", "quantifier": "all numbers of rooms, all coefficient matrices, all modes, demands, targets and capacities", "why_tests_cant": "loads of all rooms are coupled through one matrix solve, so correctness of one room depends on all others", "anchors": ["heat_load_calc/core/next_condition.py:calc_next_temp_and_load", "heat_load_calc/core/next_condition.py:get_load_and_temp"]}
{"id": "C07", "title": "Radiant equipment never exceeds its capacity", "statement": "The radiative load returned for a room never exceeds the heating capacity nor falls below minus the cooling capacity installed in that room.", "quantifier": "all numbers of rooms and all coefficient values", "why_tests_cant": "the capacity check is made once and followed by one re-solve; only a proof over all coupled rooms can say whether the re-solve keeps every other room within its limits", "anchors": ["heat_load_calc/core/next_condition.py:calc_next_temp_and_load"]}
{"id": "C08", "title": "Heating adds heat and cooling removes heat", "statement": "A heated room is never assigned a negative total load and a cooled room never a positive one.", "quantifier": "all room counts, coefficient matrices and targets", "why_tests_cant": "coupling between rooms may reverse the sign of the computed load; sampling cannot exclude it", "anchors": ["heat_load_calc/core/next_condition.py:calc_next_temp_and_load"]}
{"id": "C09", "title": "The moisture balance closes at every step", "statement": "The humidities a step produces satisfy the documented vapour balance (docs/derivation/vapour_balance.adoc eq. 4), with the condensation taken out by the room air conditioner equal to the reported latent load divided by the latent heat.", "quantifier": "all buildings, states and schedules for which the step completes", "why_tests_cant": "same as C02: must hold for every matrix", "anchors": ["heat_load_calc/core/sequence.py:run_tick", "heat_load_calc/core/heat_exchanger.py:get_dehumid_coeff", "docs/derivation/vapour_balance.adoc"]}
{"id": "C10", "title": "The one-pass dehumidification decision is consistent", "statement": "Deciding from the humidity computed without dehumidification whether the air conditioner dehumidifies never contradicts the final state: when it dehumidifies the final humidity is still at least the coil saturation humidity, so the latent load is never positive (no humidification by a cooling coil), and without cooling load the latent load is zero.", "quantifier": "all rooms, volumes, ventilation rates, coil states and previous states", "why_tests_cant": "the vapour derivation claims this property in prose; it has to hold for all real values", "anchors": ["heat_load_calc/core/heat_exchanger.py:get_dehumid_coeff", "heat_load_calc/core/sequence.py:run_tick", "docs/derivation/vapour_balance.adoc"]}
{"id": "C11", "title": "Thermal equilibrium is preserved", "statement": "If outdoor temperature, all outdoor equivalent temperatures and the whole building state are at one temperature T, with no gains and no solar radiation and the equipment off, every step keeps air, surfaces, furniture and mean radiant temperature at T.", "quantifier": "all buildings and all T", "why_tests_cant": "requires the weights of every part of the program (view factors, response factors, rear-side coefficients, ventilation) to add up to one for all inputs; a single scenario can hide compensating errors", "anchors": ["heat_load_calc/core/sequence.py:run_tick", "heat_load_calc/core/pre_calc_parameters.py:make_pre_calc_parameters", "heat_load_calc/initializer/initializer.py:_make_boundaries", "heat_load_calc/core/shape_factor.py:get_f_mrt_is_js"]}
{"id": "C12", "title": "Transmitted solar heat is neither created nor lost indoors", "statement": "For every room and step, the solar heat absorbed by furniture plus the solar heat absorbed by the room's surfaces (flux times area) equals the transmitted solar heat of that room, if the room has at least one absorbing surface; non-absorbing surfaces get none.", "quantifier": "all rooms, surfaces, areas and radiation values", "why_tests_cant": "needs every assignment of boundaries to rooms", "anchors": ["heat_load_calc/core/pre_calc_parameters.py:make_pre_calc_parameters"]}
{"id": "C13", "title": "Mean radiant temperature weights are a convex combination over the room's own surfaces", "statement": "For every room the weights of get_f_mrt_is_js are non-negative, vanish outside the room's boundaries and add up to one.", "quantifier": "all area and coefficient vectors and all room/boundary incidence relations", "why_tests_cant": "all sizes", "anchors": ["heat_load_calc/core/shape_factor.py:get_f_mrt_is_js"]}
{"id": "C14", "title": "Radiative heat transfer coefficients are well defined, positive and assigned to their own boundary", "statement": "For every room the sphere-view-factor equation has exactly one solution with positive parameter, its view factors lie in (0,1] and sum to one, the resulting radiative coefficients lie between eps*4*sigma*T^3 and that divided by (1-eps), and the coefficient returned at position j is the one computed from boundary j's own room and area.", "quantifier": "all positive area vectors and all boundary orders", "why_tests_cant": "existence and uniqueness of the root cannot be tested; a test only sees boundaries listed room by room", "anchors": ["heat_load_calc/core/shape_factor.py:get_h_r_js", "heat_load_calc/core/shape_factor.py:_get_f_i_js", "heat_load_calc/core/shape_factor.py:_get_f_ver"]}
{"id": "C15", "title": "Ground calculation is stable and settles at equilibrium", "statement": "The ground-only run-up treats each ground boundary on its own as a linear recurrence with a unique steady state for every constant outdoor temperature; for the annual mean temperature it is zero heat flow and a surface at that temperature. With positive response terms whose joint effect within one step is damped (surface coefficient times the sum of the terms at most rho times one plus surface coefficient times initial response, rho < 1), every start state converges to it, and under any weather the influence of two different start states shrinks geometrically.", "quantifier": "all ground boundaries, damped response factors with ratios in [0,rho], all start states, weather histories and run-up lengths", "why_tests_cant": "convergence over unbounded run-up lengths", "anchors": ["heat_load_calc/core/sequence_ground.py:run_tick", "heat_load_calc/core/core.py:calc"]}
{"id": "C16", "title": "Hand-over from ground run-up to building run-up only touches ground boundaries", "statement": "After the hand-over every ground boundary carries exactly the surface heat flow and response terms computed for it in the ground run-up, in the right order, and all other boundaries and room states keep their initial values.", "quantifier": "all interleavings of ground and non-ground boundaries", "why_tests_cant": "mask-based indexing must be order-preserving for every mask", "anchors": ["heat_load_calc/core/conditions.py:update_conditions_by_ground_conditions", "heat_load_calc/core/pre_calc_parameters.py:make_pre_calc_parameters"]}
{"id": "C17", "title": "Operation mode is a sane hysteresis automaton", "statement": "For every history of demand and PMV values the operation mode stays within the four legal modes; no demand always means off with closed windows; heating is never active with PMV(heavy) above +0.7 and cooling never with PMV(light) below -0.7; windows are open only under demand; constant conditions never make the mode oscillate for more than a bounded number of steps; an illegal previous mode is rejected only under demand.", "quantifier": "all infinite histories of inputs with PMV(light) <= PMV(middle) <= PMV(heavy)", "why_tests_cant": "histories are unbounded", "anchors": ["heat_load_calc/core/ot_target_pmv.py:get_operation_mode_i_n", "heat_load_calc/core/operation_mode.py:OperationMode"]}
{"id": "C18", "title": "Target operative temperature realises the target PMV", "statement": "Evaluating the program's PMV formula at air temperature = operative temperature = the target temperature returned for a mode gives exactly the target PMV of that mode; the target rises strictly with the PMV target and falls strictly with vapour pressure, and PMV rises strictly with operative temperature and with air temperature.", "quantifier": "all vapour pressures, clothing values and positive heat transfer coefficients", "why_tests_cant": "algebraic inverse over the reals", "anchors": ["heat_load_calc/core/ot_target_pmv.py:get_theta_ot_target", "heat_load_calc/core/ot_target_pmv.py:get_pmv_is_n"]}
{"id": "C19", "title": "Occupants release a constant total of 119 W", "statement": "Sensible heat plus latent heat (moisture times latent heat of water) of one person is 119 W at every room temperature; moisture is never negative; sensible heat never exceeds 119 W, never increases with room temperature, and is not negative below 39.75 degree C.", "quantifier": "all room temperatures", "why_tests_cant": "all reals", "anchors": ["heat_load_calc/core/occupants.py"]}
{"id": "C20", "title": "Infiltration is never negative, never exceeds its no-pressure value and scales with volume", "statement": "Infiltration of each room is non-negative, proportional to room volume, symmetric in the sign of the indoor-outdoor temperature difference, non-decreasing in temperature difference and in C value, at most the balanced-pressure value, and the function fails for stories other than 1 and 2 and for unknown pressure types.", "quantifier": "all room counts, volumes, temperatures, C values", "why_tests_cant": "all reals and sizes", "anchors": ["heat_load_calc/core/infiltration.py:_get_infiltration_residential", "heat_load_calc/core/infiltration.py:make_get_infiltration_function"]}
{"id": "C21", "title": "Household schedules are interpolated between neighbouring household sizes and fill the whole year", "statement": "For 1..4 residents (real valued) each schedule value is a convex combination of the tables for the two neighbouring integer sizes, exact at integers, continuous in the number of residents, within the range of the tables; every one of the 365*96 steps is filled from the table of its calendar day type, and resident numbers outside 1..4 are rejected.", "quantifier": "all resident numbers, calendars and tables", "why_tests_cant": "365x96 entries for every table and every real resident number", "anchors": ["heat_load_calc/initializer/schedule_loader.py:_get_schedule", "heat_load_calc/initializer/schedule_loader.py:_get_interpolated_schedule", "heat_load_calc/initializer/schedule_loader.py:_get_ceil_floor_np"]}
{"id": "C22", "title": "Compiled schedules put each quantity in its place", "statement": "Internal heat generation of a room is appliances + cooking heat + lighting per area times floor area, and internal moisture generation is cooking vapour converted from g/h to kg/s, each taken from the schedule of that room and that name.", "quantifier": "all schedule contents, rooms and floor areas", "why_tests_cant": "a test on data where both cooking schedules coincide or are zero cannot see a swap", "anchors": ["heat_load_calc/initializer/schedule_loader.py:get_compiled_schedules", "heat_load_calc/initializer/schedule_loader.py:_get_each_schedules"]}
{"id": "C23", "title": "The number of residents derived from floor area is always accepted by the schedules", "statement": "The resident number computed from the total floor area lies in [1,4], is continuous and non-decreasing in the area, and is accepted by the schedule loader for every floor area.", "quantifier": "all floor areas", "why_tests_cant": "all reals", "anchors": ["heat_load_calc/initializer/residents_number.py:get_total_number_of_residents", "heat_load_calc/initializer/schedule_loader.py:_get_ceil_floor_np"]}
{"id": "C24", "title": "Weather interpolation is exact on the hour and never leaves the hourly envelope", "statement": "Interpolated weather has exactly n values per hour; the values on the hour equal the hourly data shifted by one hour (cyclically); every other value is the linear interpolation between, hence lies between, its two neighbouring hourly values; the year wraps around periodically; an unknown interval is rejected.", "quantifier": "all hourly series of any length and all supported intervals", "why_tests_cant": "all series", "anchors": ["heat_load_calc/weather/weather_data.py:_interpolate", "heat_load_calc/weather/calc_interval.py"]}
{"id": "C25", "title": "Sun position is geometrically consistent", "statement": "Declination and altitude are in their geometric ranges, the altitude formula's argument never leaves [-1,1], and the reported azimuth together with the altitude is the direction of the unit vector given by latitude, declination and hour angle whenever the sun is neither in the zenith nor in the nadir. Each of the eight regions stands for one fixed place with its published latitude and longitude, at which neither happens; any other region number is refused.", "quantifier": "all latitudes strictly between the poles, all region numbers, all days and times", "why_tests_cant": "all reals", "anchors": ["heat_load_calc/weather/solar_position.py"]}
{"id": "C26", "title": "Irradiance on inclined surfaces is non-negative and bounded by what arrives", "statement": "For non-negative direct and sky radiation, the direct, sky and reflected parts on every inclined surface are non-negative; direct never exceeds direct normal, sky view and ground view factors lie in [0,1] and add up to one; a surface turned away from the sun gets no direct radiation; a horizontal surface receives exactly the global horizontal irradiance when the sun is up.", "quantifier": "all orientations, sun positions and radiation values", "why_tests_cant": "all reals", "anchors": ["heat_load_calc/initializer/inclined_surface_solar_radiation.py"]}
{"id": "C27", "title": "Sunshades only remove sunlight", "statement": "Shading ratios for direct and sky radiation lie in [0,1]; deeper overhangs never shade less; a window without sunshade is not shaded at all, so it never receives less sunlight than the same window with a sunshade.", "quantifier": "all sun positions, overhang geometries and window heights", "why_tests_cant": "all reals", "anchors": ["heat_load_calc/initializer/solar_shading.py"]}
{"id": "C28", "title": "Transmitted solar heat is non-negative and never exceeds incident radiation times area", "statement": "For eta in [0,1] the transmitted heat of a window is non-negative, zero when no radiation arrives, monotone in each radiation component, and at most area times total irradiance.", "quantifier": "all radiation values, incidence angles, glazing types", "why_tests_cant": "transmittance polynomials must stay in range on the whole interval of incidence angles", "anchors": ["heat_load_calc/initializer/transmission_solar_radiation.py", "heat_load_calc/initializer/oblique_incidence_charac.py"]}
{"id": "C29", "title": "Equivalent outdoor temperature", "statement": "The equivalent outdoor temperature of a sunlit part equals outdoor temperature plus surface resistance times (absorbed solar minus emitted night radiation), never drops below outdoor temperature minus r*eps*night radiation, rises with radiation, and equals the plain outdoor temperature for parts without sun.", "quantifier": "all weather and surface values", "why_tests_cant": "all reals", "anchors": ["heat_load_calc/initializer/outside_eqv_temp.py"]}
{"id": "C30", "title": "Response factors reproduce the steady-state U value", "statement": "For every wall, whatever the least-squares fit delivers, the sum of all transmission response factors is exactly one and the sum of all absorption response factors is exactly the total thermal resistance from the inner surface outwards; term ratios lie strictly between 0 and 1; an opening given by its U value gets exactly the resistance 1/U - R_inside.", "quantifier": "all layer compositions for which the fit completes, all fixed roots and infinitely many response terms", "why_tests_cant": "infinite sums and all layer data", "anchors": ["heat_load_calc/initializer/response_factor.py:calc_response_factor", "heat_load_calc/initializer/response_factor.py:get_RFTRI", "heat_load_calc/initializer/response_factor.py:ResponseFactorFactorySteady"]}
{"id": "C31", "title": "Every boundary keeps weights for its rear side that add up to one", "statement": "For every boundary the weight of the outdoor equivalent temperature plus the weight of the indoor rear-side temperature is one, so a surface is driven by a true mean of temperatures.", "quantifier": "all boundary types and all temperature difference coefficients the program itself assigns", "why_tests_cant": "depends on rounding in the program for the actual coefficients 0.05 and 0.15 and on the boundary type", "anchors": ["heat_load_calc/initializer/initializer.py:_make_boundaries", "heat_load_calc/initializer/boundary_simple.py:get_boundary_simple", "heat_load_calc/external/factor_h.py:NextSpace.get_h"]}
{"id": "C32", "title": "Inter-room ventilation matrix collects exactly the given air paths", "statement": "Entry (i,k) of the matrix is the sum over all air paths given for room i with upstream room k of volume/3600, zero if there is none; the total over the matrix is the total of all given volumes/3600; unknown upstream room ids are rejected.", "quantifier": "all rooms and lists of air paths", "why_tests_cant": "all lists", "anchors": ["heat_load_calc/initializer/initializer.py:_get_v_int_vent_is"]}
{"id": "C33", "title": "Room validation", "statement": "A room list is accepted exactly if ids are 0,1,2,... in order, the main occupant room occurs exactly once and each other room type at most once (hence at most four rooms); otherwise ValueError; accepted rooms keep order, id and name and get consistent unit conversions.", "quantifier": "all room lists", "why_tests_cant": "all lists", "anchors": ["heat_load_calc/initializer/initializer.py:_make_spaces_dict", "heat_load_calc/initializer/initializer.py:check_specifying_room_type"]}
{"id": "C34", "title": "What the initializer writes the core can read", "statement": "For every accepted room the space description written by the initializer contains every entry the core reads, with the same value (in particular installed radiative cooling capacity).", "quantifier": "all combinations of heating and cooling equipment", "why_tests_cant": "exhaustive over equipment types and all capacity values", "anchors": ["heat_load_calc/initializer/initializer.py:_make_spaces_dict", "heat_load_calc/core/pre_calc_parameters.py:make_pre_calc_parameters"]}
{"id": "C35", "title": "Occupant view factors and radiant floor shares add up to one", "statement": "For every room, the occupants' view factors of its boundaries add up to one and the radiant-heating shares of its boundaries add up to one when radiant heating is installed (zero otherwise).", "quantifier": "all area lists and floor flags", "why_tests_cant": "all lists incl. rooms without floor", "anchors": ["heat_load_calc/initializer/occupants_form_factor.py", "heat_load_calc/initializer/a12_indoor_radiative_heat_transfer.py"]}
{"id": "C36", "title": "Boundary grouping is a partition that preserves area", "statement": "Merging similar boundaries assigns every boundary to exactly one group, groups only boundaries judged integrable with the group's first member, keeps the order of first members, and preserves total area.", "quantifier": "all boundary lists", "why_tests_cant": "all lists", "anchors": ["heat_load_calc/initializer/building_part_summarize.py:_get_group_indices", "heat_load_calc/initializer/building_part_summarize.py:integrate"]}
{"id": "C37", "title": "Splitting parts over rooms preserves area, length and heat loss", "statement": "Converting level-2 to level-3 input splits every part into main, other and non-occupant shares whose areas (lengths) add up to the original, each share being non-negative and proportional to floor area; the total heat loss and solar gain coefficients are unchanged; earth floors are moved to the underfloor space unchanged.", "quantifier": "all part lists and floor areas", "why_tests_cant": "all lists", "anchors": ["heat_load_calc/convert/convert_lv2_to_lv3.py"]}
{"id": "C38", "title": "Inner floors and walls are consistent", "statement": "Generated inner floor and wall areas are never negative, only positive areas are emitted, floor area above the underfloor adds up to the earth floor area, and walls and floors between rooms add up per room to that room's total whenever the totals satisfy the triangle inequalities.", "quantifier": "all floor areas and part lists", "why_tests_cant": "all reals", "anchors": ["heat_load_calc/convert/convert_lv3_to_lv4.py"]}
{"id": "C39", "title": "Whole-house ventilation is preserved when distributed over rooms", "statement": "The mechanical ventilation of the rooms adds up to floor area * 2.4 m * air change rate * 1.1, distributed by floor area; room volumes add up to ceiling height times floor area.", "quantifier": "all floor areas", "why_tests_cant": "all reals", "anchors": ["heat_load_calc/convert/convert_lv4_to_h_hlc.py"]}
{"id": "C40", "title": "Model house geometry accounts for every square metre", "statement": "For every model house that is produced: floor plus earth floor area equals the ground floor area, roof equals ground floor area, walls + windows + doors equal the facade, opening ratio is respected, the foundations are those of the rooms standing on the ground, and if an envelope area is prescribed the produced envelope has exactly that area.", "quantifier": "all floor areas, envelope areas, opening ratios and insulation types", "why_tests_cant": "all reals; square roots and inverse problem", "anchors": ["heat_load_calc/convert/model_house.py:calc_area"]}
{"id": "C41", "title": "Given UA value is met by distributing part U values", "statement": "The multipliers computed for the part U values are non-negative, never exceed each part's maximum, and the resulting total heat loss equals the requested loss whenever it is reachable (otherwise the maximum); the recursion terminates and never divides by zero.", "quantifier": "all part sets, standard losses and limits", "why_tests_cant": "recursive water-filling over arbitrary part sets", "anchors": ["heat_load_calc/convert/get_u_psi_eta_from_u_a_and_eta_a.py:get_f_u_psi"]}
{"id": "C42", "title": "Recalculated UA and eta_A are area-weighted means", "statement": "The checked UA value is the total heat loss divided by the total envelope area, lies between the smallest and largest part value, and is unchanged by splitting parts over rooms.", "quantifier": "all part lists", "why_tests_cant": "all lists", "anchors": ["heat_load_calc/convert/check_ua_a_eta_a.py"]}
{"id": "C43", "title": "Layer composition reproduces the requested U value", "statement": "Turning a prescribed U value into layers gives a composition whose U value is the prescribed one whenever insulation can realise it (otherwise the U value of the bare structure), never with negative resistance; thermal bridge corrections give the total U + delta U.", "quantifier": "all structures, U values and thermal bridge corrections", "why_tests_cant": "all reals", "anchors": ["heat_load_calc/convert/ees_house.py:GeneralPartSpecUValue", "heat_load_calc/convert/ees_house.py:GeneralPartSpecDetail"]}
{"id": "C44", "title": "Part descriptions survive the round trip through dictionaries", "statement": "Writing a part (layers, walls, windows, doors, sunshades, earth floors, heat bridges, inner walls and floors) to a dictionary and reading it back gives an equal part.", "quantifier": "all parts", "why_tests_cant": "all values and nesting", "anchors": ["heat_load_calc/convert/ees_house.py", "heat_load_calc/convert/factor_f.py"]}
{"id": "C45", "title": "Converter output is accepted by the initializer", "statement": "Every boundary dictionary produced by the converter for general parts, windows and doors has all entries the initializer requires, under the names it requires.", "quantifier": "all parts", "why_tests_cant": "all parts", "anchors": ["heat_load_calc/convert/ees_house.py", "heat_load_calc/initializer/boundary_simple.py:get_boundary_simple"]}
{"id": "C46", "title": "Saturation pressure and humidity conversions are consistent", "statement": "Saturation vapour pressure is positive and strictly increasing below and above 0 degree C; humidity ratio is strictly increasing in vapour pressure on [0, atmospheric pressure) and the two conversion functions are inverse to each other; relative humidity of saturated air is 100 %; scalar and array versions agree.", "quantifier": "all temperatures in the working range and all pressures", "why_tests_cant": "all reals", "anchors": ["heat_load_calc/external/psychrometrics.py"]}
{"id": "C47", "title": "Predicted percentage dissatisfied is between 5 and 100 and symmetric", "statement": "PPD lies in [5,100), equals 5 only at PMV 0, is an even function and increases with |PMV|.", "quantifier": "all PMV values", "why_tests_cant": "all reals", "anchors": ["heat_load_calc/external/iso7730.py:get_ppd"]}
{"id": "C48", "title": "Room air conditioner ratings are ordered", "statement": "For every floor area the maximum capacity is at least the rated capacity, the minimum air flow is 55 % of the maximum, capacities are positive and non-decreasing in floor area.", "quantifier": "all floor areas", "why_tests_cant": "all reals", "anchors": ["heat_load_calc/external/rac.py"]}
{"id": "C49", "title": "Air conditioner air flow interpolates between its limits", "statement": "At minimum (maximum) capacity the air flow is the minimum (maximum) flow, it is monotone in between and stays within the limits for loads within the capacity range; outside this range it is not limited.", "quantifier": "all loads and specifications", "why_tests_cant": "all reals", "anchors": ["heat_load_calc/core/heat_exchanger.py:get_vac_is_n"]}
{"id": "C50", "title": "Hourly digest agrees with the detailed result", "statement": "The digest has one row per hour of the main period; temperatures are hourly means of the detailed values and loads are the hourly totals, for every calculation interval the core accepts.", "quantifier": "all result series, all step sizes", "why_tests_cant": "all series", "anchors": ["heat_load_calc/core/log.py:record", "heat_load_calc/core/core.py:calc"]}
{"id": "C51", "title": "The simulation never meets a singular matrix on physical input", "statement": "For physically meaningful input (positive areas, coefficients and volumes, absorption response >= 0, transmission response and rear-side weights such that their product is at most 1) every matrix inverted before and during a time step is invertible, so the step and the whole calculation complete, as long as no radiant equipment is asked for; also when a single room is conditioned, with radiant equipment, and no air flows between rooms. With radiant equipment asked for in two rooms a step may stop on a singular matrix.", "quantifier": "all buildings of any size", "why_tests_cant": "invertibility for all sizes", "anchors": ["heat_load_calc/core/pre_calc_parameters.py:make_pre_calc_parameters", "heat_load_calc/core/sequence.py:run_tick"]}
{"id": "C52", "title": "Rounding of reported values", "statement": "round_num rounds half away from zero to the given number of digits: the result is a multiple of 10^-digits, differs from the input by at most half a unit, is odd and monotone.", "quantifier": "all numbers and digits", "why_tests_cant": "all reals", "anchors": ["heat_load_calc/convert/general_functions.py:round_num"]}
{"id": "C53", "title": "More heat never makes a free-running house colder", "statement": "With the equipment off, running the same step with larger internal gains, larger transmitted solar heat and higher outdoor equivalent temperatures never gives a lower air, surface, mean radiant, operative or furniture temperature anywhere in the house.", "quantifier": "all physically meaningful houses without air paths between rooms, all states, all pairs of step data ordered component-wise", "why_tests_cant": "needs sign information about the inverse of matrices of arbitrary size, for every building", "anchors": ["heat_load_calc/core/sequence.py:run_tick", "heat_load_calc/core/pre_calc_parameters.py:make_pre_calc_parameters"]}
{"id": "C54", "title": "First law for a room", "statement": "In every step the heat stored in a room's air and furniture plus the heat flowing into its boundary surfaces equals the heat brought in by outdoor air, internal gains, transmitted sun and equipment; radiant exchange between the surfaces of a room neither creates nor destroys heat.", "quantifier": "all houses whose rooms have an absorbing surface and whose radiant shares add up to one, rooms without air paths, all states and step data", "why_tests_cant": "an identity over all buildings, sizes and states; a test sees rounding noise of one building", "anchors": ["heat_load_calc/core/sequence.py:run_tick", "heat_load_calc/core/shape_factor.py:get_f_mrt_is_js"]}
{"id": "C55", "title": "Asking a wall twice gives the same response factors", "statement": "Asking the same wall, floor or opening object twice for its response factors gives the same factors both times.", "quantifier": "all wall, floor and opening descriptions, any number of calls", "why_tests_cant": "depends on the history of calls on one object, for every layer composition", "anchors": ["heat_load_calc/initializer/response_factor.py:ResponseFactorFactoryTransientEnvelope", "heat_load_calc/initializer/response_factor.py:ResponseFactorFactoryTransientGround"]}
{"id": "C56", "title": "Sun through windows is neither lost nor counted twice", "statement": "At every time step the solar heat that the prepared input assigns to the rooms adds up to the solar heat transmitted by all boundaries of the house, and each room gets exactly the heat transmitted by its own boundaries.", "quantifier": "all house descriptions, weather series and time steps", "why_tests_cant": "any number of rooms and boundaries, any assignment of boundaries to rooms", "anchors": ["heat_load_calc/initializer/initializer.py:make_house", "heat_load_calc/initializer/boundary_simple.py:get_boundary_simple"]}
{"id": "C57", "title": "A complete house description is processed without an error", "statement": "If a house description has every required entry, with distinct known room types, usable boundaries and air paths from rooms of the house, then preparing the calculation input from it succeeds.", "quantifier": "all complete house descriptions, all weather series of a year", "why_tests_cant": "absence of exceptions for all inputs", "anchors": ["heat_load_calc/initializer/initializer.py:make_house"]}
{"id": "C58", "title": "Given solar gain indices are met whenever the glazing can realise them", "statement": "When a house is described by its indices, all windows get one eta_d value per season between 0 and 0.88, and the eta_A recalculated from the resulting parts equals the given one, unless eta_d is at one of its bounds; then the recalculated value errs towards the bound (too much gain at 0, too little at 0.88).", "quantifier": "all houses, regions, seasons and given indices", "why_tests_cant": "the relation must hold for every mix of parts, orientations and targets", "anchors": ["heat_load_calc/convert/get_u_psi_eta_from_u_a_and_eta_a.py", "heat_load_calc/convert/convert_indices_to_lv2_info.py", "heat_load_calc/convert/check_ua_a_eta_a.py:check_u_a_and_eta_a"]}
{"id": "C59", "title": "The ISO 7730 comfort index is well determined and follows the surroundings", "statement": "PMV and PPD are those of the equations of ISO 7730. The equation solved for the clothing surface temperature has exactly one physical solution, between the coldest and the warmest of skin, air and mean radiant temperature; with it, PMV strictly increases with air temperature, mean radiant temperature and relative humidity. The differential returned with the saturation pressure is its derivative.", "quantifier": "all clothing, activity, air velocities, temperatures and humidities", "why_tests_cant": "existence and uniqueness of a root and monotonicity over a continuum of inputs", "anchors": ["heat_load_calc/external/iso7730.py:get_pmv_ppd", "heat_load_calc/external/iso7730.py:get_t_cl", "heat_load_calc/external/iso7730.py:saturated_vapor_pressure_SONNTAG"]}
{"id": "C60", "title": "The recorded heat flows explain the recorded temperatures", "statement": "In the table of results of a calculation, the flows recorded for a step (convection at the surfaces, furniture, outdoor air, internal gains, equipment) account exactly for the change of the recorded room and furniture temperatures and humidities since the previous step; radiant exchange recorded for the surfaces of a room sums up to zero; transmitted sun is recorded once; the recorded total of a surface is the sum of its recorded parts.", "quantifier": "all houses, data, calculation periods, steps, rooms and boundaries", "why_tests_cant": "an identity between many recorded columns at every step of every run", "anchors": ["heat_load_calc/core/log.py:Logger.pre_logging", "heat_load_calc/core/log.py:Logger.post_logging", "heat_load_calc/core/sequence.py:run_tick"]}
{"id": "C61", "title": "The comfort index of the load calculation is that of ISO 7730", "statement": "With heat transfer coefficients found by convergence, the PMV that decides about heating and cooling equals the PMV of the package's ISO 7730 module for a resting person (1 met) with the same clothing in the same air, whatever exact solver each of them uses; the clothing temperature is uniquely determined; PMV rises strictly with air temperature, radiant temperature and vapour pressure; the target temperature returned realises the target PMV with the returned coefficients. Method 'constant' is what every time step uses; unknown methods are rejected.", "quantifier": "all room states, clothing values, air speeds and exact solvers", "why_tests_cant": "equality of two implementations over a continuum of inputs, each through the root of a nonlinear equation", "anchors": ["heat_load_calc/core/ot_target_pmv.py:_get_h_hum", "heat_load_calc/core/ot_target_pmv.py:get_pmv_is_n", "heat_load_calc/core/ot_target_pmv.py:get_ot_target_and_h_hum_with_pmv", "heat_load_calc/external/iso7730.py:get_pmv_ppd"]}
{"id": "C62", "title": "Steady state is the textbook steady state", "statement": "In a house without air paths between rooms, a time step leaves all temperatures and heat flows as they are exactly when they form the textbook steady state for the air flows, gains and loads of that step: every wall conducts temperature difference divided by its resistance, every surface and the air of every room are in balance, furniture gives off the sun it receives. That state does not depend on the length of the time step, is the only one, and in it loads + gains + sun = sum of U-value x area x temperature difference + ventilation losses.", "quantifier": "all houses with physical data and no air paths between rooms, all step data, states and step lengths", "why_tests_cant": "the repository's steady_03 to steady_07 tests check single houses numerically after a long run-up; the characterisation is an equivalence over all houses and states", "anchors": ["heat_load_calc/core/sequence.py:run_tick", "heat_load_calc/core/pre_calc_parameters.py:make_pre_calc_parameters", "test/test_singlezone/steady_03"]}
{"id": "C63", "title": "Shades never add solar gain", "statement": "The shading factor of a window under a simple overhang lies between 0.05 and 0.72 in the heating period and between 0.16 and 0.93 in the cooling period for every face, and when shades of any windows become deeper (or windows lower, or closer to the shade) the checked UA stays the same and neither eta_A grows. The sun on a face counts fully from above, not at all from below, and never less than on the north face; in the heating period most on the south face.", "quantifier": "all houses, regions, faces and shade geometries with positive depth", "why_tests_cant": "monotonicity over a continuum of geometries and any number of windows", "anchors": ["heat_load_calc/convert/factor_f.py:SunshadeTransientExistSimple.get_f", "heat_load_calc/convert/check_ua_a_eta_a.py:check_u_a_and_eta_a", "heat_load_calc/external/factor_nu.py:get_nu"]}
{"id": "C64", "title": "Results do not depend on the order of rooms and boundaries", "statement": "Listing the rooms and the boundaries of a house in another order gives the same calculation in that order: every temperature, humidity, load and operation mode of a room or boundary is the same at every time step, or the calculation ends with the same exception. In particular rooms that cannot be told apart get the same results.", "quantifier": "all houses, weather and usage data, orders of rooms and boundaries, and lengths of the calculation", "why_tests_cant": "all permutations of all houses; a wrong broadcast or transposition shows only for some orders", "anchors": ["heat_load_calc/core/sequence.py:run_tick", "heat_load_calc/core/pre_calc_parameters.py:make_pre_calc_parameters", "heat_load_calc/core/next_condition.py:calc_next_temp_and_load", "heat_load_calc/core/core.py:calc", "heat_load_calc/core/infiltration.py:make_get_infiltration_function"]}
{"id": "C65", "title": "The weather table belongs to the region and to the instant of each row", "statement": "A weather table is made exactly for regions 1 to 8 and the intervals 1h, 30m and 15m, from a file with one line for every hour of the year. Each row shows the values of the region's own file interpolated to the instant of the row, every quantity in its own column and unit (temperature in degrees C, radiation in W/m2, humidity in kg/kg), and the direction of the sun at the same instant at the region's place. Rounding changes nothing for hourly data with one decimal; radiation and humidity are never negative.", "quantifier": "all weather files, regions, intervals and rows", "why_tests_cant": "all files and all instants; a shifted or exchanged column gives plausible numbers", "anchors": ["heat_load_calc/weather/weather.py:make_weather", "heat_load_calc/weather/weather_data.py:load", "heat_load_calc/weather/weather_data.py:_get_filename", "heat_load_calc/weather/region_location.py:get_phi_loc_and_lambda_loc"]}
{"id": "C66", "title": "The conversions can be run one after the other, from the indices of a house to the input of the initializer", "statement": "Each conversion accepts the dictionary the one before has written and describes the same house: envelope area, heat loss and so U_A are kept from the indices to the level with inner floors and walls, and every part belongs to a room. The last conversion returns the input of the initializer.", "quantifier": "all descriptions of houses, regions, floor areas and indices", "why_tests_cant": "all houses through four dictionary formats; names and forms of entries have to agree for every kind of part", "anchors": ["heat_load_calc/convert/convert_indices_to_lv2_info.py:convert_spec", "heat_load_calc/convert/convert_lv2_to_lv3.py:convert_spec", "heat_load_calc/convert/convert_lv3_to_lv4.py:convert_spec", "heat_load_calc/convert/convert_lv4_to_h_hlc.py:convert_lv4_to_initializer", "heat_load_calc/convert/convert_lv4_to_h_hlc.py:make_rooms"]}
{"id": "C67", "title": "The resistance of a surface depends only on the direction of heat flow and on whether it faces the open air", "statement": "Upward, horizontal and downward heat flow have the inner resistances 0.09, 0.11 and 0.15 m2K/W; the outer resistance is 0.04 in the open air and equal to the inner one otherwise. Impossible combinations are rejected. Every place where the program needs these numbers uses the same ones.", "quantifier": "all kinds of parts and adjacent spaces, known or not", "why_tests_cant": "the same table is written down three times in different forms; agreement has to hold for every kind of part in every place", "anchors": ["heat_load_calc/convert/a_06_common_items.py:get_r_surf", "heat_load_calc/convert/ees_house.py:GeneralPartSpecUValue", "heat_load_calc/convert/get_u_psi_eta_from_u_a_and_eta_a.py:get_u_psi_max"]}
{"id": "C68", "title": "The solar gain of a window given by its glass, frame and shade", "statement": "The solar gain of a window lies between 0 and 1. Shades and better glass lower it. A double window lets in less than either of its windows alone. Unknown glasses, frames and shades are rejected.", "quantifier": "all descriptions of windows", "why_tests_cant": "all combinations of two frames, glasses and shades, and all numbers given by the user", "anchors": ["heat_load_calc/convert/convert_lv4_to_h_hlc.py:get_eta", "heat_load_calc/convert/convert_lv4_to_h_hlc.py:get_eta_from_specification"]}
{"id": "C69", "title": "Converter and calculation agree on orientations and temperature difference factors", "statement": "Azimuth, tilt, ground reflectance and temperature difference factor written for a part of the envelope are the ones the solar and the envelope calculations use for the same direction, space and region.", "quantifier": "all directions, adjacent spaces and regions", "why_tests_cant": "two tables with different names for the same things; they have to agree entry by entry, and reject the same regions", "anchors": ["heat_load_calc/convert/convert_lv4_to_h_hlc.py:get_directionangle_from_direction", "heat_load_calc/convert/convert_lv4_to_h_hlc.py:get_inclinationangle_from_direction", "heat_load_calc/convert/convert_lv4_to_h_hlc.py:get_tempdifferentfactor_from_direction", "heat_load_calc/convert/convert_lv4_to_h_hlc.py:get_boundary_for_outer_skin", "heat_load_calc/convert/convert_lv4_to_h_hlc.py:get_direction_from_direction_for_outer_skin", "heat_load_calc/external/factor_h.py:get_h", "heat_load_calc/initializer/external_boundaries_direction.py:get_w_alpha_j_w_beta_j"]}
{"id": "C70", "title": "Estimated airtightness follows insulation and structure", "statement": "The C value estimated from UA is 4.16 UA for concrete and 8.28 UA for frame structures; with it, a better insulated or concrete house never has more infiltration than a worse insulated or frame house in the same conditions.", "quantifier": "all UA values, structures, houses and temperatures", "why_tests_cant": "an order between two houses that has to hold at every temperature", "anchors": ["heat_load_calc/initializer/estimate_c_value.py:estimate_c_value", "heat_load_calc/initializer/estimate_c_value.py:Structure", "heat_load_calc/core/infiltration.py"]}
{"id": "C71", "title": "From the description of a house to the result", "statement": "A complete description of a house whose numbers make sense (positive volumes and areas, no negative air flows, ids in range, every room with a floor and something else, walls that respond to heat) is processed, read by the core and calculated over the whole period without an error, with the infiltration of the house itself, as long as the rooms are heated by warm air or there is only one room. The core then holds the rooms, boundaries, schedules and gains of the files, every number in its place.", "quantifier": "all houses, schedules, calendars, weather files in which the sun never stands exactly in the plane of a wall with a sunshade, start values and lengths of the run-up and main period up to a year", "why_tests_cant": "every stage may stop with an error (missing key, singular matrix, index out of range); that none does for any sensible house in any weather cannot be sampled", "anchors": ["heat_load_calc/initializer/initializer.py:make_house", "heat_load_calc/core/pre_calc_parameters.py:make_pre_calc_parameters", "heat_load_calc/core/core.py:calc", "heat_load_calc/core/infiltration.py", "heat_load_calc/core/shape_factor.py"]}
{"id": "C72", "title": "Humidity stays between what is there", "statement": "Over a step and over a whole calculation no room and no furniture becomes drier than the driest of the rooms, the furniture, the outdoor air and the cooling coils at work; humidity is never negative. Without moisture gains and occupants no room becomes more humid than the most humid of its own air, its furniture and the air that enters. The humidity at the start is forgotten: two calculations with the same temperatures approach each other wherever outdoor air comes in.", "quantifier": "all houses with positive volumes and furniture, all states, all weather, gains and occupants that are not negative, all run lengths", "why_tests_cant": "negative or self-amplifying humidity shows up for particular combinations of air flows, coil and furniture only; the bound must hold for all of them and for any number of steps", "anchors": ["heat_load_calc/core/sequence.py:run_tick", "heat_load_calc/core/heat_exchanger.py:get_dehumid_coeff", "heat_load_calc/core/occupants.py:get_x_hum_psn_is_n", "heat_load_calc/initializer/initializer.py:_get_v_int_vent_is"]}
{"id": "C73", "title": "The start is forgotten", "statement": "The run-up exists so that the result does not depend on the state the calculation starts from. Two calculations of the same house under the same weather, gains and operation that start from different states approach each other geometrically: after enough steps all room and furniture temperatures agree to within any wanted accuracy, and the number of steps depends on the house and the accuracy, not on the weather.", "quantifier": "all houses whose walls and furniture leak, all pairs of starting states and run-up lengths, all weather, all numbers of steps", "why_tests_cant": "a test compares two run-up lengths for one house; that differences decay for every house, wall and history, at a rate fixed in advance, is a statement about all of them", "anchors": ["heat_load_calc/core/core.py:calc", "heat_load_calc/core/sequence.py:run_tick", "heat_load_calc/initializer/response_factor.py:calc_response_factor"]}
{"id": "C74", "title": "Under constant conditions an unattended house comes to rest in the textbook steady state", "statement": "With weather, sun, gains, ventilation and occupancy that never change and no heating or cooling demand, there is exactly one textbook steady state of the house (walls conduct temperature difference / resistance, surfaces and room air are in balance, people give off the heat of that room temperature). The temperatures of rooms, furniture and surfaces that the calculation reports approach it geometrically, at a rate that depends on the house and its outdoor air only, so that after enough time steps they agree with it to within any wanted accuracy, whatever the run-up and the humidity at the start.", "quantifier": "all houses with physical boundaries (existence, uniqueness); all leaky houses without inner walls and air paths, all constant step data, run-ups, lengths of calculation and accuracies (approach)", "why_tests_cant": "existence and the limit for every house and every constant condition; a test runs one house for a finite number of steps and cannot tell slow convergence from none", "anchors": ["heat_load_calc/core/sequence.py:run_tick", "heat_load_calc/core/core.py:calc", "heat_load_calc/core/occupants.py:get_q_hum_psn_is_n"]}
{"id": "C75", "title": "The humidity at the start is forgotten and comes to rest at that of the outdoor air plus the sources", "statement": "As long as the cooling coils do the same, the room and furniture humidities of two calculations over the same conditions approach each other geometrically, whatever their humidities and temperatures at some step and whatever their run-up, so that results do not depend on the humidity at the start. Under constant conditions they come to rest at the outdoor humidity plus moisture gains and occupants' vapour divided by the mass flow of outdoor air. The humidities reach the temperatures, loads and air flows only through the comfort targets.", "quantifier": "all houses whose rooms take in more outdoor air than air from other rooms (one step, runs with equal temperatures, runs of heated and cooled houses with equal targets); all leaky unattended houses with people (runs with different temperatures, rest); all run-ups, humidities, weather and gains", "why_tests_cant": "a statement about all pairs of calculations and all lengths; a test compares two runs at a time, and the air paths for which it fails are not in the test houses", "anchors": ["heat_load_calc/core/sequence.py:run_tick", "heat_load_calc/core/core.py:calc", "heat_load_calc/core/occupants.py:get_x_hum_psn_is_n", "heat_load_calc/initializer/initializer.py:_get_v_int_vent_is"]}
{"id": "C76", "title": "Free heat replaces heating", "statement": "In a room that convective equipment holds at its target, one watt more of internal gain in a step means one watt less of heating load (one watt more of cooling load) in that room, and leaves every temperature and every other load of the step as it was. In general more internal gains, more sun or warmer surroundings never raise the heating load and never lower the cooling load of a conditioned room.", "quantifier": "first part: all houses, states and steps, air paths included, as long as the same rooms are heated and cooled with and without the gain; second part: one conditioned room, all houses without air paths, radiant equipment included, all pairs of conditions of which one is nowhere colder", "why_tests_cant": "it compares two calculations for all houses and all gains; the rooms interact through the walls and the two-pass load calculation, so a check in one house says nothing about another", "anchors": ["heat_load_calc/core/sequence.py:run_tick", "heat_load_calc/core/next_condition.py:calc_next_temp_and_load", "heat_load_calc/core/next_condition.py:get_load_and_temp"]}
{"id": "C77", "title": "Sunlight on glazing is transmitted, reflected or absorbed, and nothing else", "statement": "For a glazing of any number of panes, the total transmittance, the total reflectance and the absorptances of the panes are those of the light that goes back and forth between the panes: together they are exactly 1, each lies between 0 and 1, and no calculation fails. One more pane never lets more sun in; turning the glazing round exchanges front and back; panes that transmit alike both ways make a glazing that does. Wrong pane numbers and a glazing without panes are refused.", "quantifier": "all stacks of panes, of any number, whose transmittance and reflectance on either side are not negative, sum to at most 1 and do not reflect everything", "why_tests_cant": "the formulas are recursive over an unbounded number of panes and real coefficients; a sample of glazings cannot show that no light is lost or made in every stack", "anchors": ["notebook/initializer/shgc_window/multiple_reflection.py:Glass.get_solar_spec_multi_layer", "notebook/initializer/shgc_window/multiple_reflection.py:Glass.get_abs_multi_layer", "notebook/initializer/shgc_window/multiple_reflection.py:Glass.get_total_solar_spec"]}
{"id": "C78", "title": "Heat through glazing and the part of the absorbed sun that comes in", "statement": "For a glazing of any number of panes the heat that enters the room is its U value times the temperature difference plus the share of the absorbed sun that is computed from the resistances, and what does not come in goes out; light and heat together account for all sun. No surface is colder than the colder side, and without sun none is warmer than the warmer side. Each resistance is that of the surface, pane or gap in its place, at the temperatures of that place. The U value exists and is positive, never rises with a coating that emits less or a thicker pane and falls with every further pane; the solar heat gain coefficient lies between the transmittance and what is not reflected, whatever the strength of the sun. The heat transfer at the inside surface depends on the innermost pane only.", "quantifier": "all glazings with any number of panes, gas mixtures, gap widths, coatings in the range of the table, all temperatures (between -40 and 60 degrees C where the resistances are taken at the temperatures found), all absorbed radiation", "why_tests_cant": "the balance holds for every number of panes and all real resistances, and relates the solution of a system of equations to a formula that does not solve it; tests compare a few glazings with printed values", "anchors": ["notebook/initializer/shgc_window/glass_thermal_balance.py:Glass.get_temp_and_r", "notebook/initializer/shgc_window/glass_thermal_balance.py:Glass.get_r_qin", "notebook/initializer/shgc_window/glass_thermal_balance.py:Glass.get_heat_transmittance", "notebook/initializer/shgc_window/glass_thermal_balance.py:Glass.get_h_i", "notebook/initializer/shgc_window/glass_thermal_balance.py:LowESurface.eps", "notebook/initializer/shgc_window/window.py:calc"]}
