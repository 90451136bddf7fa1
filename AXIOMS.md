# What `Print Assumptions` lists for each theorem

Generated by `tools/axioms.py` from a finished build.

## Closed under the global context

133 theorems: C01_visits, C01_range, C01_simulation, C01_rejected, C01_negative_run_up_refuted, C02_room_heat_balance_partial, C02_room_heat_balance_as_coded, C02_room_heat_balance_iff, C02_room_heat_balance_refuted, C03_operative_temperature, C04_furniture, C05_surface_response_partial, C05_surface_response_refuted, C06_load, C06_linear_balance, C07_radiant_capacity_partial, C07_radiant_capacity_refuted, C07_house_refuted, C08_load_sign_partial, C08_load_sign_refuted, C08_house_refuted, C09_vapour_balance, C10_dehumidification_partial, C10_no_cooling_no_latent, C10_never_more_humid, C10_air_paths_refuted, C11_equilibrium_partial, C11_equilibrium_refuted, C12_solar_split, C13_mrt_weights, C15_separate, C15_steady, C15_contraction, C15_converges, C16_hand_over, C16_calculation, C17_history_accepted, C17_mode_meaning, C17_transitions, C17_illegal_mode, C17_constant_conditions_partial, C17_constant_room_partial, C17_clothing_order, C17_constant_conditions_refuted, C17_step, C17_run, C18_target_realises_pmv, C18_monotone, C18_room_target, C18_house, C19_occupants, C20_bounds, C20_volume, C20_symmetric, C20_monotone, C20_value, C20_accepts, C20_calculation, C20_step, C28_parts, C29_create, C30_create, C33_at_most_four, C34_walls, C34_kind, C44_directions, C46_pmv_vapour_pressure, C49_ends, C49_linear, C49_monotone, C49_limits, C49_sign, C49_positive, C49_used, C51_step_completes, C51_two_radiant_rooms_fail, C51_calculation_completes, C53_monotone, C54_first_law, C54_radiant_exchange, C60_rooms, C60_surfaces, C60_all_steps, C60_total_refuted, C62_steady, C62_stays, C62_unique, C62_exists, C62_textbook, C64_reordered, C64_step, C64_leakage, C64_symmetric, C70_value, C70_order, C70_frame, C70_infiltration, C70_structures, C72_not_drier, C72_run_not_drier, C72_no_source_partial, C72_run_no_source_partial, C72_air_paths, C72_no_source_refuted, C72_grows_refuted, C72_forgets, C73_runaway_refuted, C73_air_paths_refuted, C73_step_partial, C73_measure, C73_run_partial, C73_free_partial, C73_forgotten_partial, C74_exists, C74_unique, C74_run_partial, C74_settles_partial, C75_step_partial, C75_run_partial, C75_heat, C75_operated_partial, C75_free_partial, C75_exists, C75_settles_partial, C75_limit_partial, C75_air_paths, C75_air_paths_refuted, C76_replaces, C76_less_partial, C76_rooms_refuted, C76_air_paths_refuted, C77_no_pane, C78_counts.

## `ClassicalDedekindReals.sig_forall_dec`

8 theorems: C44_window_partial, C44_door_partial, C44_earth_floor, C44_heat_bridge, C44_inner, C44_sunshade_refuted, C44_lengths, C69_side.

## `ClassicalDedekindReals.sig_forall_dec`, `FunctionalExtensionality.functional_extensionality_dep`

169 theorems: C21_value, C21_integer, C21_range, C21_continuous, C21_accepts, C22_places_partial, C22_exchanged, C22_cooking_refuted, C23_range, C23_monotone, C23_accepted, C24_value, C24_on_the_hour, C24_envelope, C24_intervals, C31_own_coefficients, C32_entries, C32_total, C32_completes, C32_rejects_partial, C32_negative_refuted, C33_accepted, C33_only_valid, C33_values, C33_equipment, C34_readable_partial, C34_rooms, C34_cooling_refuted, C34_furniture, C34_beta, C34_radiative_cooling_refuted, C35_view_factors_partial, C35_no_floor, C35_only_floor, C35_radiant_partial, C35_radiant_each, C35_radiant_undefined, C36_partition, C36_area, C36_common_boundary, C36_similar_partial, C36_order_partial, C36_similar_refuted, C36_order_refuted, C37_split, C37_sizes, C37_nonneg_partial, C37_nonneg_refuted, C37_heat_loss, C37_heatbridge_loss, C37_heatbridge_gain, C37_solar_gain, C37_no_floor, C38_floors_positive, C38_underfloor_partial, C38_floors_partial, C38_underfloor_refuted, C38_floors_refuted, C39_ventilation, C39_no_main_room, C39_upstream_refuted, C41_multipliers, C41_monotone, C41_met, C41_values, C41_uninsulated, C41_standard, C41_standard_refuted, C41_total, C41_attached_refuted, C41_region_8_refuted, C41_region, C41_division_refuted, C42_means, C42_between_partial, C42_between_refuted, C42_split, C43_u_value, C43_correction, C43_loss, C43_accepted, C43_rejected, C43_nonneg_partial, C43_nonneg_refuted, C44_general_part_partial, C44_layer, C44_reread, C44_lists, C46_humidity_ratio, C46_vapour_pressure, C46_inverse_partial, C46_inverse_refuted, C48_max_ge_rated, C48_increasing, C48_positive_partial, C48_rated_heating_refuted, C48_rated_below_minimum, C48_minimum_flow, C48_turn_down, C50_completes, C50_negative_days, C50_columns, C50_detail_rooms, C50_detail_modes, C50_detail_boundaries, C50_detail_outdoor, C50_hourly_means, C50_hourly_sums, C50_hourly_outdoor, C50_hourly_mode, C50_dry_air_refuted, C50_any_interval_partial, C50_intervals_refuted, C52_multiple, C52_error, C52_half, C52_odd, C52_monotone, C52_fixed, C58_eta_met, C58_sun, C63_factor, C63_deeper, C63_faces, C66_rooms, C66_last_refuted, C66_name_refuted, C67_table, C67_rejected, C67_space_refuted, C67_largest, C67_layers_partial, C67_layers_refuted, C68_share, C68_accepts, C68_shades, C68_panes, C68_frames, C68_single, C68_given_single, C68_double, C68_given_partial, C68_given_refuted, C68_rejected, C69_factor, C69_outdoor, C69_space, C69_region, C69_open_space_refuted, C77_light, C77_unique, C77_conserved, C77_shares, C77_pane_inside, C77_pane_outside, C77_turned, C77_both_ways, C77_numbers, C78_share, C78_shgc, C78_emissivity, C78_emissivity_table, C78_gas, C78_table, C78_mixture, C78_fill, C78_at_10, C78_inside_refuted, C78_inside_partial.

## `ClassicalDedekindReals.sig_forall_dec`, `ClassicalDedekindReals.sig_not_dec`, `FunctionalExtensionality.functional_extensionality_dep`

44 theorems: C14_equation, C14_factors, C14_bounds, C14_own_partial, C14_order_refuted, C25_places, C26_view, C26_directions, C27_range, C27_geometry, C27_night, C27_deeper, C27_deeper_sky, C27_sky, C27_create, C30_solutions, C30_best_fit, C30_massless, C30_opening, C31_core, C34_matrices, C38_walls_positive, C38_walls, C38_walls_two_rooms, C40_total, C40_geometry, C40_foundation, C40_openings, C40_parts, C40_sides, C40_prescribed_partial, C40_prescribed_refuted, C40_nonneg_partial, C40_nonneg_refuted, C41_detached, C41_dwelling_refuted, C47_even, C55_repeat_partial, C59_clothing_temperature, C59_velocity, C66_inner, C66_sunshade_refuted, C66_chain_partial, C69_angles.

## `ClassicalDedekindReals.sig_forall_dec`, `Epsilon.epsilon_statement`, `FunctionalExtensionality.functional_extensionality_dep`

1 theorems: C71_steps.

## `ClassicalDedekindReals.sig_forall_dec`, `ClassicalDedekindReals.sig_not_dec`, `Classical_Prop.classic`, `FunctionalExtensionality.functional_extensionality_dep`

79 theorems: C25_direction, C25_regions, C25_accepts, C26_parts, C26_bounds, C26_turned_away, C26_horizontal, C27_no_sunshade_refuted, C27_no_sunshade_as_coded, C28_diffuse, C28_bounds, C28_incident_partial, C28_incident_refuted, C28_dark, C28_monotone, C28_defined, C29_opaque, C29_lower, C29_monotone, C29_transparent, C29_no_sun, C30_transfer, C30_wall, C30_ground, C30_completes, C30_steady_state, C31_outside_partial, C31_off_by, C31_inner, C31_ground, C31_refuted, C34_boundaries, C35_refuted, C36_same_neighbour, C45_accepted_refuted, C45_missing, C45_general_part_partial, C45_door_partial, C45_window_partial, C46_saturation_defined, C46_saturation_positive, C46_saturation_increasing, C46_saturation_values, C46_arrays_agree, C46_relative_humidity, C46_saturated_air_refuted, C47_range, C47_least, C47_increasing, C47_returned, C48_air_flow, C55_repeat_as_coded, C55_repeat_refuted, C56_conserved_partial, C56_each_room, C56_lost_refuted, C57_complete, C59_pmv_increasing, C59_standard, C59_differential, C59_same_pressure, C59_media, C65_accepts, C65_rows, C65_length, C65_exact, C65_nonneg, C73_walls, C78_u_value, C78_resistances, C78_resistances_calc, C78_heat_in, C78_temperatures, C78_balance, C78_sun, C78_coating, C78_more_panes, C78_gap, C78_convection.

## `ClassicalDedekindReals.sig_forall_dec`, `ClassicalDedekindReals.sig_not_dec`, `Epsilon.epsilon_statement`, `FunctionalExtensionality.functional_extensionality_dep`

8 theorems: C61_clothing_temperature, C61_increasing, C61_target, C61_transfer, C61_constant, C61_methods, C71_matrices, C71_carries.

## `ClassicalDedekindReals.sig_forall_dec`, `ClassicalDedekindReals.sig_not_dec`, `Classical_Prop.classic`, `Epsilon.epsilon_statement`, `FunctionalExtensionality.functional_extensionality_dep`

2 theorems: C61_same_pmv, C71_runs.
