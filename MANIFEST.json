{
 "claims": [
  {
   "property": "C01",
   "status": "proved",
   "theorems": [
    "C01_density_every_altitude",
    "C01_density_bounded"
   ],
   "note": ""
  },
  {
   "property": "C02",
   "status": "proved",
   "theorems": [
    "C02_scalar_vector_agree",
    "C02_scalar_vector_differ_outside"
   ],
   "note": ""
  },
  {
   "property": "C03",
   "status": "proved",
   "theorems": [
    "C03_table_lookup",
    "C03_between_neighbours",
    "C03_lipschitz"
   ],
   "note": ""
  },
  {
   "property": "C04",
   "status": "proved",
   "theorems": [
    "C04_nondim_round_trip",
    "C04_scaled_radius"
   ],
   "note": ""
  },
  {
   "property": "C05",
   "status": "proved",
   "theorems": [
    "C05_altitude_radius",
    "C05_plot_units_injective",
    "C05_plot_units"
   ],
   "note": ""
  },
  {
   "property": "C06",
   "status": "proved",
   "theorems": [
    "C06_catalogue",
    "C06_constants",
    "C06_surface_gravity",
    "C06_standard_gravity"
   ],
   "note": ""
  },
  {
   "property": "C07",
   "status": "proved",
   "theorems": [
    "C07_sigma_profiles",
    "C07_profile_monotone",
    "C07_file3_ordered",
    "C07_file2_columns",
    "C07_profile_values"
   ],
   "note": ""
  },
  {
   "property": "C08",
   "status": "proved",
   "theorems": [
    "C08_blocks_tile_the_file"
   ],
   "note": ""
  },
  {
   "property": "C09",
   "status": "proved",
   "theorems": [
    "C09_scale_height_ignores_argument",
    "C09_scale_height_value",
    "C09_below_surface",
    "C09_measurement_ignored_refuted"
   ],
   "note": ""
  },
  {
   "property": "C10",
   "status": "proved",
   "theorems": [
    "C10_launch_mass"
   ],
   "note": ""
  },
  {
   "property": "C11",
   "status": "proved",
   "theorems": [
    "C11_axis_floor"
   ],
   "note": ""
  },
  {
   "property": "C12",
   "status": "proved",
   "theorems": [
    "C12_link_budget",
    "C12_margin_trends"
   ],
   "note": ""
  },
  {
   "property": "C13",
   "status": "proved",
   "theorems": [
    "C13_receiver_diameter_unused",
    "C13_receiver_gain"
   ],
   "note": ""
  },
  {
   "property": "C14",
   "status": "proved",
   "theorems": [
    "C14_link_fails_exactly_when",
    "C14_isotropic_rejected_refuted"
   ],
   "note": ""
  },
  {
   "property": "C15",
   "status": "proved",
   "theorems": [
    "C15_schedule",
    "C15_window_order_irrelevant",
    "C15_permutation",
    "C15_degenerate"
   ],
   "note": ""
  },
  {
   "property": "C16",
   "status": "proved",
   "theorems": [
    "C16_data_volume",
    "C16_defined",
    "C16_error"
   ],
   "note": ""
  },
  {
   "property": "C17",
   "status": "proved",
   "theorems": [
    "C17_look",
    "C17_lander_to_planet",
    "C17_lander_to_orbiter",
    "C17_rotation_phase"
   ],
   "note": ""
  },
  {
   "property": "C18",
   "status": "proved",
   "theorems": [
    "C18_occultation_exact"
   ],
   "note": ""
  },
  {
   "property": "C19",
   "status": "proved",
   "theorems": [
    "C19_time_grid_direction",
    "C19_retrograde_data_volume"
   ],
   "note": ""
  },
  {
   "property": "C20",
   "status": "proved",
   "theorems": [
    "C20_frame_changes_are_rotations",
    "C20_lengths_kept",
    "C20_pole_becomes_z"
   ],
   "note": ""
  },
  {
   "property": "C21",
   "status": "proved",
   "theorems": [
    "C21_hyperbola_well_formed",
    "C21_constructor_errors",
    "C21_zero_velocity_silent"
   ],
   "note": ""
  },
  {
   "property": "C22",
   "status": "proved",
   "theorems": [
    "C22_periapsis_targeting"
   ],
   "note": ""
  },
  {
   "property": "C23",
   "status": "proved",
   "theorems": [
    "C23_energy_and_angular_momentum"
   ],
   "note": ""
  },
  {
   "property": "C24",
   "status": "proved",
   "theorems": [
    "C24_elements_reproduce_vectors",
    "C24_equatorial_undefined",
    "C24_h_vector_magnitude_refuted"
   ],
   "note": ""
  },
  {
   "property": "C25",
   "status": "proved",
   "theorems": [
    "C25_entry_interface"
   ],
   "note": ""
  },
  {
   "property": "C26",
   "status": "proved",
   "theorems": [
    "C26_atmosphere_relative_velocity"
   ],
   "note": ""
  },
  {
   "property": "C27",
   "status": "proved",
   "theorems": [
    "C27_b_plane",
    "C27_pole_undefined",
    "C27_B_vector_magnitude_refuted"
   ],
   "note": ""
  },
  {
   "property": "C28",
   "status": "proved",
   "theorems": [
    "C28_probe_orbiter",
    "C28_inside_periapsis_undefined",
    "C28_orbiter_orbiter",
    "C28_legs_are_approaches"
   ],
   "note": ""
  },
  {
   "property": "C29",
   "status": "proved",
   "theorems": [
    "C29_probe_time_of_flight"
   ],
   "note": ""
  },
  {
   "property": "C30",
   "status": "proved",
   "theorems": [
    "C30_second_probe_angle",
    "C30_same_radius_refuted"
   ],
   "note": ""
  },
  {
   "property": "C31",
   "status": "proved",
   "theorems": [
    "C31_orbit_states"
   ],
   "note": ""
  },
  {
   "property": "C32",
   "status": "proved",
   "theorems": [
    "C32_velocity_always_outward"
   ],
   "note": ""
  },
  {
   "property": "C33",
   "status": "proved",
   "theorems": [
    "C33_requested_apsides"
   ],
   "note": ""
  },
  {
   "property": "C34",
   "status": "proved",
   "theorems": [
    "C34_capture_orbit",
    "C34_insertion_dv",
    "C34_dv_decreasing",
    "C34_entry_approach_raises"
   ],
   "note": ""
  },
  {
   "property": "C35",
   "status": "proved",
   "theorems": [
    "C35_timed_trajectory",
    "C35_kepler_motion",
    "C35_root_failure_raises"
   ],
   "note": ""
  },
  {
   "property": "C36",
   "status": "proved",
   "theorems": [
    "C36_targeting_raises_iff",
    "C36_fresh_orbiter",
    "C36_deflection_raises_iff",
    "C36_stale_entry_anomaly",
    "C36_enters_meaning",
    "C36_some_burn_enters"
   ],
   "note": ""
  },
  {
   "property": "C37",
   "status": "proved",
   "theorems": [
    "C37_aero_decomposition",
    "C37_vectorised_is_scalar"
   ],
   "note": ""
  },
  {
   "property": "C38",
   "status": "proved",
   "theorems": [
    "C38_gravity_is_gradient",
    "C38_projections"
   ],
   "note": ""
  },
  {
   "property": "C39",
   "status": "proved",
   "theorems": [
    "C39_jacobi_rate",
    "C39_dissipation",
    "C39_vacuum"
   ],
   "note": ""
  },
  {
   "property": "C40",
   "status": "proved",
   "theorems": [
    "C40_rotating_newton",
    "C40_polar_momentum_rate",
    "C40_vacuum_momentum_not_conserved",
    "C40_defined_iff"
   ],
   "note": ""
  },
  {
   "property": "C41",
   "status": "proved",
   "theorems": [
    "C41_same_accelerations",
    "C41_si_newton"
   ],
   "note": ""
  },
  {
   "property": "C42",
   "status": "proved",
   "theorems": [
    "C42_total",
    "C42_classification",
    "C42_retained",
    "C42_horizon_matters"
   ],
   "note": ""
  },
  {
   "property": "C43",
   "status": "proved",
   "theorems": [
    "C43_truncation",
    "C43_flight_aligned",
    "C43_empty_flight_raises"
   ],
   "note": ""
  },
  {
   "property": "C44",
   "status": "proved",
   "theorems": [
    "C44_load_formula",
    "C44_vehicle_load"
   ],
   "note": ""
  },
  {
   "property": "C45",
   "status": "proved",
   "theorems": [
    "C45_heating_nonneg",
    "C45_heating_defined",
    "C45_heating_undefined",
    "C45_nose_radius_scaling",
    "C45_no_radiation",
    "C45_total_is_sum",
    "C45_venus_jumps",
    "C45_earth_jump"
   ],
   "note": ""
  },
  {
   "property": "C46",
   "status": "proved",
   "theorems": [
    "C46_heat_load",
    "C46_continued_load_fails",
    "C46_same_when_zero"
   ],
   "note": ""
  },
  {
   "property": "C47",
   "status": "proved",
   "theorems": [
    "C47_sweep",
    "C47_sweep_interrupted"
   ],
   "note": ""
  },
  {
   "property": "C48",
   "status": "proved",
   "theorems": [
    "C48_limit_is_a_boundary",
    "C48_terminates",
    "C48_rounds_exact",
    "C48_unique_boundary",
    "C48_never_ends_without_tolerance"
   ],
   "note": ""
  },
  {
   "property": "C49",
   "status": "proved",
   "theorems": [
    "C49_restored",
    "C49_narrow_bracket_raises",
    "C49_crash_leaves_trial_angle"
   ],
   "note": ""
  },
  {
   "property": "C50",
   "status": "proved",
   "theorems": [
    "C50_width",
    "C50_failure_is_silent",
    "C50_true_width",
    "C50_drag_width"
   ],
   "note": ""
  },
  {
   "property": "C51",
   "status": "proved",
   "theorems": [
    "C51_captured",
    "C51_hits_target",
    "C51_hits_target2",
    "C51_gas_giants_raise",
    "C51_gas_giant_searches_raise",
    "C51_inertial_capture_refuted"
   ],
   "note": ""
  },
  {
   "property": "C52",
   "status": "proved",
   "theorems": [
    "C52_elements",
    "C52_reported_apsides"
   ],
   "note": ""
  },
  {
   "property": "C53",
   "status": "proved",
   "theorems": [
    "C53_inertial_velocity",
    "C53_orbiter"
   ],
   "note": ""
  },
  {
   "property": "C54",
   "status": "proved",
   "theorems": [
    "C54_periapsis_raise",
    "C54_apoapsis_raise",
    "C54_monotone",
    "C54_below_centre"
   ],
   "note": ""
  },
  {
   "property": "C55",
   "status": "proved",
   "theorems": [
    "C55_one_cycle",
    "C55_change",
    "C55_overshoot",
    "C55_never_settles",
    "C55_chatters",
    "C55_settles_on_lattice"
   ],
   "note": ""
  },
  {
   "property": "C56",
   "status": "proved",
   "theorems": [
    "C56_range",
    "C56_range_sharp",
    "C56_glide_bank",
    "C56_guided_bank",
    "C56_exit_levels"
   ],
   "note": ""
  },
  {
   "property": "C57",
   "status": "proved",
   "theorems": [
    "C57_range",
    "C57_law",
    "C57_no_air"
   ],
   "note": ""
  },
  {
   "property": "C58",
   "status": "proved",
   "theorems": [
    "C58_how_it_ends",
    "C58_what_continues",
    "C58_switch_irrelevant",
    "C58_slow_start",
    "C58_never_ends",
    "C58_drag_how_entry_ends",
    "C58_drag_how_exit_ends",
    "C58_drag_switch_irrelevant"
   ],
   "note": ""
  },
  {
   "property": "C59",
   "status": "proved",
   "theorems": [
    "C59_glide_arrays",
    "C59_exit_arrays",
    "C59_guided_arrays",
    "C59_times",
    "C59_junctions",
    "C59_exit_junctions",
    "C59_drag_arrays",
    "C59_drag_times",
    "C59_drag_junctions"
   ],
   "note": ""
  },
  {
   "property": "C60",
   "status": "proved",
   "theorems": [
    "C60_undisturbed",
    "C60_vehicles_same",
    "C60_view_is_the_vehicle",
    "C60_prediction",
    "C60_prediction_jettison"
   ],
   "note": ""
  },
  {
   "property": "C61",
   "status": "proved",
   "theorems": [
    "C61_reproduces_measurements",
    "C61_extrapolates_exponentially",
    "C61_held_outside",
    "C61_positive"
   ],
   "note": ""
  },
  {
   "property": "C62",
   "status": "proved",
   "theorems": [
    "C62_queries_reconfigure",
    "C62_effect",
    "C62_LD_has_no_effect",
    "C62_parameters_required"
   ],
   "note": ""
  },
  {
   "property": "C63",
   "status": "proved",
   "theorems": [
    "C63_runs_as_if_alone",
    "C63_prefix_of_longer"
   ],
   "note": ""
  },
  {
   "property": "C64",
   "status": "proved",
   "theorems": [
    "C64_drawn_LD_not_flown",
    "C64_LD_recorded",
    "C64_drag_beta1_unused",
    "C64_drag_earth_beta1_unused"
   ],
   "note": ""
  },
  {
   "property": "C65",
   "status": "proved",
   "theorems": [
    "C65_any_crash_point",
    "C65_after_exception",
    "C65_existing_folder",
    "C65_no_restart"
   ],
   "note": ""
  },
  {
   "property": "C66",
   "status": "proved",
   "theorems": [
    "C66_heading_formula",
    "C66_heading_refuted"
   ],
   "note": ""
  },
  {
   "property": "C67",
   "status": "proved",
   "theorems": [
    "C67_exit_state",
    "C67_no_points_raises",
    "C67_coast_starts_at_exit",
    "C67_inbound_exit_refuted"
   ],
   "note": ""
  },
  {
   "property": "C68",
   "status": "proved",
   "theorems": [
    "C68_periapsis_raise_dv"
   ],
   "note": ""
  },
  {
   "property": "C69",
   "status": "proved",
   "theorems": [
    "C69_escaping_vehicle_silent",
    "C69_equatorial_undefined"
   ],
   "note": ""
  },
  {
   "property": "C70",
   "status": "proved",
   "theorems": [
    "C70_probe_plane",
    "C70_gap_iff",
    "C70_entry_on_boundary"
   ],
   "note": ""
  },
  {
   "property": "C71",
   "status": "proved",
   "theorems": [
    "C71_gamma_atm_is_inertial",
    "C71_inertial_entry"
   ],
   "note": ""
  },
  {
   "property": "C72",
   "status": "proved",
   "theorems": [
    "C72_user_drag_law_raises",
    "C72_setting_changes_nothing_else"
   ],
   "note": ""
  },
  {
   "property": "C73",
   "status": "proved",
   "theorems": [
    "C73_time_grid"
   ],
   "note": ""
  },
  {
   "property": "C74",
   "status": "proved",
   "theorems": [
    "C74_glide_heat_restarts",
    "C74_exit_heat_restarts",
    "C74_drag_heat_restarts"
   ],
   "note": ""
  },
  {
   "property": "C75",
   "status": "proved",
   "theorems": [
    "C75_version2_needs_no_heat",
    "C75_prediction_needs_no_heat",
    "C75_drag_version2_needs_no_heat",
    "C75_drag_version1_ignores_heat"
   ],
   "note": ""
  },
  {
   "property": "C76",
   "status": "proved",
   "theorems": [
    "C76_entry_cycle",
    "C76_first_second",
    "C76_exit_cycle",
    "C76_left_behind",
    "C76_flight_independent_of_the_past"
   ],
   "note": ""
  },
  {
   "property": "C77",
   "status": "proved",
   "theorems": [
    "C77_initial_state_overwritten",
    "C77_drag_initial_state_overwritten"
   ],
   "note": ""
  },
  {
   "property": "C78",
   "status": "proved",
   "theorems": [
    "C78_draws_in_range",
    "C78_bad_setup"
   ],
   "note": ""
  },
  {
   "property": "C79",
   "status": "proved",
   "theorems": [
    "C79_later_state_ignored",
    "C79_last_atmosphere_left"
   ],
   "note": ""
  },
  {
   "property": "C80",
   "status": "proved",
   "theorems": [
    "C80_mass_and_area",
    "C80_same_nose_radius"
   ],
   "note": ""
  },
  {
   "property": "C81",
   "status": "proved",
   "theorems": [
    "C81_ballistic_ignores_bank",
    "C81_bank_is_an_angle",
    "C81_lift_turns"
   ],
   "note": ""
  },
  {
   "property": "C82",
   "status": "proved",
   "theorems": [
    "C82_only_air_inside"
   ],
   "note": ""
  },
  {
   "property": "C83",
   "status": "proved",
   "theorems": [
    "C83_longitude",
    "C83_mirror",
    "C83_which_planets",
    "C83_odd_term_breaks_it"
   ],
   "note": ""
  },
  {
   "property": "C84",
   "status": "proved",
   "theorems": [
    "C84_configuration",
    "C84_no_memory",
    "C84_as_good_as_new",
    "C84_stored_flight",
    "C84_after_exceptions",
    "C84_propagations_keep"
   ],
   "note": ""
  },
  {
   "property": "C85",
   "status": "proved",
   "theorems": [
    "C85_rows",
    "C85_sound",
    "C85_outside",
    "C85_all_or_nothing",
    "C85_succeeds_iff",
    "C85_linear",
    "C85_check_grid",
    "C85_check_error"
   ],
   "note": ""
  },
  {
   "property": "C86",
   "status": "proved",
   "theorems": [
    "C86_every_point",
    "C86_ballistic",
    "C86_mach",
    "C86_profiles",
    "C86_units"
   ],
   "note": ""
  },
  {
   "property": "C87",
   "status": "proved",
   "theorems": [
    "C87_never_steeper",
    "C87_from_continuity"
   ],
   "note": ""
  },
  {
   "property": "C88",
   "status": "proved",
   "theorems": [
    "C88_convective",
    "C88_radiative",
    "C88_earth",
    "C88_complete",
    "C88_monotone"
   ],
   "note": ""
  },
  {
   "property": "C89",
   "status": "proved",
   "theorems": [
    "C89_records",
    "C89_total_load",
    "C89_nan_hidden"
   ],
   "note": ""
  },
  {
   "property": "C90",
   "status": "proved",
   "theorems": [
    "C90_first",
    "C90_glide_cycle",
    "C90_drag_cycle",
    "C90_exit_cycle",
    "C90_measured_density",
    "C90_drag_measured_density",
    "C90_underestimates"
   ],
   "note": ""
  },
  {
   "property": "C91",
   "status": "proved",
   "theorems": [
    "C91_report",
    "C91_meaning",
    "C91_prediction"
   ],
   "note": ""
  },
  {
   "property": "C92",
   "status": "proved",
   "theorems": [
    "C92_orbit_array",
    "C92_coast_array",
    "C92_propulsive_array",
    "C92_probe_array",
    "C92_deflection"
   ],
   "note": ""
  },
  {
   "property": "C93",
   "status": "proved",
   "theorems": [
    "C93_entry_place",
    "C93_entry_heading"
   ],
   "note": ""
  },
  {
   "property": "C94",
   "status": "proved",
   "theorems": [
    "C94_vacuum",
    "C94_entry_above_the_air"
   ],
   "note": ""
  },
  {
   "property": "C95",
   "status": "proved",
   "theorems": [
    "C95_range",
    "C95_lander_grid",
    "C95_orbiter_times",
    "C95_orbiter_distances",
    "C95_same_body_lander",
    "C95_same_body_orbiter",
    "C95_saturn_from_titan",
    "C95_orbiter_raises"
   ],
   "note": ""
  },
  {
   "property": "C96",
   "status": "proved",
   "theorems": [
    "C96_exact",
    "C96_limit_is_a_boundary",
    "C96_terminates",
    "C96_too_fine",
    "C96_binary64",
    "C96_spacing"
   ],
   "note": ""
  },
  {
   "property": "C97",
   "status": "proved",
   "theorems": [
    "C97_binary64",
    "C97_time_grid"
   ],
   "note": ""
  },
  {
   "property": "C98",
   "status": "proved",
   "theorems": [
    "C98_past_one",
    "C98_zenith_fragile"
   ],
   "note": ""
  },
  {
   "property": "C99",
   "status": "proved",
   "theorems": [
    "C99_zero_step",
    "C99_no_duration",
    "C99_no_duration_1",
    "C99_measured",
    "C99_density_file"
   ],
   "note": ""
  },
  {
   "property": "C100",
   "status": "proved",
   "theorems": [
    "C100_no_memory",
    "C100_configuration",
    "C100_reset",
    "C100_shared_parameters",
    "C100_what_is_seen"
   ],
   "note": ""
  },
  {
   "property": "C101",
   "status": "proved",
   "theorems": [
    "C101_path_at_clock_angle",
    "C101_aim_point",
    "C101_axes",
    "C101_beta_refuted"
   ],
   "note": ""
  },
  {
   "property": "C102",
   "status": "proved",
   "theorems": [
    "C102_constructor_attributes_stay",
    "C102_calls_do_not_interfere",
    "C102_release_as_on_a_fresh_orbiter",
    "C102_deflection_as_on_a_fresh_orbiter"
   ],
   "note": ""
  },
  {
   "property": "C103",
   "status": "proved",
   "theorems": [
    "C103_lift_flight",
    "C103_drag_flight"
   ],
   "note": ""
  },
  {
   "property": "C104",
   "status": "proved",
   "theorems": [
    "C104_steepest",
    "C104_energy_never_up",
    "C104_lift_guided",
    "C104_drag_guided"
   ],
   "note": ""
  },
  {
   "property": "C105",
   "status": "proved",
   "theorems": [
    "C105_stuck",
    "C105_lift_guided",
    "C105_drag_guided"
   ],
   "note": ""
  },
  {
   "property": "C106",
   "status": "proved",
   "theorems": [
    "C106_on_the_way",
    "C106_same_flight",
    "C106_restart",
    "C106_drag_entry",
    "C106_tables"
   ],
   "note": ""
  },
  {
   "property": "C107",
   "status": "proved",
   "theorems": [
    "C107_probe_time_is_to_periapsis",
    "C107_first_probe_time_is_to_periapsis",
    "C107_entry_time_refuted"
   ],
   "note": ""
  },
  {
   "property": "C108",
   "status": "proved",
   "theorems": [
    "C108_exit_state_bi",
    "C108_heading_refuted"
   ],
   "note": ""
  },
  {
   "property": "C109",
   "status": "proved",
   "theorems": [
    "C109_schedule_clock",
    "C109_windows_are_stretched",
    "C109_clock_refuted",
    "C109_margin_ignored",
    "C109_printed_budget",
    "C109_printed_sum_refuted"
   ],
   "note": ""
  },
  {
   "property": "C110",
   "status": "proved",
   "theorems": [
    "C110_entry_state",
    "C110_two_angles"
   ],
   "note": ""
  },
  {
   "property": "C111",
   "status": "proved",
   "theorems": [
    "C111_saved",
    "C111_mass_vs_TOF_never_saved",
    "C111_file_shows_last_call",
    "C111_other_files_untouched",
    "C111_shared_names",
    "C111_names_apart",
    "C111_names_apart_refuted",
    "C111_colorbar_plots_overwrite",
    "C111_crash",
    "C111_points_shown",
    "C111_drawn_when",
    "C111_what_is_drawn"
   ],
   "note": ""
  },
  {
   "property": "C112",
   "status": "proved",
   "theorems": [
    "C112_nothing_overwritten",
    "C112_results_survive"
   ],
   "note": ""
  },
  {
   "property": "C113",
   "status": "proved",
   "theorems": [
    "C113_as_if_alone",
    "C113_completed_runs",
    "C113_all_end",
    "C113_same_folder"
   ],
   "note": ""
  },
  {
   "property": "C114",
   "status": "proved",
   "theorems": [
    "C114_set_before",
    "C114_enough",
    "C114_no_initial_state",
    "C114_no_tolerance",
    "C114_target_late",
    "C114_no_initial_state_drag",
    "C114_no_switch",
    "C114_no_roll_rate",
    "C114_no_gains",
    "C114_two_orders",
    "C114_later_counts",
    "C114_any_order"
   ],
   "note": ""
  },
  {
   "property": "C115",
   "status": "proved",
   "theorems": [
    "C115_exact",
    "C115_total",
    "C115_bank_band",
    "C115_bank_lattice",
    "C115_clock",
    "C115_binary64",
    "C115_factor"
   ],
   "note": ""
  },
  {
   "property": "C116",
   "status": "proved",
   "theorems": [
    "C116_no_memory",
    "C116_configuration",
    "C116_reset",
    "C116_needs_setup",
    "C116_setups_mix",
    "C116_own_setup",
    "C116_wrong_setup"
   ],
   "note": ""
  },
  {
   "property": "C117",
   "status": "proved",
   "theorems": [
    "C117_exact",
    "C117_many_restarts",
    "C117_first_sample",
    "C117_hand_over",
    "C117_constants",
    "C117_binary64"
   ],
   "note": ""
  },
  {
   "property": "C118",
   "status": "proved",
   "theorems": [
    "C118_number",
    "C118_lines",
    "C118_file",
    "C118_faithful",
    "C118_cut_off",
    "C118_misread",
    "C118_detected",
    "C118_after_crash"
   ],
   "note": ""
  },
  {
   "property": "C119",
   "status": "proved",
   "theorems": [
    "C119_exact",
    "C119_orbit",
    "C119_apsides",
    "C119_binary64",
    "C119_circular_nan"
   ],
   "note": ""
  },
  {
   "property": "C120",
   "status": "proved",
   "theorems": [
    "C120_entry_plots",
    "C120_after_limit",
    "C120_guided_shows_last_cycle",
    "C120_guided_drag_shows_last_cycle",
    "C120_qplot",
    "C120_profiles_fail",
    "C120_profiles",
    "C120_profiles_interval_refuted"
   ],
   "note": ""
  },
  {
   "property": "C121",
   "status": "proved",
   "theorems": [
    "C121_exact",
    "C121_state",
    "C121_apsides",
    "C121_binary64"
   ],
   "note": ""
  },
  {
   "property": "C122",
   "status": "proved",
   "theorems": [
    "C122_reads",
    "C122_eight_digits",
    "C122_blank",
    "C122_blank_among_text",
    "C122_missing",
    "C122_unpadded",
    "C122_axis",
    "C122_order"
   ],
   "note": ""
  },
  {
   "property": "C123",
   "status": "proved",
   "theorems": [
    "C123_exact",
    "C123_nodes",
    "C123_between_rows",
    "C123_never_negative",
    "C123_falling_profile",
    "C123_accuracy",
    "C123_negative_refuted"
   ],
   "note": ""
  },
  {
   "property": "C124",
   "status": "proved",
   "theorems": [
    "C124_as_if_alone",
    "C124_campaigns_elsewhere",
    "C124_atmosphere_is_shared",
    "C124_constants_are_shared",
    "C124_campaign_reaches_the_others",
    "C124_campaign_unaffected"
   ],
   "note": ""
  },
  {
   "property": "C125",
   "status": "proved",
   "theorems": [
    "C125_near_the_way",
    "C125_nearby_flights",
    "C125_from_the_top",
    "C125_nearby_from_the_top"
   ],
   "note": ""
  },
  {
   "property": "C126",
   "status": "proved",
   "theorems": [
    "C126_exists",
    "C126_until",
    "C126_flies_on",
    "C126_ideal",
    "C126_flown"
   ],
   "note": ""
  },
  {
   "property": "C127",
   "status": "proved",
   "theorems": [
    "C127_integral",
    "C127_load_is_integral"
   ],
   "note": ""
  },
  {
   "property": "C128",
   "status": "proved",
   "theorems": [
    "C128_points",
    "C128_peaks",
    "C128_peak_exists"
   ],
   "note": ""
  },
  {
   "property": "C129",
   "status": "proved",
   "theorems": [
    "C129_exit",
    "C129_flagged",
    "C129_trap",
    "C129_trap_flagged",
    "C129_reached",
    "C129_flown",
    "C129_trap_reached",
    "C129_trap_flown",
    "C129_orbit"
   ],
   "note": ""
  },
  {
   "property": "C130",
   "status": "proved",
   "theorems": [
    "C130_answer",
    "C130_answer2",
    "C130_uranus",
    "C130_uranus_lost",
    "C130_limit",
    "C130_boundary",
    "C130_width",
    "C130_captured"
   ],
   "note": ""
  },
  {
   "property": "C131",
   "status": "proved",
   "theorems": [
    "C131_exit",
    "C131_flagged",
    "C131_trap",
    "C131_trap_flagged",
    "C131_answer",
    "C131_answer2",
    "C131_limit",
    "C131_boundary",
    "C131_width",
    "C131_captured"
   ],
   "note": ""
  },
  {
   "property": "C132",
   "status": "proved",
   "theorems": [
    "C132_enters",
    "C132_only",
    "C132_on_the_way",
    "C132_same_flight",
    "C132_ideal",
    "C132_flown"
   ],
   "note": ""
  },
  {
   "property": "C133",
   "status": "proved",
   "theorems": [
    "C133_skips",
    "C133_flagged",
    "C133_flown",
    "C133_verdict",
    "C133_digs_in",
    "C133_criterion",
    "C133_answer"
   ],
   "note": ""
  },
  {
   "property": "C134",
   "status": "proved",
   "theorems": [
    "C134_flights",
    "C134_leaves",
    "C134_stable",
    "C134_single",
    "C134_turns",
    "C134_on_target",
    "C134_hits",
    "C134_limit",
    "C134_width"
   ],
   "note": ""
  },
  {
   "property": "C135",
   "status": "proved",
   "theorems": [
    "C135_loads",
    "C135_heating"
   ],
   "note": ""
  },
  {
   "property": "C136",
   "status": "proved",
   "theorems": [
    "C136_peaks"
   ],
   "note": ""
  },
  {
   "property": "C137",
   "status": "proved",
   "theorems": [
    "C137_integral",
    "C137_heat_load"
   ],
   "note": ""
  }
 ]
}