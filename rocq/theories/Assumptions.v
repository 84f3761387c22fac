(** Generated by tools/manifest.py: the assumptions of every property theorem. *)
Require Import Verif.PropPlanet Verif.PropTelecom Verif.PropVisibility Verif.PropApproach Verif.PropManeuver Verif.PropOrbiter Verif.PropProbe Verif.PropPropulsive Verif.PropFlight Verif.PropTrajectory Verif.PropHeat Verif.PropOrbit Verif.PropCorridor Verif.PropControl Verif.PropPredict Verif.PropGuidance Verif.PropGuidanceEx Verif.PropDrag Verif.PropDragEx Verif.PropMonte Verif.PropMonteEx Verif.PropInvariance Verif.PropSession Verif.PropAtmosphere Verif.PropReport Verif.PropCorrelation Verif.PropMonteRead Verif.PropGuidanceRecord Verif.PropOrbitArray Verif.PropCommand Verif.PropRange Verif.PropRound Verif.PropRound64 Verif.PropRoundGrid Verif.PropErrors Verif.PropGuided Verif.PropGuidedEx Verif.PropApproachFrame Verif.PropOrbitHistory Verif.PropProfile Verif.PropLegs Verif.PropExact Verif.PropExactEx Verif.PropStop Verif.PropDet Verif.PropDetEx Verif.PropInterface Verif.PropHeading Verif.PropBudget Verif.PropEntryState Verif.PropPlot Verif.PropStudy Verif.PropConcurrent Verif.PropStudyEx Verif.PropSetup Verif.PropSetupEx Verif.PropRunning Verif.PropRunning64 Verif.PropCampaign Verif.PropCampaignEx Verif.PropUnits Verif.PropUnits64 Verif.PropText Verif.PropTextDisk Verif.PropOrbitRound Verif.PropOrbitRound64 Verif.PropFigure Verif.PropFigureEx Verif.PropExitRound Verif.PropExitRound64 Verif.PropDataset Verif.PropTableRound Verif.PropTableRound64 Verif.PropFleet Verif.PropFleetEx Verif.PropNear Verif.PropNearEx Verif.PropExist Verif.PropExistEx Verif.PropHeatInt Verif.PropExistRun Verif.PropHeatIntEx Verif.PropPeak Verif.PropPeakEx Verif.PropExit Verif.PropTrap Verif.PropExitRun Verif.PropExitEx Verif.PropExitOrbit Verif.PropExitOrbitEx Verif.PropVerdict Verif.PropVerdictEx Verif.PropNearExit Verif.PropNearVerdict Verif.PropNearExitEx Verif.PropEnter Verif.PropEnterRun Verif.PropEnterEx Verif.PropGraze Verif.PropGrazeEx Verif.PropBoundary Verif.PropBoundaryEx Verif.PropNearTop Verif.PropNearLoads Verif.PropNearLoadsEx Verif.PropNearPeak Verif.PropNearPeakEx Verif.PropNearHeat Verif.PropNearHeatEx.
Print Assumptions C01_density_every_altitude.
Print Assumptions C01_density_bounded.
Print Assumptions C02_scalar_vector_agree.
Print Assumptions C02_scalar_vector_differ_outside.
Print Assumptions C03_table_lookup.
Print Assumptions C03_between_neighbours.
Print Assumptions C03_lipschitz.
Print Assumptions C04_nondim_round_trip.
Print Assumptions C04_scaled_radius.
Print Assumptions C05_altitude_radius.
Print Assumptions C05_plot_units_injective.
Print Assumptions C05_plot_units.
Print Assumptions C06_catalogue.
Print Assumptions C06_constants.
Print Assumptions C06_surface_gravity.
Print Assumptions C06_standard_gravity.
Print Assumptions C07_sigma_profiles.
Print Assumptions C07_profile_monotone.
Print Assumptions C07_file3_ordered.
Print Assumptions C07_file2_columns.
Print Assumptions C07_profile_values.
Print Assumptions C08_blocks_tile_the_file.
Print Assumptions C09_scale_height_ignores_argument.
Print Assumptions C09_scale_height_value.
Print Assumptions C09_below_surface.
Print Assumptions C09_measurement_ignored_refuted.
Print Assumptions C10_launch_mass.
Print Assumptions C11_axis_floor.
Print Assumptions C12_link_budget.
Print Assumptions C12_margin_trends.
Print Assumptions C13_receiver_diameter_unused.
Print Assumptions C13_receiver_gain.
Print Assumptions C14_link_fails_exactly_when.
Print Assumptions C14_isotropic_rejected_refuted.
Print Assumptions C15_schedule.
Print Assumptions C15_window_order_irrelevant.
Print Assumptions C15_permutation.
Print Assumptions C15_degenerate.
Print Assumptions C16_data_volume.
Print Assumptions C16_defined.
Print Assumptions C16_error.
Print Assumptions C17_look.
Print Assumptions C17_lander_to_planet.
Print Assumptions C17_lander_to_orbiter.
Print Assumptions C17_rotation_phase.
Print Assumptions C18_occultation_exact.
Print Assumptions C19_time_grid_direction.
Print Assumptions C19_retrograde_data_volume.
Print Assumptions C20_frame_changes_are_rotations.
Print Assumptions C20_lengths_kept.
Print Assumptions C20_pole_becomes_z.
Print Assumptions C21_hyperbola_well_formed.
Print Assumptions C21_constructor_errors.
Print Assumptions C21_zero_velocity_silent.
Print Assumptions C22_periapsis_targeting.
Print Assumptions C23_energy_and_angular_momentum.
Print Assumptions C24_elements_reproduce_vectors.
Print Assumptions C24_equatorial_undefined.
Print Assumptions C24_h_vector_magnitude_refuted.
Print Assumptions C25_entry_interface.
Print Assumptions C26_atmosphere_relative_velocity.
Print Assumptions C27_b_plane.
Print Assumptions C27_pole_undefined.
Print Assumptions C27_B_vector_magnitude_refuted.
Print Assumptions C28_probe_orbiter.
Print Assumptions C28_inside_periapsis_undefined.
Print Assumptions C28_orbiter_orbiter.
Print Assumptions C28_legs_are_approaches.
Print Assumptions C29_probe_time_of_flight.
Print Assumptions C30_second_probe_angle.
Print Assumptions C30_same_radius_refuted.
Print Assumptions C31_orbit_states.
Print Assumptions C32_velocity_always_outward.
Print Assumptions C33_requested_apsides.
Print Assumptions C34_capture_orbit.
Print Assumptions C34_insertion_dv.
Print Assumptions C34_dv_decreasing.
Print Assumptions C34_entry_approach_raises.
Print Assumptions C35_timed_trajectory.
Print Assumptions C35_kepler_motion.
Print Assumptions C35_root_failure_raises.
Print Assumptions C36_targeting_raises_iff.
Print Assumptions C36_fresh_orbiter.
Print Assumptions C36_deflection_raises_iff.
Print Assumptions C36_stale_entry_anomaly.
Print Assumptions C36_enters_meaning.
Print Assumptions C36_some_burn_enters.
Print Assumptions C37_aero_decomposition.
Print Assumptions C37_vectorised_is_scalar.
Print Assumptions C38_gravity_is_gradient.
Print Assumptions C38_projections.
Print Assumptions C39_jacobi_rate.
Print Assumptions C39_dissipation.
Print Assumptions C39_vacuum.
Print Assumptions C40_rotating_newton.
Print Assumptions C40_polar_momentum_rate.
Print Assumptions C40_vacuum_momentum_not_conserved.
Print Assumptions C40_defined_iff.
Print Assumptions C41_same_accelerations.
Print Assumptions C41_si_newton.
Print Assumptions C42_total.
Print Assumptions C42_classification.
Print Assumptions C42_retained.
Print Assumptions C42_horizon_matters.
Print Assumptions C43_truncation.
Print Assumptions C43_flight_aligned.
Print Assumptions C43_empty_flight_raises.
Print Assumptions C44_load_formula.
Print Assumptions C44_vehicle_load.
Print Assumptions C45_heating_nonneg.
Print Assumptions C45_heating_defined.
Print Assumptions C45_heating_undefined.
Print Assumptions C45_nose_radius_scaling.
Print Assumptions C45_no_radiation.
Print Assumptions C45_total_is_sum.
Print Assumptions C45_venus_jumps.
Print Assumptions C45_earth_jump.
Print Assumptions C46_heat_load.
Print Assumptions C46_continued_load_fails.
Print Assumptions C46_same_when_zero.
Print Assumptions C47_sweep.
Print Assumptions C47_sweep_interrupted.
Print Assumptions C48_limit_is_a_boundary.
Print Assumptions C48_terminates.
Print Assumptions C48_rounds_exact.
Print Assumptions C48_unique_boundary.
Print Assumptions C48_never_ends_without_tolerance.
Print Assumptions C49_restored.
Print Assumptions C49_narrow_bracket_raises.
Print Assumptions C49_crash_leaves_trial_angle.
Print Assumptions C50_width.
Print Assumptions C50_failure_is_silent.
Print Assumptions C50_true_width.
Print Assumptions C50_drag_width.
Print Assumptions C51_captured.
Print Assumptions C51_hits_target.
Print Assumptions C51_hits_target2.
Print Assumptions C51_gas_giants_raise.
Print Assumptions C51_gas_giant_searches_raise.
Print Assumptions C51_inertial_capture_refuted.
Print Assumptions C52_elements.
Print Assumptions C52_reported_apsides.
Print Assumptions C53_inertial_velocity.
Print Assumptions C53_orbiter.
Print Assumptions C54_periapsis_raise.
Print Assumptions C54_apoapsis_raise.
Print Assumptions C54_monotone.
Print Assumptions C54_below_centre.
Print Assumptions C55_one_cycle.
Print Assumptions C55_change.
Print Assumptions C55_overshoot.
Print Assumptions C55_never_settles.
Print Assumptions C55_chatters.
Print Assumptions C55_settles_on_lattice.
Print Assumptions C56_range.
Print Assumptions C56_range_sharp.
Print Assumptions C56_glide_bank.
Print Assumptions C56_guided_bank.
Print Assumptions C56_exit_levels.
Print Assumptions C57_range.
Print Assumptions C57_law.
Print Assumptions C57_no_air.
Print Assumptions C58_how_it_ends.
Print Assumptions C58_what_continues.
Print Assumptions C58_switch_irrelevant.
Print Assumptions C58_slow_start.
Print Assumptions C58_never_ends.
Print Assumptions C58_drag_how_entry_ends.
Print Assumptions C58_drag_how_exit_ends.
Print Assumptions C58_drag_switch_irrelevant.
Print Assumptions C59_glide_arrays.
Print Assumptions C59_exit_arrays.
Print Assumptions C59_guided_arrays.
Print Assumptions C59_times.
Print Assumptions C59_junctions.
Print Assumptions C59_exit_junctions.
Print Assumptions C59_drag_arrays.
Print Assumptions C59_drag_times.
Print Assumptions C59_drag_junctions.
Print Assumptions C60_undisturbed.
Print Assumptions C60_vehicles_same.
Print Assumptions C60_view_is_the_vehicle.
Print Assumptions C60_prediction.
Print Assumptions C60_prediction_jettison.
Print Assumptions C61_reproduces_measurements.
Print Assumptions C61_extrapolates_exponentially.
Print Assumptions C61_held_outside.
Print Assumptions C61_positive.
Print Assumptions C62_queries_reconfigure.
Print Assumptions C62_effect.
Print Assumptions C62_LD_has_no_effect.
Print Assumptions C62_parameters_required.
Print Assumptions C63_runs_as_if_alone.
Print Assumptions C63_prefix_of_longer.
Print Assumptions C64_drawn_LD_not_flown.
Print Assumptions C64_LD_recorded.
Print Assumptions C64_drag_beta1_unused.
Print Assumptions C64_drag_earth_beta1_unused.
Print Assumptions C65_any_crash_point.
Print Assumptions C65_after_exception.
Print Assumptions C65_existing_folder.
Print Assumptions C65_no_restart.
Print Assumptions C66_heading_formula.
Print Assumptions C66_heading_refuted.
Print Assumptions C67_exit_state.
Print Assumptions C67_no_points_raises.
Print Assumptions C67_coast_starts_at_exit.
Print Assumptions C67_inbound_exit_refuted.
Print Assumptions C68_periapsis_raise_dv.
Print Assumptions C69_escaping_vehicle_silent.
Print Assumptions C69_equatorial_undefined.
Print Assumptions C70_probe_plane.
Print Assumptions C70_gap_iff.
Print Assumptions C70_entry_on_boundary.
Print Assumptions C71_gamma_atm_is_inertial.
Print Assumptions C71_inertial_entry.
Print Assumptions C72_user_drag_law_raises.
Print Assumptions C72_setting_changes_nothing_else.
Print Assumptions C73_time_grid.
Print Assumptions C74_glide_heat_restarts.
Print Assumptions C74_exit_heat_restarts.
Print Assumptions C74_drag_heat_restarts.
Print Assumptions C75_version2_needs_no_heat.
Print Assumptions C75_prediction_needs_no_heat.
Print Assumptions C75_drag_version2_needs_no_heat.
Print Assumptions C75_drag_version1_ignores_heat.
Print Assumptions C76_entry_cycle.
Print Assumptions C76_first_second.
Print Assumptions C76_exit_cycle.
Print Assumptions C76_left_behind.
Print Assumptions C76_flight_independent_of_the_past.
Print Assumptions C77_initial_state_overwritten.
Print Assumptions C77_drag_initial_state_overwritten.
Print Assumptions C78_draws_in_range.
Print Assumptions C78_bad_setup.
Print Assumptions C79_later_state_ignored.
Print Assumptions C79_last_atmosphere_left.
Print Assumptions C80_mass_and_area.
Print Assumptions C80_same_nose_radius.
Print Assumptions C81_ballistic_ignores_bank.
Print Assumptions C81_bank_is_an_angle.
Print Assumptions C81_lift_turns.
Print Assumptions C82_only_air_inside.
Print Assumptions C83_longitude.
Print Assumptions C83_mirror.
Print Assumptions C83_which_planets.
Print Assumptions C83_odd_term_breaks_it.
Print Assumptions C84_configuration.
Print Assumptions C84_no_memory.
Print Assumptions C84_as_good_as_new.
Print Assumptions C84_stored_flight.
Print Assumptions C84_after_exceptions.
Print Assumptions C84_propagations_keep.
Print Assumptions C85_rows.
Print Assumptions C85_sound.
Print Assumptions C85_outside.
Print Assumptions C85_all_or_nothing.
Print Assumptions C85_succeeds_iff.
Print Assumptions C85_linear.
Print Assumptions C85_check_grid.
Print Assumptions C85_check_error.
Print Assumptions C86_every_point.
Print Assumptions C86_ballistic.
Print Assumptions C86_mach.
Print Assumptions C86_profiles.
Print Assumptions C86_units.
Print Assumptions C87_never_steeper.
Print Assumptions C87_from_continuity.
Print Assumptions C88_convective.
Print Assumptions C88_radiative.
Print Assumptions C88_earth.
Print Assumptions C88_complete.
Print Assumptions C88_monotone.
Print Assumptions C89_records.
Print Assumptions C89_total_load.
Print Assumptions C89_nan_hidden.
Print Assumptions C90_first.
Print Assumptions C90_glide_cycle.
Print Assumptions C90_drag_cycle.
Print Assumptions C90_exit_cycle.
Print Assumptions C90_measured_density.
Print Assumptions C90_drag_measured_density.
Print Assumptions C90_underestimates.
Print Assumptions C91_report.
Print Assumptions C91_meaning.
Print Assumptions C91_prediction.
Print Assumptions C92_orbit_array.
Print Assumptions C92_coast_array.
Print Assumptions C92_propulsive_array.
Print Assumptions C92_probe_array.
Print Assumptions C92_deflection.
Print Assumptions C93_entry_place.
Print Assumptions C93_entry_heading.
Print Assumptions C94_vacuum.
Print Assumptions C94_entry_above_the_air.
Print Assumptions C95_range.
Print Assumptions C95_lander_grid.
Print Assumptions C95_orbiter_times.
Print Assumptions C95_orbiter_distances.
Print Assumptions C95_same_body_lander.
Print Assumptions C95_same_body_orbiter.
Print Assumptions C95_saturn_from_titan.
Print Assumptions C95_orbiter_raises.
Print Assumptions C96_exact.
Print Assumptions C96_limit_is_a_boundary.
Print Assumptions C96_terminates.
Print Assumptions C96_too_fine.
Print Assumptions C96_binary64.
Print Assumptions C96_spacing.
Print Assumptions C97_binary64.
Print Assumptions C97_time_grid.
Print Assumptions C98_past_one.
Print Assumptions C98_zenith_fragile.
Print Assumptions C99_zero_step.
Print Assumptions C99_no_duration.
Print Assumptions C99_no_duration_1.
Print Assumptions C99_measured.
Print Assumptions C99_density_file.
Print Assumptions C100_no_memory.
Print Assumptions C100_configuration.
Print Assumptions C100_reset.
Print Assumptions C100_shared_parameters.
Print Assumptions C100_what_is_seen.
Print Assumptions C101_path_at_clock_angle.
Print Assumptions C101_aim_point.
Print Assumptions C101_axes.
Print Assumptions C101_beta_refuted.
Print Assumptions C102_constructor_attributes_stay.
Print Assumptions C102_calls_do_not_interfere.
Print Assumptions C102_release_as_on_a_fresh_orbiter.
Print Assumptions C102_deflection_as_on_a_fresh_orbiter.
Print Assumptions C103_lift_flight.
Print Assumptions C103_drag_flight.
Print Assumptions C104_steepest.
Print Assumptions C104_energy_never_up.
Print Assumptions C104_lift_guided.
Print Assumptions C104_drag_guided.
Print Assumptions C105_stuck.
Print Assumptions C105_lift_guided.
Print Assumptions C105_drag_guided.
Print Assumptions C106_on_the_way.
Print Assumptions C106_same_flight.
Print Assumptions C106_restart.
Print Assumptions C106_drag_entry.
Print Assumptions C106_tables.
Print Assumptions C107_probe_time_is_to_periapsis.
Print Assumptions C107_first_probe_time_is_to_periapsis.
Print Assumptions C107_entry_time_refuted.
Print Assumptions C108_exit_state_bi.
Print Assumptions C108_heading_refuted.
Print Assumptions C109_schedule_clock.
Print Assumptions C109_windows_are_stretched.
Print Assumptions C109_clock_refuted.
Print Assumptions C109_margin_ignored.
Print Assumptions C109_printed_budget.
Print Assumptions C109_printed_sum_refuted.
Print Assumptions C110_entry_state.
Print Assumptions C110_two_angles.
Print Assumptions C111_saved.
Print Assumptions C111_mass_vs_TOF_never_saved.
Print Assumptions C111_file_shows_last_call.
Print Assumptions C111_other_files_untouched.
Print Assumptions C111_shared_names.
Print Assumptions C111_names_apart.
Print Assumptions C111_names_apart_refuted.
Print Assumptions C111_colorbar_plots_overwrite.
Print Assumptions C111_crash.
Print Assumptions C111_points_shown.
Print Assumptions C111_drawn_when.
Print Assumptions C111_what_is_drawn.
Print Assumptions C112_nothing_overwritten.
Print Assumptions C112_results_survive.
Print Assumptions C113_as_if_alone.
Print Assumptions C113_completed_runs.
Print Assumptions C113_all_end.
Print Assumptions C113_same_folder.
Print Assumptions C114_set_before.
Print Assumptions C114_enough.
Print Assumptions C114_no_initial_state.
Print Assumptions C114_no_tolerance.
Print Assumptions C114_target_late.
Print Assumptions C114_no_initial_state_drag.
Print Assumptions C114_no_switch.
Print Assumptions C114_no_roll_rate.
Print Assumptions C114_no_gains.
Print Assumptions C114_two_orders.
Print Assumptions C114_later_counts.
Print Assumptions C114_any_order.
Print Assumptions C115_exact.
Print Assumptions C115_total.
Print Assumptions C115_bank_band.
Print Assumptions C115_bank_lattice.
Print Assumptions C115_clock.
Print Assumptions C115_binary64.
Print Assumptions C115_factor.
Print Assumptions C116_no_memory.
Print Assumptions C116_configuration.
Print Assumptions C116_reset.
Print Assumptions C116_needs_setup.
Print Assumptions C116_setups_mix.
Print Assumptions C116_own_setup.
Print Assumptions C116_wrong_setup.
Print Assumptions C117_exact.
Print Assumptions C117_many_restarts.
Print Assumptions C117_first_sample.
Print Assumptions C117_hand_over.
Print Assumptions C117_constants.
Print Assumptions C117_binary64.
Print Assumptions C118_number.
Print Assumptions C118_lines.
Print Assumptions C118_file.
Print Assumptions C118_faithful.
Print Assumptions C118_cut_off.
Print Assumptions C118_misread.
Print Assumptions C118_detected.
Print Assumptions C118_after_crash.
Print Assumptions C119_exact.
Print Assumptions C119_orbit.
Print Assumptions C119_apsides.
Print Assumptions C119_binary64.
Print Assumptions C119_circular_nan.
Print Assumptions C120_entry_plots.
Print Assumptions C120_after_limit.
Print Assumptions C120_guided_shows_last_cycle.
Print Assumptions C120_guided_drag_shows_last_cycle.
Print Assumptions C120_qplot.
Print Assumptions C120_profiles_fail.
Print Assumptions C120_profiles.
Print Assumptions C120_profiles_interval_refuted.
Print Assumptions C121_exact.
Print Assumptions C121_state.
Print Assumptions C121_apsides.
Print Assumptions C121_binary64.
Print Assumptions C122_reads.
Print Assumptions C122_eight_digits.
Print Assumptions C122_blank.
Print Assumptions C122_blank_among_text.
Print Assumptions C122_missing.
Print Assumptions C122_unpadded.
Print Assumptions C122_axis.
Print Assumptions C122_order.
Print Assumptions C123_exact.
Print Assumptions C123_nodes.
Print Assumptions C123_between_rows.
Print Assumptions C123_never_negative.
Print Assumptions C123_falling_profile.
Print Assumptions C123_accuracy.
Print Assumptions C123_negative_refuted.
Print Assumptions C124_as_if_alone.
Print Assumptions C124_campaigns_elsewhere.
Print Assumptions C124_atmosphere_is_shared.
Print Assumptions C124_constants_are_shared.
Print Assumptions C124_campaign_reaches_the_others.
Print Assumptions C124_campaign_unaffected.
Print Assumptions C125_near_the_way.
Print Assumptions C125_nearby_flights.
Print Assumptions C125_from_the_top.
Print Assumptions C125_nearby_from_the_top.
Print Assumptions C126_exists.
Print Assumptions C126_until.
Print Assumptions C126_flies_on.
Print Assumptions C126_ideal.
Print Assumptions C126_flown.
Print Assumptions C127_integral.
Print Assumptions C127_load_is_integral.
Print Assumptions C128_points.
Print Assumptions C128_peaks.
Print Assumptions C128_peak_exists.
Print Assumptions C129_exit.
Print Assumptions C129_flagged.
Print Assumptions C129_trap.
Print Assumptions C129_trap_flagged.
Print Assumptions C129_reached.
Print Assumptions C129_flown.
Print Assumptions C129_trap_reached.
Print Assumptions C129_trap_flown.
Print Assumptions C129_orbit.
Print Assumptions C130_answer.
Print Assumptions C130_answer2.
Print Assumptions C130_uranus.
Print Assumptions C130_uranus_lost.
Print Assumptions C130_limit.
Print Assumptions C130_boundary.
Print Assumptions C130_width.
Print Assumptions C130_captured.
Print Assumptions C131_exit.
Print Assumptions C131_flagged.
Print Assumptions C131_trap.
Print Assumptions C131_trap_flagged.
Print Assumptions C131_answer.
Print Assumptions C131_answer2.
Print Assumptions C131_limit.
Print Assumptions C131_boundary.
Print Assumptions C131_width.
Print Assumptions C131_captured.
Print Assumptions C132_enters.
Print Assumptions C132_only.
Print Assumptions C132_on_the_way.
Print Assumptions C132_same_flight.
Print Assumptions C132_ideal.
Print Assumptions C132_flown.
Print Assumptions C133_skips.
Print Assumptions C133_flagged.
Print Assumptions C133_flown.
Print Assumptions C133_verdict.
Print Assumptions C133_digs_in.
Print Assumptions C133_criterion.
Print Assumptions C133_answer.
Print Assumptions C134_flights.
Print Assumptions C134_leaves.
Print Assumptions C134_stable.
Print Assumptions C134_single.
Print Assumptions C134_turns.
Print Assumptions C134_on_target.
Print Assumptions C134_hits.
Print Assumptions C134_limit.
Print Assumptions C134_width.
Print Assumptions C135_loads.
Print Assumptions C135_heating.
Print Assumptions C136_peaks.
Print Assumptions C137_integral.
Print Assumptions C137_heat_load.
