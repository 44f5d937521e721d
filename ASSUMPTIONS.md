# Print Assumptions, theorem by theorem

Generated by tools/mkassump.py from the compiled files.

## Closed under the global context (no axiom)

111 theorems: C160_other_arrays_stop (P_Arbitrary), C161_only_own_files (P_Arbitrary2), C49_ranges (P_Bc), C49_unknown_raises (P_Bc), C50_reads_in_bounds (P_Bc), C55_span_required (P_Bc2), C57_interior_entries (P_Bc2), C58_set (P_Config), C58_get (P_Config), C58_key_set_fixed (P_Config), C58_other_methods_refuted (P_Config), C58_freeze (P_Config), C60_one_or_two (P_Config2), C60_subgrid_range (P_Config2), C33_writes_interior_only (P_Control), C85_nan_detected_everywhere (P_Control), C86_count_independent_of_partition (P_Control), C76_repeated_cuts (P_Cut), C77_cut_path (P_CutPath), C144_results_sorted (P_FileNames), C144_history_sorted (P_FileNames), C144_fixed_width (P_FileNames), C14_symmetric (P_Grid), C162_array_keeps (P_GridLoc), C129_faces_partial (P_GridPro), C129_stripped_label_refuted (P_GridPro), C129_lost_label_refuted (P_GridPro), C130_two_families_refuted (P_GridPro), C06_cell_halo_exchange (P_Halo), C07_node_halo_exchange (P_Halo), C07_edge_halo_exchange (P_Halo), C07_glued_entry_unique (P_Halo), C08_first_halo_exchange (P_Halo), C08_other_layers_kept (P_Halo), C09_exchange_keeps_interior (P_Halo), C10_buffer_shapes_match (P_Halo), C11_tags_unique (P_Halo), C11_exactly_one_match (P_Halo), C131_connectivity (P_Icem), C131_order (P_Icem), C131_reciprocal (P_Icem), C132_tags_partial (P_Icem), C132_split_face_refuted (P_Icem), C132_types_refuted (P_Icem), C133_periodic_refuted (P_Icem), C133_mbi_refuted (P_Icem), C65_round_trip (P_Io), C65_missing_block (P_Io), C67_closest_exists (P_Io3), C98_parallel_extents (P_Io3), C98_parallel_entries (P_Io3), C99_states_restored (P_Io3), C99_fresh_start (P_Io3), C99_animated_interruption (P_Io3), C12_no_deadlock (P_Mpi), C12_terminates (P_Mpi), C12_completes (P_Mpi), C13_schedule_independent (P_Mpi), C154_rusanov_first_order (P_Order2), C151_own_file (P_Prep), C62_numerals (P_Procs), C62_round_trip (P_Procs), C62_layout (P_Procs), C62_comments_ignored (P_Procs), C62_blank_lines_refuted (P_Procs), C63_neighbour_rank (P_Procs2), C63_accepted_not_partition_refuted (P_Procs2), C63_partition_partial (P_Procs2), C63_no_file (P_Procs2), C64_check_sound (P_Procs2), C64_partition (P_Procs2), C64_sizes (P_Procs2), C64_loads (P_Procs2), C64_number_of_processors (P_Procs2), C64_end_to_end (P_Procs2), C97_limit_respected (P_Procs2), C97_num_procs_refuted (P_Procs2), C82_function_of_type (P_ReadBcs), C126_scalar_property (P_Species), C126_missing_raises (P_Species), C126_vector_property (P_Species), C126_names_only (P_Species), C126_blank_refuted (P_Species), C126_first_text_refuted (P_Species), C126_scalar_nasa_refuted (P_Species), C127_search_order (P_Species), C127_list (P_Species), C75_filter_in_bounds (P_Subgrid), C47_initial (P_Time3), C01_neighbor_orientation_inverse (P_Topology), C01_neighbor_orientation_rejects (P_Topology), C02_neighbor_face_geometric (P_Topology), C03_face_invariant (P_Topology), C03_nface_accepts_exactly (P_Topology), C03_bcType_accepts_exactly (P_Topology), C03_orientation_setter_refuted (P_Topology), C04_append_unique (P_Topology), C04_append_fresh (P_Topology), C05_getBlock_partial (P_Topology), C05_getBlock_refuted (P_Topology), C05_getBlock_refuted_general (P_Topology), C03_getFace (P_Topology), C122_rows (P_Trace), C122_startup (P_Trace), C122_columns (P_Trace), C122_species_titles (P_Trace), C122_trace_refuted (P_Trace), C122_parallel_refuted (P_Trace), C122_shared_file (P_Trace), C73_index_is_slot (P_Transport), C73_index_bijective (P_Transport)

## `ClassicalDedekindReals.sig_forall_dec`

30 theorems: C160_serial (P_Arbitrary), C160_parallel (P_Arbitrary), C160_idle_rank_refuted (P_Arbitrary), C160_other_arrays_stop_parallel (P_Arbitrary), C161_only_own_files_parallel (P_Arbitrary2), C161_others_safe (P_Arbitrary2), C161_others_safe_parallel (P_Arbitrary2), C51_viscous_step_writes_velocity_only (P_Bc), C77_two_ways_refuted (P_CutPath), C162_same_choices (P_GridLoc), C162_restart_keeps (P_GridLoc), C66_grid_round_trip (P_Io), C67_halo_nearest (P_Io3), C98_serial (P_Io3), C100_animated_survives (P_Io3), C100_finished_is_a_moment (P_Io3), C163_run_continues (P_Restarted), C80_steps (P_Run), C80_all_steps (P_Run), C80_restarts (P_Run), C80_archives (P_Run), C80_prints (P_Run), C80_checks_and_coprocessing (P_Run), C80_ranks_agree (P_Run), C80_zero_raises (P_Run), C113_animated (P_RunDir), C113_latest (P_RunDir), C113_emergency (P_RunDir), C113_good_restart_lost_refuted (P_RunDir), C126_scalar_succeeds (P_Species)

## `FunctionalExtensionality.functional_extensionality_dep`

1 theorems: C118_boundary_conditions_keep_sharing (P_RhsEnd)

## `ClassicalDedekindReals.sig_forall_dec`, `FunctionalExtensionality.functional_extensionality_dep`

190 theorems: C161_q_refuted (P_Arbitrary2), C51_no_slip (P_Bc), C51_moving_wall (P_Bc), C57_interval (P_Bc2), C57_signal (P_Bc2), C57_periodic (P_Bc2), C123_heights (P_BlGrid), C123_growth (P_BlGrid), C123_loops_end (P_BlGrid), C123_buffer_end_refuted (P_BlGrid), C123_core_resolution_refuted (P_BlGrid), C123_horizontal_resolution_refuted (P_BlGrid), C123_horizontal_resolution_partial (P_BlGrid), C123_bl_height_refuted (P_BlGrid), C123_short_channel_refuted (P_BlGrid), C152_current_solution (P_Catalyst), C152_initial (P_Catalyst), C152_name_clash_refuted (P_Catalyst), C69_elements_conserved (P_Chem), C69_mass_conserved (P_Chem), C58_input_file (P_Config), C58_defaults (P_Config), C59_rules (P_Config), C59_changes (P_Config), C59_default_accepted (P_Config), C61_ausm_refuted (P_Config2), C61_others_selectable (P_Config2), C95_can_be_built_partial (P_Config2), C95_validated_not_buildable_refuted (P_Config2), C136_round_trip (P_ConfigWrite), C136_validated (P_ConfigWrite), C33_switch_in_unit_interval (P_Control), C33_off_on_linear_fields (P_Control), C33_detects_extrema (P_Control), C86_load_efficiency (P_Control), C119_no_net_change_raises (P_Ct2pg), C71_diffusive_species_close (P_Diff), C104_diffusive_antisymmetric (P_Diff), C48_solves (P_Dual), C48_factors (P_Dual), C91_jacobian (P_Dual), C91_nonsingular (P_Dual), C23_applyFlux_conserves (P_Flux), C23_applyHybridFlux_conserves (P_Flux), C23_applyDissipationFlux_conserves (P_Flux), C23_only_interior_touched (P_Flux), C24_interfaces_cancel (P_Flux), C25_hybrid_is_a_blend (P_Flux), C25_convex (P_Flux), C25_endpoints (P_Flux), C25_dissipation_is_subtracted (P_Flux), C27_consistent (P_FluxKernels), C27_consistent_KEPaEC (P_FluxKernels), C27_hllc_partial (P_FluxKernels), C27_hllc_refuted (P_FluxKernels), C29_flux_form (P_FluxMore), C30_left_flux (P_FluxMore), C30_right_flux (P_FluxMore), C30_resting_contact_partial (P_FluxMore), C30_slip_line_refuted (P_FluxMore), C31_muscl2rusanov_speed (P_FluxMore), C31_rusanov_refuted (P_FluxMore), C28_central_antisymmetric (P_FluxSym), C83_rusanov_antisymmetric (P_FluxSym), C83_hllc_partial (P_FluxSym), C83_hllc_refuted (P_FluxSym), C83_muscl2rusanov_refuted (P_FluxSym), C20_volume_clipped (P_Gradient), C22_linear_scaled (P_Gradient), C20_small_cells (P_Gradient), C22_small_cells (P_Gradient), C14_neighbours (P_Grid), C14_conforming (P_Grid), C15_global_grid (P_Grid), C15_shared_plane (P_Grid), C15_box (P_Grid), C16_span_refuted (P_Grid), C16_span_partial (P_Grid), C18_interior_untouched (P_Grid), C18_uniform_continuation (P_Grid), C18_reflection_I_low (P_Grid), C18_reflection (P_Grid), C162_lump_differs_refuted (P_GridLoc), C162_halo_differs_refuted (P_GridLoc), C148_smallest_convex (P_Hull), C148_straight (P_Hull), C148_marked (P_Hull), C148_boxed (P_Hull), C148_moved (P_Hull), C148_swapped (P_Hull), C148_reversed (P_Hull), C148_missed_refuted (P_Hull), C148_false_refuted (P_Hull), C148_reversed_refuted (P_Hull), C148_interpolation (P_Hull), C81_no_new_extrema (P_Interp), C81_inside_kept (P_Interp), C81_uniform (P_Interp), C114_covering (P_Interp), C114_verbose_exact (P_Interp), C114_separated_ignored (P_Interp), C115_flow_range (P_Interp2), C115_species_sum (P_Interp2), C115_outside_raises (P_Interp2), C115_species_range_refuted (P_Interp2), C66_restart_round_trip (P_Io2), C66_parallel_round_trip (P_Io2), C68_warned_iff_bad (P_Io3), C68_normalized (P_Io3), C68_check_only (P_Io3), C68_verdict_refuted (P_Io3), C68_message_always (P_Io3), C98_arbitrary_time_refuted (P_Io3), C100_overwriting_refuted (P_Io3), C99_interrupted_refuted (P_Io3), C147_heat_capacity (P_KtFit), C147_heat_capacity_refuted (P_KtFit), C19_cell_faces_close (P_Metrics), C20_volume (P_Metrics), C20_inverse_jacobian (P_Metrics), C20_volume_additive (P_Metrics), C22_linear_exact_2nd (P_Metrics), C22_linear_exact_4th (P_Metrics), C22_constant_any_grid (P_Metrics), C149_between (P_Muscl), C149_admissible (P_Muscl), C149_linear (P_Muscl), C149_isothermal_refuted (P_Muscl), C150_pressure (P_Order4), C150_advection (P_Order4), C150_composition (P_Order4), C150_species (P_Order4), C150_mass_error (P_Order4), C150_fourth_order_refuted (P_Order4), C151_constants (P_Prep), C151_profile (P_Prep), C151_spline (P_Prep), C151_unknown_species_refuted (P_Prep), C143_one_speed_refuted (P_Pseudo), C163_inlet_time_refuted (P_Restarted2), C153_available (P_SpLib), C153_heat_capacity (P_SpLib), C153_molecular_weights (P_SpLib), C153_sulfur_hexafluoride_refuted (P_SpLib), C153_constant_cp (P_SpLib), C153_sf6_cp_refuted (P_SpLib), C153_calorically_perfect (P_SpLib), C153_critical_pressure_refuted (P_SpLib), C128_views_exist_partial (P_Species), C128_chung_refuted (P_Species), C128_reacting_cpg_refuted (P_Species), C128_accepted_refuted (P_Species), C42_tableau (P_Time), C42_run (P_Time), C44_counters (P_Time), C46_strang_refuted (P_Time), C43_linear (P_Time2), C43_quadrature (P_Time2), C43_quadrature_run (P_Time2), C45_equilibrium (P_Time2), C45_invariant (P_Time2), C89_ssp (P_Time2), C43_orderConditions (P_Time2), C90_times (P_Time3), C90_stageTimes (P_Time3), C90_boundary_refuted (P_Time3), C90_order_refuted (P_Time3), C43_maccormack_refuted (P_Time3), C46_halves_refuted (P_Time3), C46_source_refuted (P_Time3), C46_autonomous (P_Time3), C47_levels (P_Time3), C47_residual (P_Time3), C47_fixedPoint (P_Time3), C92_startup_refuted (P_Time3), C40_exact_derivative (P_Tpg), C120_line (P_Trace), C120_line_of_one (P_Trace), C164_dissipation (P_Uniform), C164_gradients (P_Uniform), C164_steps (P_Uniform), C165_dissipation (P_Uniform), C165_muscl2hllc_refuted (P_Uniform), C155_step (P_Upwind), C112_verify_returns (P_Verify), C112_verify_true (P_Verify), C112_rotational_refuted (P_Verify), C79_boundary_types_partial (P_Verify), C79_stagnation_refuted (P_Verify), C145_generated_halo_mirrored (P_WallVisc)

## `Classical_Prop.classic`, `FunctionalExtensionality.functional_extensionality_dep`

1 theorems: C118_exchanged_data_is_shared (P_RhsEnd)

## `ClassicalDedekindReals.sig_forall_dec`, `ClassicalDedekindReals.sig_not_dec`, `FunctionalExtensionality.functional_extensionality_dep`

153 theorems: C134_statistics (P_Analyze), C134_balance (P_Analyze), C134_refuses (P_Analyze), C135_decision (P_Analyze), C135_single_cut (P_Analyze), C135_fewest_blocks_refuted (P_Analyze), C135_two_dimensional_refuted (P_Analyze), C55_rotations (P_Bc2), C55_axis_length_refuted (P_Bc2), C94_scalar_gradients (P_Bc2), C94_velocity_gradients_refuted (P_Bc2), C60_advective_reads_existing_cells (P_Config2), C96_rhs_matches_config (P_Config2), C35_max_attained (P_Control), C35_spectral_partial (P_Control), C35_spectral_aligned (P_Control), C35_spectral_radius_refuted (P_Control), C34_step_limits (P_Control), C34_step_is_largest (P_Control), C34_fixed_step (P_Control), C36_sponge_ramp_partial (P_Control), C36_beyond_end_refuted (P_Control), C36_only_viscosity (P_Control), C36_all_flux_cells (P_Control), C76_cut_block (P_Cut), C76_cells_partition (P_Cut), C76_low_index_refuted (P_Cut), C76_high_index_rejected (P_Cut), C137_cut_once (P_CutGrid), C137_operations (P_CutGrid), C137_rotational_refuted (P_CutGrid), C71_alphaDamping_species_close (P_Diff), C72_momentum_flux_is_minus_traction (P_Diff), C72_energy_flux_partial (P_Diff), C72_viscous_work_partial (P_Diff), C72_viscous_work_refuted (P_Diff), C72_galilean_shift (P_Diff), C104_alphaDamping_antisymmetric (P_Diff), C106_linear_gradient_exact (P_Diff), C106_linear_flux_exact (P_Diff), C105_uniform_no_flux (P_Diff), C107_jumps_damped (P_Diff2), C108_stress_dissipates (P_Diff2), C108_rigid_rotation_free (P_Diff2), C108_dilatation_free (P_Diff2), C109_diffusive_frame_invariant (P_Diff3), C109_alphaDamping_refuted (P_Diff3), C91_update (P_Dual), C91_cpg (P_Dual), C91_tpg (P_Dual), C27_consistent_ausmPlusUp (P_FluxKernels), C29_cell_budget (P_FluxMore), C29_block_budget (P_FluxMore), C32_i_direction_partial (P_FluxMore), C32_jk_directions_refuted (P_FluxMore), C83_ausm_antisymmetric (P_FluxSym), C28_same_transfer (P_FluxSym), C84_global_conservation (P_FluxSym), C26_advective_free_stream (P_FreeStream), C26_hllc_refuted (P_FreeStream), C17_axial_refuted (P_Grid), C17_geometry_partial (P_Grid), C17_on_annulus (P_Grid), C130_sides_partial (P_GridPro), C130_sound (P_GridPro), C130_small_span_refuted (P_GridPro), C130_far_refuted (P_GridPro), C130_rotational_refuted (P_GridPro), C130_grid_partial (P_GridPro), C158_two_point_gradient (P_Heat), C158_hot_to_cold (P_Heat), C158_received (P_Heat), C158_hottest_never_gains (P_Heat), C158_step_between (P_Heat), C158_binary (P_Heat), C158_stretched_refuted (P_Heat), C158_oblique_refuted (P_Heat), C117_hybrid_conserves (P_Hybrid), C117_rotated_interfaces_refuted (P_Hybrid), C21_area_positive (P_Metrics), C21_unit_normal (P_Metrics), C21_degenerate_normal (P_Metrics), C149_sound_speed (P_Muscl), C149_pressure_refuted (P_Muscl), C149_species_refuted (P_Muscl), C151_read (P_Prep), C142_limits (P_Pseudo), C142_interior_only (P_Pseudo), C142_units (P_Pseudo), C142_spectral_partial (P_Pseudo), C142_spectral_refuted (P_Pseudo), C143_inviscid (P_Pseudo), C143_units (P_Pseudo), C143_viscous_units_refuted (P_Pseudo), C82_faces_by_family (P_ReadBcs), C82_disagreement_raises (P_ReadBcs), C82_two_passes (P_ReadBcs), C82_values_guaranteed_refuted (P_ReadBcs), C157_printed_number (P_Residual), C157_any_distribution (P_Residual), C157_bounds_every_change (P_Residual), C157_zero_iff_unchanged (P_Residual), C157_lines (P_Residual), C157_twenty_lines (P_Residual), C157_unprinted_largest (P_Residual), C163_state_restored (P_Restarted), C163_restarted_run (P_Restarted), C163_tpg_primitives (P_Restarted2), C163_tpg_refuted (P_Restarted2), C163_tpg_state_restored (P_Restarted3), C118_diffusive_same_transfer (P_RhsEnd), C118_flow_rhs_conserves (P_RhsEnd), C78_sector_connected (P_Sector), C78_sector_turned (P_SectorGeo), C78_sector_faces_meet (P_SectorGeo), C78_thin_refuted (P_SectorGeo), C78_translational_refuted (P_SectorGeo), C78_axis_refuted (P_SectorGeo), C153_ratio_and_sound (P_SpLib), C159_rusanov (P_Stability), C159_hllc (P_Stability), C159_limit_one_overshoots (P_Stability), C37_prims_cons (P_Thermo), C37_cons_prims (P_Thermo), C38_cpg_composition_valid (P_Thermo), C38_tpg_composition_valid (P_Thermo), C38_valid_untouched (P_Thermo), C39_oversized_refuted (P_Thermo), C87_cpg_state_relations (P_Thermo), C87_nonneg_energy_split (P_Thermo), C40_newton_step (P_Tpg), C88_tpg_round_trip (P_Tpg), C120_plane_partial (P_Trace), C120_plane_refuted (P_Trace), C120_tags (P_Trace), C120_circle_raises (P_Trace), C121_homes_partial (P_Trace), C121_all_homeless (P_Trace), C121_lookup_refuted (P_Trace), C74_constantProps_pure (P_Transport), C74_constantProps_unity_lewis (P_Transport), C164_fluxes (P_Uniform), C164_no_diffusion (P_Uniform), C164_rhs (P_Uniform), C165_implied (P_Uniform), C165_rhs (P_Uniform2), C116_face_halo_nodes (P_Unify), C116_edges_and_corners (P_Unify), C116_cube_lattice (P_Unify), C16_halo_offset_refuted (P_Unify), C155_carried_by_mass (P_Upwind), C155_rusanov (P_Upwind), C155_central_overshoot (P_Upwind)

## `ClassicalDedekindReals.sig_forall_dec`, `ClassicalDedekindReals.sig_not_dec`, `Classical_Prop.classic`, `FunctionalExtensionality.functional_extensionality_dep`

106 theorems: C50_writes_only_the_halo (P_Bc), C50_reads_only_in_line (P_Bc), C50_pressure_extrapolated (P_Bc), C50_velocity_extrapolated (P_Bc), C51_impermeable (P_Bc), C52_halo_temperature_partial (P_Bc), C52_face_temperature_refuted (P_Bc), C53_mass_flux_delivered (P_Bc), C53_prescribed_inflow (P_Bc), C53_halo_coherent (P_Bc), C54_supersonic_exit_admissible (P_Bc), C54_reverse_flow_blocked (P_Bc), C55_halo_state (P_Bc2), C56_face1_partial (P_Bc2), C56_own_normal_refuted (P_Bc2), C69_substep (P_Chem), C69_cell (P_Chem), C69_cell_one_substep (P_Chem), C103_rates_finite (P_Chem2), C102_absent_species_not_consumed (P_Chem2), C102_small_substeps_stay_nonnegative (P_Chem2), C101_reaction_direction (P_Chem2), C101_gibbs_never_produced (P_Chem2), C70_total_energy_untouched (P_Chem3), C70_temperature_source_partial (P_Chem3), C70_temperature_source_refuted (P_Chem3), C69_clipping_refuted (P_Chem3), C60_subgrid_reads_existing_cells (P_Config2), C119_generated_kinetics (P_Ct2pg), C119_generated_conserves (P_Ct2pg), C119_negative_prefactor_refuted (P_Ct2pg), C119_blank_third_body_refuted (P_Ct2pg), C41_largest_root_partial (P_Cubic), C41_defined_iff (P_Cubic), C41_inflection_refuted (P_Cubic), C87_cubic_state_relations (P_Cubic), C88_cubic_round_trip (P_Cubic), C156_second_order (P_Gradient), C156_fourth_order (P_Gradient), C147_collision_parameters (P_KtFit), C147_order_refuted (P_KtFit), C147_positive (P_KtFit), C147_reproduced (P_KtFit), C147_monatomic (P_KtFit), C154_second_order (P_Order2), C151_mass_flux (P_Prep), C151_reads_what_is_set (P_Prep), C138_steady_state (P_Red22), C138_solvable (P_Red22), C139_elements_conserved (P_Red22), C139_mass_conserved (P_Red22), C139_substep (P_Red22), C139_cell (P_Red22), C140_absent_not_consumed (P_Red22), C141_direction (P_Red22), C141_steady_present (P_Red22), C146_smooth (P_Red22Thermo), C146_no_jump (P_Red22Thermo), C146_no_jump_refuted (P_Red22Thermo), C146_one_sign (P_Red22Thermo), C146_equilibrium_refuted (P_Red22Thermo), C163_tpg_settled (P_Restarted3), C153_energy_increases (P_SpLib), C153_temperature_found (P_SpLib), C153_two_temperatures_refuted (P_SpLib), C75_never_reduces (P_Subgrid), C75_nothing_in_rigid_motion (P_Subgrid), C75_nothing_in_uniform_flow (P_Subgrid), C75_smagorinsky_acts (P_Subgrid), C75_smagorinsky_amount (P_Subgrid), C75_mixed_amount (P_Subgrid), C75_mixed_nothing_when_linear (P_Subgrid), C75_elsewhere_untouched (P_Subgrid), C38_cubic_composition_valid (P_Thermo), C39_consistent_partial (P_Thermo), C40_temperature_reproduces_energy (P_Tpg), C74_constantProps_positive (P_Transport), C74_constantProps_conductivity_between (P_Transport), C74_kineticTheory_positive_partial (P_Transport2), C110_nscompile_partial (P_Transport2), C110_default_build_refuted (P_Transport2), C110_nscompile_pure_refuted (P_Transport2), C111_binary_mixture (P_Transport2), C124_nscompile_conductivity (P_Transport3), C124_nscompile_positive (P_Transport3), C124_viscosity_refuted (P_Transport3), C124_default_build_refuted (P_Transport3), C125_pure_conductivity (P_Transport3), C125_viscosity_refuted (P_Transport3), C125_viscosity_partial (P_Transport3), C125_viscosity_dilute_partial (P_Transport3), C125_unity_lewis (P_Transport3), C125_mixture (P_Transport3), C93_no_flux_KEEP (P_Wall), C93_no_flux_central (P_Wall), C93_no_flux_rusanov (P_Wall), C93_no_flux_hllc (P_Wall), C93_isothermal_refuted (P_Wall), C93_fourth_order_refuted (P_Wall), C145_no_mass_no_species (P_WallVisc), C145_insulating_wall (P_WallVisc), C145_insulating_no_slip (P_WallVisc), C145_friction (P_WallVisc), C145_isothermal_heat (P_WallVisc), C145_slip_plain (P_WallVisc), C145_slip_damped (P_WallVisc)
