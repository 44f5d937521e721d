{
 "claims": [
  {
   "property": "C01",
   "status": "proved",
   "theorems": [
    "C01_neighbor_orientation_inverse",
    "C01_neighbor_orientation_rejects"
   ],
   "note": ""
  },
  {
   "property": "C02",
   "status": "proved",
   "theorems": [
    "C02_neighbor_face_geometric"
   ],
   "note": ""
  },
  {
   "property": "C03",
   "status": "partial",
   "theorems": [
    "C03_face_invariant",
    "C03_nface_accepts_exactly",
    "C03_bcType_accepts_exactly",
    "C03_orientation_setter_refuted",
    "C03_getFace"
   ],
   "note": "nface and bcType setters: proved for every history of assignments. Refuted part: the orientation setter stores any string (only neighborOrientation rejects it later)."
  },
  {
   "property": "C04",
   "status": "proved",
   "theorems": [
    "C04_append_unique",
    "C04_append_fresh"
   ],
   "note": ""
  },
  {
   "property": "C05",
   "status": "partial",
   "theorems": [
    "C05_getBlock_partial",
    "C05_getBlock_refuted",
    "C05_getBlock_refuted_general"
   ],
   "note": "Violated by the code: getBlock indexes the list with the block number first and raises IndexError when the number is >= the number of local blocks (refutation theorem). The rest of the property is the _partial theorem."
  },
  {
   "property": "C06",
   "status": "proved",
   "theorems": [
    "C06_cell_halo_exchange"
   ],
   "note": ""
  },
  {
   "property": "C07",
   "status": "proved",
   "theorems": [
    "C07_node_halo_exchange",
    "C07_edge_halo_exchange",
    "C07_glued_entry_unique"
   ],
   "note": ""
  },
  {
   "property": "C08",
   "status": "proved",
   "theorems": [
    "C08_first_halo_exchange",
    "C08_other_layers_kept"
   ],
   "note": ""
  },
  {
   "property": "C09",
   "status": "proved",
   "theorems": [
    "C09_exchange_keeps_interior"
   ],
   "note": ""
  },
  {
   "property": "C10",
   "status": "proved",
   "theorems": [
    "C10_buffer_shapes_match"
   ],
   "note": ""
  },
  {
   "property": "C11",
   "status": "proved",
   "theorems": [
    "C11_tags_unique",
    "C11_exactly_one_match"
   ],
   "note": ""
  },
  {
   "property": "C12",
   "status": "proved",
   "theorems": [
    "C12_no_deadlock",
    "C12_terminates",
    "C12_completes"
   ],
   "note": ""
  },
  {
   "property": "C13",
   "status": "proved",
   "theorems": [
    "C13_schedule_independent"
   ],
   "note": ""
  },
  {
   "property": "C14",
   "status": "proved",
   "theorems": [
    "C14_neighbours",
    "C14_symmetric",
    "C14_conforming"
   ],
   "note": ""
  },
  {
   "property": "C15",
   "status": "proved",
   "theorems": [
    "C15_global_grid",
    "C15_shared_plane",
    "C15_box"
   ],
   "note": ""
  },
  {
   "property": "C16",
   "status": "partial",
   "theorems": [
    "C16_span_refuted",
    "C16_span_partial",
    "C16_halo_offset_refuted"
   ],
   "note": "Violated by the code for two or more blocks in a periodic direction: the loop body of multiBlockCube rebinds `lengths`, so the span is the block length (C16_span_refuted). With one block in that direction the span is the domain length (C16_span_partial)."
  },
  {
   "property": "C17",
   "status": "partial",
   "theorems": [
    "C17_axial_refuted",
    "C17_geometry_partial",
    "C17_on_annulus"
   ],
   "note": "Violated by the code: annulus() overwrites p1 by the origin, so two or more blocks along the axis raise ValueError (C17_axial_refuted). With one axial block it succeeds and the blocks tile one global annulus (C17_geometry_partial, C17_on_annulus)."
  },
  {
   "property": "C18",
   "status": "proved",
   "theorems": [
    "C18_interior_untouched",
    "C18_uniform_continuation",
    "C18_reflection_I_low",
    "C18_reflection"
   ],
   "note": ""
  },
  {
   "property": "C19",
   "status": "proved",
   "theorems": [
    "C19_cell_faces_close"
   ],
   "note": ""
  },
  {
   "property": "C20",
   "status": "proved",
   "theorems": [
    "C20_volume_clipped",
    "C20_small_cells",
    "C20_volume",
    "C20_inverse_jacobian",
    "C20_volume_additive"
   ],
   "note": ""
  },
  {
   "property": "C21",
   "status": "proved",
   "theorems": [
    "C21_area_positive",
    "C21_unit_normal",
    "C21_degenerate_normal"
   ],
   "note": ""
  },
  {
   "property": "C22",
   "status": "proved",
   "theorems": [
    "C22_linear_scaled",
    "C22_small_cells",
    "C22_linear_exact_2nd",
    "C22_linear_exact_4th",
    "C22_constant_any_grid"
   ],
   "note": ""
  },
  {
   "property": "C23",
   "status": "proved",
   "theorems": [
    "C23_applyFlux_conserves",
    "C23_applyHybridFlux_conserves",
    "C23_applyDissipationFlux_conserves",
    "C23_only_interior_touched"
   ],
   "note": ""
  },
  {
   "property": "C24",
   "status": "proved",
   "theorems": [
    "C24_interfaces_cancel"
   ],
   "note": ""
  },
  {
   "property": "C25",
   "status": "proved",
   "theorems": [
    "C25_hybrid_is_a_blend",
    "C25_convex",
    "C25_endpoints",
    "C25_dissipation_is_subtracted"
   ],
   "note": ""
  },
  {
   "property": "C26",
   "status": "partial",
   "theorems": [
    "C26_advective_free_stream",
    "C26_hllc_refuted"
   ],
   "note": "Proved for every grid and every consistent scheme, alone, hybrid or with scalar dissipation (C26_advective_free_stream). HLLC and MUSCL-HLLC violate it (C26_hllc_refuted: oblique subsonic uniform flow on a wedge cell). The viscous half is proved under the diffusion theorems."
  },
  {
   "property": "C27",
   "status": "partial",
   "theorems": [
    "C27_consistent",
    "C27_consistent_KEPaEC",
    "C27_consistent_ausmPlusUp",
    "C27_hllc_partial",
    "C27_hllc_refuted"
   ],
   "note": "Proved for KEEP, KEEPpe, KEPaEC, central, fourth-order KEEP, Rusanov, MUSCL-Rusanov, AUSM+-up. HLLC and MUSCL-HLLC lose the tangential velocity in the star state (C27_hllc_refuted); C27_hllc_partial gives exactly where they are consistent."
  },
  {
   "property": "C28",
   "status": "proved",
   "theorems": [
    "C28_central_antisymmetric",
    "C28_same_transfer"
   ],
   "note": ""
  },
  {
   "property": "C29",
   "status": "proved",
   "theorems": [
    "C29_flux_form",
    "C29_cell_budget",
    "C29_block_budget"
   ],
   "note": ""
  },
  {
   "property": "C30",
   "status": "partial",
   "theorems": [
    "C30_left_flux",
    "C30_right_flux",
    "C30_resting_contact_partial",
    "C30_slip_line_refuted"
   ],
   "note": "Supersonic limits and resting contacts proved. A slip line at rest leaks tangential momentum (C30_slip_line_refuted)."
  },
  {
   "property": "C31",
   "status": "partial",
   "theorems": [
    "C31_muscl2rusanov_speed",
    "C31_rusanov_refuted"
   ],
   "note": "MUSCL-Rusanov proved. First-order Rusanov combines |U_L| with c_R and |U_R| with c_L (C31_rusanov_refuted)."
  },
  {
   "property": "C32",
   "status": "partial",
   "theorems": [
    "C32_i_direction_partial",
    "C32_jk_directions_refuted"
   ],
   "note": "i direction proved; in j and k the code reads Q(i+1,j,k) instead of the next cell in that direction (C32_jk_directions_refuted)."
  },
  {
   "property": "C33",
   "status": "proved",
   "theorems": [
    "C33_switch_in_unit_interval",
    "C33_off_on_linear_fields",
    "C33_writes_interior_only",
    "C33_detects_extrema"
   ],
   "note": ""
  },
  {
   "property": "C34",
   "status": "proved",
   "theorems": [
    "C34_step_limits",
    "C34_step_is_largest",
    "C34_fixed_step"
   ],
   "note": ""
  },
  {
   "property": "C35",
   "status": "partial",
   "theorems": [
    "C35_max_attained",
    "C35_spectral_partial",
    "C35_spectral_aligned",
    "C35_spectral_radius_refuted"
   ],
   "note": "The returned number is the attained maximum of the radius the code computes, for every reduction order and block list (C35_max_attained). That radius takes the length of the componentwise product of normal and velocity instead of |u.n|, so it can undershoot the spectral radius (C35_spectral_radius_refuted); bound up to sqrt 3 in C35_spectral_partial, exact on coordinate-aligned grids."
  },
  {
   "property": "C36",
   "status": "partial",
   "theorems": [
    "C36_sponge_ramp_partial",
    "C36_beyond_end_refuted",
    "C36_only_viscosity",
    "C36_all_flux_cells"
   ],
   "note": "Correct upstream of and inside the sponge (C36_sponge_ramp_partial); beyond its end the factor grows past the multiplier, capped at 1+multiplier (C36_beyond_end_refuted)."
  },
  {
   "property": "C37",
   "status": "proved",
   "theorems": [
    "C37_prims_cons",
    "C37_cons_prims"
   ],
   "note": ""
  },
  {
   "property": "C38",
   "status": "proved",
   "theorems": [
    "C38_cpg_composition_valid",
    "C38_tpg_composition_valid",
    "C38_cubic_composition_valid",
    "C38_valid_untouched"
   ],
   "note": ""
  },
  {
   "property": "C39",
   "status": "partial",
   "theorems": [
    "C39_consistent_partial",
    "C39_oversized_refuted"
   ],
   "note": "Proved whenever the given fractions are valid (C39_consistent_partial). Violated by the code for over-full compositions: the primitive branches renormalise the local Y used for Q but leave q unchanged (C39_oversized_refuted)."
  },
  {
   "property": "C40",
   "status": "proved",
   "theorems": [
    "C40_newton_step",
    "C40_exact_derivative",
    "C40_temperature_reproduces_energy"
   ],
   "note": ""
  },
  {
   "property": "C41",
   "status": "partial",
   "theorems": [
    "C41_largest_root_partial",
    "C41_defined_iff",
    "C41_inflection_refuted"
   ],
   "note": "Whenever a value is returned it is the largest real root of the Peng-Robinson cubic, in both branches (C41_largest_root_partial). Violated by the code when the inflection point lies on the axis: 0/0 gives NaN (C41_inflection_refuted; exactly characterised by C41_defined_iff)."
  },
  {
   "property": "C42",
   "status": "proved",
   "theorems": [
    "C42_tableau",
    "C42_run"
   ],
   "note": ""
  },
  {
   "property": "C43",
   "status": "partial",
   "theorems": [
    "C43_linear",
    "C43_quadrature",
    "C43_quadrature_run",
    "C43_orderConditions",
    "C43_maccormack_refuted"
   ],
   "note": "Proved for every explicit integrator on every linear system, on every polynomial source (rk1, rk2, rk3, rk34, rk4) and as order conditions of the tableaux. Violated for maccormack with a time-dependent source: the corrector re-uses the predictor's time (C43_maccormack_refuted)."
  },
  {
   "property": "C44",
   "status": "proved",
   "theorems": [
    "C44_counters"
   ],
   "note": ""
  },
  {
   "property": "C45",
   "status": "proved",
   "theorems": [
    "C45_equilibrium",
    "C45_invariant"
   ],
   "note": ""
  },
  {
   "property": "C46",
   "status": "partial",
   "theorems": [
    "C46_strang_refuted",
    "C46_halves_refuted",
    "C46_source_refuted",
    "C46_autonomous"
   ],
   "note": "Violated by the code: after a strang step the in-step time is one step ahead of the time (C46_strang_refuted), both half steps start at the old time (C46_halves_refuted) and a time-linear source is integrated with a first-order error (C46_source_refuted). For autonomous right-hand sides the composition is the Strang one (C46_autonomous)."
  },
  {
   "property": "C47",
   "status": "proved",
   "theorems": [
    "C47_initial",
    "C47_levels",
    "C47_residual",
    "C47_fixedPoint"
   ],
   "note": ""
  },
  {
   "property": "C48",
   "status": "proved",
   "theorems": [
    "C48_solves",
    "C48_factors"
   ],
   "note": ""
  },
  {
   "property": "C49",
   "status": "proved",
   "theorems": [
    "C49_ranges",
    "C49_unknown_raises"
   ],
   "note": ""
  },
  {
   "property": "C50",
   "status": "proved",
   "theorems": [
    "C50_writes_only_the_halo",
    "C50_reads_only_in_line",
    "C50_reads_in_bounds",
    "C50_pressure_extrapolated",
    "C50_velocity_extrapolated"
   ],
   "note": ""
  },
  {
   "property": "C51",
   "status": "proved",
   "theorems": [
    "C51_impermeable",
    "C51_no_slip",
    "C51_moving_wall",
    "C51_viscous_step_writes_velocity_only"
   ],
   "note": ""
  },
  {
   "property": "C52",
   "status": "partial",
   "theorems": [
    "C52_halo_temperature_partial",
    "C52_face_temperature_refuted"
   ],
   "note": "Violated by the code: walls.cpp stores the wall temperature itself in the halo, so the face mean is (Tw + T1)/2; C52_face_temperature_refuted proves this for every state whose interior temperature differs from Tw. C52_halo_temperature_partial: the halo value is exactly Tw."
  },
  {
   "property": "C53",
   "status": "proved",
   "theorems": [
    "C53_mass_flux_delivered",
    "C53_prescribed_inflow",
    "C53_halo_coherent"
   ],
   "note": ""
  },
  {
   "property": "C54",
   "status": "proved",
   "theorems": [
    "C54_supersonic_exit_admissible",
    "C54_reverse_flow_blocked"
   ],
   "note": ""
  },
  {
   "property": "C55",
   "status": "partial",
   "theorems": [
    "C55_rotations",
    "C55_span_required",
    "C55_axis_length_refuted",
    "C55_halo_state"
   ],
   "note": "Proved for unit axes, the span check included. Refuted for other axes: gridFace.py:40 builds the matrices from the axis as given, although the stored axis is normalised afterwards (C55_axis_length_refuted)."
  },
  {
   "property": "C56",
   "status": "partial",
   "theorems": [
    "C56_face1_partial",
    "C56_own_normal_refuted"
   ],
   "note": "Violated on faces 3-6: inlets.cpp:373-375 always reads inx, iny, inz (C56_own_normal_refuted). C56_face1_partial: on face 1 the outgoing invariant, total enthalpy and the isentropic relations hold. Missing: face 2, where the stored normal points out of the block."
  },
  {
   "property": "C57",
   "status": "proved",
   "theorems": [
    "C57_interval",
    "C57_signal",
    "C57_periodic",
    "C57_interior_entries"
   ],
   "note": ""
  },
  {
   "property": "C58",
   "status": "partial",
   "theorems": [
    "C58_set",
    "C58_get",
    "C58_key_set_fixed",
    "C58_other_methods_refuted",
    "C58_freeze",
    "C58_input_file",
    "C58_defaults"
   ],
   "note": "Item access and assignment are proved for every sequence (C58_set, C58_get, C58_key_set_fixed). Violated by the inherited dict methods update, setdefault and pop, which bypass the frozen check (C58_other_methods_refuted)."
  },
  {
   "property": "C59",
   "status": "proved",
   "theorems": [
    "C59_rules",
    "C59_changes",
    "C59_default_accepted"
   ],
   "note": ""
  },
  {
   "property": "C60",
   "status": "proved",
   "theorems": [
    "C60_one_or_two",
    "C60_advective_reads_existing_cells",
    "C60_subgrid_reads_existing_cells",
    "C60_subgrid_range"
   ],
   "note": ""
  },
  {
   "property": "C61",
   "status": "partial",
   "theorems": [
    "C61_ausm_refuted",
    "C61_others_selectable"
   ],
   "note": "Violated: ausmPlusUp is exported but missing in howManyNG's table, so selecting it raises KeyError (C61_ausm_refuted). All the other exported fluxes can be selected (C61_others_selectable)."
  },
  {
   "property": "C62",
   "status": "partial",
   "theorems": [
    "C62_numerals",
    "C62_round_trip",
    "C62_layout",
    "C62_comments_ignored",
    "C62_blank_lines_refuted"
   ],
   "note": "Round trip, layouts and comments proved. Blank lines are not ignored: each becomes a processor without blocks and the run cannot be started (C62_blank_lines_refuted)."
  },
  {
   "property": "C63",
   "status": "partial",
   "theorems": [
    "C63_neighbour_rank",
    "C63_accepted_not_partition_refuted",
    "C63_partition_partial",
    "C63_no_file"
   ],
   "note": "Violated: [[0,0],[2]] is accepted although block 1 has no owner (C63_accepted_not_partition_refuted). C63_partition_partial: with no duplicate and no negative number, what is accepted is a partition."
  },
  {
   "property": "C64",
   "status": "proved",
   "theorems": [
    "C64_check_sound",
    "C64_partition",
    "C64_sizes",
    "C64_loads",
    "C64_number_of_processors",
    "C64_end_to_end"
   ],
   "note": ""
  },
  {
   "property": "C65",
   "status": "proved",
   "theorems": [
    "C65_round_trip",
    "C65_missing_block"
   ],
   "note": ""
  },
  {
   "property": "C66",
   "status": "proved",
   "theorems": [
    "C66_grid_round_trip",
    "C66_restart_round_trip",
    "C66_parallel_round_trip"
   ],
   "note": ""
  },
  {
   "property": "C67",
   "status": "proved",
   "theorems": [
    "C67_halo_nearest",
    "C67_closest_exists"
   ],
   "note": ""
  },
  {
   "property": "C68",
   "status": "partial",
   "theorems": [
    "C68_warned_iff_bad",
    "C68_normalized",
    "C68_check_only",
    "C68_verdict_refuted",
    "C68_message_always"
   ],
   "note": "The warnings per block and the normalisation are right (C68_warned_iff_bad, C68_normalized). Violated in the closing message, which comes for every state because verifySpeciesSum never returns True (C68_verdict_refuted, C68_message_always)."
  },
  {
   "property": "C69",
   "status": "partial",
   "theorems": [
    "C69_elements_conserved",
    "C69_mass_conserved",
    "C69_substep",
    "C69_cell",
    "C69_cell_one_substep",
    "C69_clipping_refuted"
   ],
   "note": "Proved for FFCMY, Skeletal and GRI30 for all rates (C69_elements_conserved, C69_mass_conserved) and for the kernel as long as no intermediate composition is clipped (C69_cell; one sub-step needs only a valid incoming composition, C69_cell_one_substep). Violated when the clipping between sub-steps acts: it creates atoms (C69_clipping_refuted). chem_C2H4_Air_Red22 (quasi-steady-state) is not modelled."
  },
  {
   "property": "C70",
   "status": "partial",
   "theorems": [
    "C70_total_energy_untouched",
    "C70_temperature_source_partial",
    "C70_temperature_source_refuted"
   ],
   "note": "Violated: the temperature source multiplies dimensionless enthalpies h/(Ru T) with mass sources (C70_temperature_source_refuted; C70_temperature_source_partial says what it computes). The total energy, which holds the formation energies, is untouched (C70_total_energy_untouched)."
  },
  {
   "property": "C71",
   "status": "proved",
   "theorems": [
    "C71_alphaDamping_species_close",
    "C71_diffusive_species_close"
   ],
   "note": ""
  },
  {
   "property": "C72",
   "status": "partial",
   "theorems": [
    "C72_momentum_flux_is_minus_traction",
    "C72_energy_flux_partial",
    "C72_viscous_work_partial",
    "C72_viscous_work_refuted",
    "C72_galilean_shift"
   ],
   "note": "Violated: the kernels add viscous work with the wrong sign. C72_viscous_work_refuted gives a state where the stated energy flux is not what either kernel computes; C72_energy_flux_partial proves what is computed (minus the work, plus heat conduction plus species enthalpy; for diffusiveFlux when the implied last fraction is nonnegative), C72_viscous_work_partial that the statement holds exactly when the viscous work vanishes, C72_galilean_shift that a moving observer sees the energy flux change by the wrong sign."
  },
  {
   "property": "C73",
   "status": "proved",
   "theorems": [
    "C73_index_is_slot",
    "C73_index_bijective"
   ],
   "note": ""
  },
  {
   "property": "C74",
   "status": "partial",
   "theorems": [
    "C74_constantProps_positive",
    "C74_constantProps_pure",
    "C74_constantProps_conductivity_between",
    "C74_constantProps_unity_lewis",
    "C74_kineticTheory_positive_partial"
   ],
   "note": "Proved for constantProps (the anchored kernel). C74_kineticTheory_positive_partial adds the kinetic-theory kernel for the first cell a thread handles and a composition in which no species has mole fraction one; it does not extend to later cells because of the defect recorded under C110."
  },
  {
   "property": "C75",
   "status": "proved",
   "theorems": [
    "C75_never_reduces",
    "C75_nothing_in_rigid_motion",
    "C75_smagorinsky_acts",
    "C75_smagorinsky_amount",
    "C75_mixed_amount",
    "C75_mixed_nothing_when_linear",
    "C75_elsewhere_untouched",
    "C75_filter_in_bounds"
   ],
   "note": ""
  },
  {
   "property": "C76",
   "status": "partial",
   "theorems": [
    "C76_cut_block",
    "C76_cells_partition",
    "C76_low_index_refuted",
    "C76_high_index_rejected",
    "C76_repeated_cuts"
   ],
   "note": "Proved for every index strictly inside the block (and for the indices performCutOperations computes). Refuted for 'any index': cutBlock checks only the upper bound, so index 0 or a negative index yields a part without cells. Lateral neighbours are resolved later by findInteriorNeighbor (geometric search), which is not modelled; the theorem states exactly which faces are left open."
  },
  {
   "property": "C77",
   "status": "partial",
   "theorems": [
    "C77_cut_path",
    "C77_two_ways_refuted"
   ],
   "note": "Termination, uniqueness, soundness and closure proved for all well-formed grids; exactness proved when the cut surface passes through each block in one way. Refuted otherwise: a block met a second time along another axis is skipped and blocks reachable only through it are missed."
  },
  {
   "property": "C78",
   "status": "partial",
   "theorems": [
    "C78_sector_connected",
    "C78_sector_turned",
    "C78_sector_faces_meet",
    "C78_thin_refuted",
    "C78_translational_refuted",
    "C78_axis_refuted"
   ],
   "note": "Proved for sectors at least two blocks thick and without other periodicity, with a unit axis: connectivity (C78_sector_connected) and geometry (C78_sector_turned, C78_sector_faces_meet). Refuted otherwise: one-block-thick sectors (C78_thin_refuted) and translationally periodic sectors (C78_translational_refuted) come out inconsistently connected, and a non-unit axis distorts the copies (C78_axis_refuted)."
  },
  {
   "property": "C79",
   "status": "partial",
   "theorems": [
    "C79_boundary_types_partial",
    "C79_stagnation_refuted"
   ],
   "note": "Refuted: stagnationSubsonicInlet is missing from the accepted list (C79_stagnation_refuted). Proved for every other boundary type (C79_boundary_types_partial)."
  },
  {
   "property": "C80",
   "status": "proved",
   "theorems": [
    "C80_steps",
    "C80_all_steps",
    "C80_restarts",
    "C80_archives",
    "C80_prints",
    "C80_checks_and_coprocessing",
    "C80_ranks_agree",
    "C80_zero_raises"
   ],
   "note": ""
  },
  {
   "property": "C81",
   "status": "proved",
   "theorems": [
    "C81_no_new_extrema",
    "C81_inside_kept",
    "C81_uniform"
   ],
   "note": ""
  },
  {
   "property": "C82",
   "status": "partial",
   "theorems": [
    "C82_faces_by_family",
    "C82_disagreement_raises",
    "C82_two_passes",
    "C82_function_of_type",
    "C82_values_guaranteed_refuted"
   ],
   "note": "Matching, raising on disagreement, two-pass reading and the choice of boundary function are proved exactly. The guarantee that a face needing values has them after reading is refuted: a missing file checks nothing and a family without bcVals only prints a warning (C82_values_guaranteed_refuted)."
  },
  {
   "property": "C83",
   "status": "partial",
   "theorems": [
    "C83_rusanov_antisymmetric",
    "C83_ausm_antisymmetric",
    "C83_hllc_partial",
    "C83_hllc_refuted",
    "C83_muscl2rusanov_refuted"
   ],
   "note": "Rusanov and AUSM+-up proved. HLLC: proved when the wave speeds are ordered and the contact moves (C83_hllc_partial), violated for colliding supersonic streams (C83_hllc_refuted, also MUSCL-HLLC). MUSCL-Rusanov violated (pressure limited with the internal-energy limiter of its own side)."
  },
  {
   "property": "C84",
   "status": "proved",
   "theorems": [
    "C84_global_conservation"
   ],
   "note": ""
  },
  {
   "property": "C85",
   "status": "proved",
   "theorems": [
    "C85_nan_detected_everywhere"
   ],
   "note": ""
  },
  {
   "property": "C86",
   "status": "proved",
   "theorems": [
    "C86_count_independent_of_partition",
    "C86_load_efficiency"
   ],
   "note": ""
  },
  {
   "property": "C87",
   "status": "proved",
   "theorems": [
    "C87_cubic_state_relations",
    "C87_cpg_state_relations",
    "C87_nonneg_energy_split"
   ],
   "note": ""
  },
  {
   "property": "C88",
   "status": "proved",
   "theorems": [
    "C88_cubic_round_trip",
    "C88_tpg_round_trip"
   ],
   "note": ""
  },
  {
   "property": "C89",
   "status": "proved",
   "theorems": [
    "C89_ssp"
   ],
   "note": ""
  },
  {
   "property": "C90",
   "status": "partial",
   "theorems": [
    "C90_times",
    "C90_stageTimes",
    "C90_boundary_refuted",
    "C90_order_refuted"
   ],
   "note": "The times handed to boundary conditions and right-hand sides are computed for every integrator (C90_times), the stage times are those of the tableau (C90_stageTimes). Violated by the code: the boundary data of the first stage of a step are those of the last stage of the step before, the others lag likewise (C90_boundary_refuted, C90_order_refuted)."
  },
  {
   "property": "C91",
   "status": "proved",
   "theorems": [
    "C91_jacobian",
    "C91_nonsingular",
    "C91_update",
    "C91_cpg",
    "C91_tpg"
   ],
   "note": ""
  },
  {
   "property": "C92",
   "status": "partial",
   "theorems": [
    "C92_startup_refuted"
   ],
   "note": "Violated by the code: without a stored Qnm1 the older level is the initial state itself, so the first converged step advances by 2/3 c dt (C92_startup_refuted)."
  },
  {
   "property": "C93",
   "status": "partial",
   "theorems": [
    "C93_no_flux_KEEP",
    "C93_no_flux_central",
    "C93_no_flux_rusanov",
    "C93_no_flux_hllc",
    "C93_isothermal_refuted",
    "C93_fourth_order_refuted"
   ],
   "note": "Proved for adiabatic walls with KEEP, central, Rusanov and HLLC fluxes. Refuted for isothermal walls with Rusanov (density jump across the face leaks mass) and for fourthOrderKEEP (both halo layers copy the first interior layer)."
  },
  {
   "property": "C94",
   "status": "partial",
   "theorems": [
    "C94_scalar_gradients",
    "C94_velocity_gradients_refuted"
   ],
   "note": "Proved for scalars. Refuted for velocity: periodics.cpp rotates the direction of differentiation but not the velocity components of the gradient tensor."
  },
  {
   "property": "C95",
   "status": "partial",
   "theorems": [
    "C95_can_be_built_partial",
    "C95_validated_not_buildable_refuted"
   ],
   "note": "C95_can_be_built_partial: with a shock-handling mode whenever a secondary flux is given, setup succeeds. Violated without: validateConfig accepts it and setRHS asserts (C95_validated_not_buildable_refuted)."
  },
  {
   "property": "C96",
   "status": "proved",
   "theorems": [
    "C96_rhs_matches_config"
   ],
   "note": ""
  },
  {
   "property": "C97",
   "status": "partial",
   "theorems": [
    "C97_limit_respected",
    "C97_num_procs_refuted"
   ],
   "note": "Proved for both minimising modes. Violated with -numProcs, which ignores the limit (C97_num_procs_refuted)."
  },
  {
   "property": "C98",
   "status": "partial",
   "theorems": [
    "C98_serial",
    "C98_parallel_extents",
    "C98_parallel_entries",
    "C98_arbitrary_time_refuted"
   ],
   "note": "Restart outputs proved, serial and parallel. Violated for writeArbitraryArray: arbitraryMetaData drops the time, every block of the serial file is at time 0 (C98_arbitrary_time_refuted)."
  },
  {
   "property": "C99",
   "status": "partial",
   "theorems": [
    "C99_states_restored",
    "C99_fresh_start",
    "C99_interrupted_refuted",
    "C99_animated_interruption"
   ],
   "note": "Proved for complete outputs. Violated without animateRestart if the program stops between the restart and its Qnm1 files: the next run silently takes the Qnm1 of an older output (C99_interrupted_refuted); with it the missing file is noticed (C99_animated_interruption)."
  },
  {
   "property": "C100",
   "status": "partial",
   "theorems": [
    "C100_animated_survives",
    "C100_finished_is_a_moment",
    "C100_overwriting_refuted"
   ],
   "note": "Proved with animateRestart. Violated without: the one file is truncated before the new contents are there (C100_overwriting_refuted)."
  },
  {
   "property": "C101",
   "status": "proved",
   "theorems": [
    "C101_reaction_direction",
    "C101_gibbs_never_produced"
   ],
   "note": ""
  },
  {
   "property": "C102",
   "status": "proved",
   "theorems": [
    "C102_absent_species_not_consumed",
    "C102_small_substeps_stay_nonnegative"
   ],
   "note": ""
  },
  {
   "property": "C103",
   "status": "proved",
   "theorems": [
    "C103_rates_finite"
   ],
   "note": ""
  },
  {
   "property": "C104",
   "status": "proved",
   "theorems": [
    "C104_alphaDamping_antisymmetric",
    "C104_diffusive_antisymmetric"
   ],
   "note": ""
  },
  {
   "property": "C105",
   "status": "proved",
   "theorems": [
    "C105_uniform_no_flux"
   ],
   "note": ""
  },
  {
   "property": "C106",
   "status": "proved",
   "theorems": [
    "C106_linear_gradient_exact",
    "C106_linear_flux_exact"
   ],
   "note": ""
  },
  {
   "property": "C107",
   "status": "proved",
   "theorems": [
    "C107_jumps_damped"
   ],
   "note": ""
  },
  {
   "property": "C108",
   "status": "proved",
   "theorems": [
    "C108_stress_dissipates",
    "C108_rigid_rotation_free",
    "C108_dilatation_free"
   ],
   "note": ""
  },
  {
   "property": "C109",
   "status": "partial",
   "theorems": [
    "C109_diffusive_frame_invariant",
    "C109_alphaDamping_refuted"
   ],
   "note": "Proved for diffusiveFlux. Violated by alphaDampingFlux (C109_alphaDamping_refuted): the damping length sqrt(sum (e_i n_i)^2) is not the projection |e.n|, so turning the grid changes the heat flux."
  },
  {
   "property": "C110",
   "status": "partial",
   "theorems": [
    "C110_nscompile_partial",
    "C110_default_build_refuted",
    "C110_nscompile_pure_refuted"
   ],
   "note": "Violated in the default build: scratch arrays are accumulated with += and never reset between cells (C110_default_build_refuted: two identical consecutive cells get different viscosity). In the NSCOMPILE build it holds for every cell in which no species has mole fraction one (C110_nscompile_partial) and fails for a pure gas of a species other than the last, where uninitialised mole fractions are read (C110_nscompile_pure_refuted)."
  },
  {
   "property": "C111",
   "status": "proved",
   "theorems": [
    "C111_binary_mixture"
   ],
   "note": ""
  },
  {
   "property": "C112",
   "status": "partial",
   "theorems": [
    "C112_verify_returns",
    "C112_verify_true",
    "C112_rotational_refuted"
   ],
   "note": "Proved as an exact characterisation for grids without rotational periodicity (C112_verify_returns, C112_verify_true). The rotational part is refuted: verify() raises on every grid with a rotationally periodic connection, because grid faces have no array attribute (C112_rotational_refuted)."
  },
  {
   "property": "C113",
   "status": "partial",
   "theorems": [
    "C113_animated",
    "C113_latest",
    "C113_emergency",
    "C113_good_restart_lost_refuted"
   ],
   "note": "Contents of the directory proved. That a run stopped by the NaN check leaves a good restart is refuted: on a step on which both are due the restart is written before the check, so with the default single restart file the bad state overwrites the good one (C113_good_restart_lost_refuted)."
  },
  {
   "property": "C114",
   "status": "proved",
   "theorems": [
    "C114_covering",
    "C114_verbose_exact",
    "C114_separated_ignored"
   ],
   "note": ""
  },
  {
   "property": "C115",
   "status": "partial",
   "theorems": [
    "C115_flow_range",
    "C115_species_sum",
    "C115_outside_raises",
    "C115_species_range_refuted"
   ],
   "note": "Ranges of p,u,v,w,T, species sum and the error proved. Species ranges are refuted: normalising after clipping moves mass fractions out of the source range (C115_species_range_refuted)."
  },
  {
   "property": "C116",
   "status": "proved",
   "theorems": [
    "C116_face_halo_nodes",
    "C116_edges_and_corners",
    "C116_cube_lattice"
   ],
   "note": ""
  },
  {
   "property": "C117",
   "status": "partial",
   "theorems": [
    "C117_hybrid_conserves",
    "C117_rotated_interfaces_refuted"
   ],
   "note": "Proved when every connection joins faces normal to the same index axis (C117_hybrid_conserves). Refuted in general: the switch is stored per index direction and exchanged component by component, so where an i face meets a j face the two blocks weight the same face flux differently and mass is created (C117_rotated_interfaces_refuted)."
  },
  {
   "property": "C118",
   "status": "proved",
   "theorems": [
    "C118_diffusive_same_transfer",
    "C118_boundary_conditions_keep_sharing",
    "C118_flow_rhs_conserves",
    "C118_exchanged_data_is_shared"
   ],
   "note": "Proved for the symmetric advective kernels, both diffusive kernels and pointwise property/subgrid models. The mixed-scale subgrid model, which looks at neighbouring cells, the MUSCL/HLLC and dissipation schemes and rotational periodicity are not covered."
  },
  {
   "property": "C119",
   "status": "partial",
   "theorems": [
    "C119_generated_kinetics",
    "C119_generated_conserves",
    "C119_no_net_change_raises",
    "C119_negative_prefactor_refuted",
    "C119_blank_third_body_refuted"
   ],
   "note": "Proved for mechanisms with positive pre-exponential factors in states where the Troe expressions are defined. Refuted for negative pre-exponential factors (the text takes the logarithm of A: C119_negative_prefactor_refuted) and for a third-body reaction in which no species counts (the text keeps the previous reaction's third-body concentration: C119_blank_third_body_refuted)."
  },
  {
   "property": "C120",
   "status": "partial",
   "theorems": [
    "C120_line",
    "C120_line_of_one",
    "C120_plane_partial",
    "C120_plane_refuted",
    "C120_tags",
    "C120_circle_raises"
   ],
   "note": "Lines, points, tags and errors proved. Planes refuted: createPlane lays the points along unit vectors, so the plane has edges of length one whatever p1 and p2 are (C120_plane_refuted); proved when both edges have length one (C120_plane_partial)."
  },
  {
   "property": "C121",
   "status": "partial",
   "theorems": [
    "C121_homes_partial",
    "C121_all_homeless",
    "C121_lookup_refuted"
   ],
   "note": "Refuted as the utility stands: computeMetrics(2, xcOnly=True) does not match the signature, so any point inside any block raises TypeError (C121_lookup_refuted). Proved with that call repaired (C121_homes_partial), and for grids containing none of the points (C121_all_homeless)."
  },
  {
   "property": "C122",
   "status": "partial",
   "theorems": [
    "C122_rows",
    "C122_startup",
    "C122_columns",
    "C122_species_titles",
    "C122_trace_refuted",
    "C122_parallel_refuted",
    "C122_shared_file"
   ],
   "note": "Refuted at start-up: pgCoprocessor imports a misspelled module name, so switching tracing on stops the run (C122_trace_refuted); and on ranks whose block numbers are not below their local block count a due trace raises IndexError (C122_parallel_refuted). Set-up, titles and file contents of the coprocessor class itself are proved for serial numbering."
  },
  {
   "property": "C123",
   "status": "partial",
   "theorems": [
    "C123_heights",
    "C123_growth",
    "C123_loops_end",
    "C123_buffer_end_refuted",
    "C123_core_resolution_refuted",
    "C123_horizontal_resolution_refuted",
    "C123_horizontal_resolution_partial",
    "C123_bl_height_refuted",
    "C123_short_channel_refuted"
   ],
   "note": "Heights, growth and termination are proved (for a core of at least two points). Refuted: the default buffer layer ends above y+ = 33, not 30, since the rescaling multiplies by stop and divides by stop - start (C123_buffer_end_refuted); int(L/d) is used as a number of points, so core and horizontal spacings always exceed the requested ones (C123_core_resolution_refuted, C123_horizontal_resolution_refuted; the _partial theorem bounds the excess); the boundary-layer height is taken in metres though documented in delta (C123_bl_height_refuted); with a core of one point a channel stops short of its height (C123_short_channel_refuted)."
  },
  {
   "property": "C124",
   "status": "partial",
   "theorems": [
    "C124_nscompile_conductivity",
    "C124_nscompile_positive",
    "C124_viscosity_refuted",
    "C124_default_build_refuted"
   ],
   "note": "Conductivity, diffusivity and positivity are proved for the NSCOMPILE build. Refuted: the viscosity is the geometric mean of the tabulated viscosity and sqrt T because the fitted square root is never squared (C124_viscosity_refuted, for every pure gas); in the default build scratch values carry over from the thread's previous cell (C124_default_build_refuted)."
  },
  {
   "property": "C125",
   "status": "partial",
   "theorems": [
    "C125_pure_conductivity",
    "C125_viscosity_refuted",
    "C125_viscosity_partial",
    "C125_viscosity_dilute_partial",
    "C125_unity_lewis",
    "C125_mixture"
   ],
   "note": "Conductivity proved for every pure fluid. The viscosity bracket applies the shape factor to its first term only: C125_viscosity_refuted gives the exact error and that it is non-zero whenever the factor is not 1; _partial theorems: equal when the factor is 1, error vanishing with density. Missing: positivity of the species values themselves from the state (assumed in C125_mixture, shown for a concrete gas)."
  },
  {
   "property": "C126",
   "status": "partial",
   "theorems": [
    "C126_scalar_property",
    "C126_scalar_succeeds",
    "C126_missing_raises",
    "C126_vector_property",
    "C126_names_only",
    "C126_blank_refuted",
    "C126_first_text_refuted",
    "C126_scalar_nasa_refuted"
   ],
   "note": "Order, precedence, completeness and errors proved. Refuted in three corners: a blank field hides the library's value and becomes nan (C126_blank_refuted); a number YAML reads as text is accepted except for the first species (C126_first_text_refuted); with one species a lone number for NASA7 fills all fifteen coefficients (C126_scalar_nasa_refuted)."
  },
  {
   "property": "C127",
   "status": "proved",
   "theorems": [
    "C127_search_order",
    "C127_list"
   ],
   "note": ""
  },
  {
   "property": "C128",
   "status": "partial",
   "theorems": [
    "C128_views_exist_partial",
    "C128_chung_refuted",
    "C128_reacting_cpg_refuted",
    "C128_accepted_refuted"
   ],
   "note": "Proved for all other accepted combinations (C128_views_exist_partial). Refuted: dense-gas transport without the cubic equation of state reads critical data never created (C128_chung_refuted); chemistry with a calorically perfect gas reads NASA coefficients never created (C128_reacting_cpg_refuted); both pass validation, and species counts are not compared with the mechanism (C128_accepted_refuted)."
  },
  {
   "property": "C129",
   "status": "partial",
   "theorems": [
    "C129_faces_partial",
    "C129_stripped_label_refuted",
    "C129_lost_label_refuted"
   ],
   "note": "C129_faces_partial: connectivity for every file; family and type for every label whose name does not begin or end with p, d, c or ':'. Missing because false: str.strip('pdc:') removes characters, not the prefix, so 'pdc:pinlet' becomes family 'inlet' (C129_stripped_label_refuted) and 'pdc:cold' is lost (C129_lost_label_refuted). Not modelled: file opening, comment lines, coordinate formats."
  },
  {
   "property": "C130",
   "status": "partial",
   "theorems": [
    "C130_sides_partial",
    "C130_sound",
    "C130_small_span_refuted",
    "C130_far_refuted",
    "C130_rotational_refuted",
    "C130_two_families_refuted",
    "C130_grid_partial"
   ],
   "note": "C130_grid_partial: sides right for translational periodicity whose faces are exact translates, in any point order, when the span exceeds half the comparison tolerance; C130_sound: a side is given only if the centres match within tolerance. Refuted: below the tolerance both faces become Low, also for 1 m at 3e5 m from the origin (C130_small_span_refuted, C130_far_refuted); rotational periodicity always raises, grid faces having no rotation matrices (C130_rotational_refuted); every PERIODIC face gets the first periodic family (C130_two_families_refuted)."
  },
  {
   "property": "C131",
   "status": "proved",
   "theorems": [
    "C131_connectivity",
    "C131_order",
    "C131_reciprocal"
   ],
   "note": "Under the reading of ICEM's listing spelt out in S_Icem.listed (in-face directions paired along each other, outward normals paired) and tokenised lines."
  },
  {
   "property": "C132",
   "status": "partial",
   "theorems": [
    "C132_tags_partial",
    "C132_split_face_refuted",
    "C132_types_refuted"
   ],
   "note": "C132_tags_partial: right for every face whose lines carry one label of a supported type. Refuted: of two labels on one face the last silently wins (C132_split_face_refuted); seven of the thirteen boundary types are rejected (C132_types_refuted)."
  },
  {
   "property": "C133",
   "status": "partial",
   "theorems": [
    "C133_periodic_refuted",
    "C133_mbi_refuted"
   ],
   "note": "Refuted outright: the periodic branch assigns bcType 'b1', which the setter rejects, so every grid with a periodic face raises (C133_periodic_refuted); the Multi-Block-Info reader counts domain files from 0 (C133_mbi_refuted)."
  },
  {
   "property": "C134",
   "status": "proved",
   "theorems": [
    "C134_statistics",
    "C134_balance",
    "C134_refuses"
   ],
   "note": ""
  },
  {
   "property": "C135",
   "status": "partial",
   "theorems": [
    "C135_decision",
    "C135_single_cut",
    "C135_fewest_blocks_refuted",
    "C135_two_dimensional_refuted"
   ],
   "note": "Proved: the number of cuts is minimal and, when at least two cuts are needed, the axis with the shortest propagation is taken (C135_decision). Refuted: with a single cut all axes get cost 0 and the i axis is taken whatever the propagation (C135_fewest_blocks_refuted); a block with two points along any axis is always refused although another axis could be cut (C135_two_dimensional_refuted)."
  },
  {
   "property": "C136",
   "status": "proved",
   "theorems": [
    "C136_round_trip",
    "C136_validated"
   ],
   "note": ""
  },
  {
   "property": "C137",
   "status": "partial",
   "theorems": [
    "C137_cut_once",
    "C137_operations",
    "C137_rotational_refuted"
   ],
   "note": "Proved for interior and translational joints, for one cut (C137_cut_once) and for any feasible list of operations (C137_operations). Refuted for rotational periodicity: a cut crossing such a joint raises, because the faces of a grid carry no rotation arrays (C137_rotational_refuted)."
  },
  {
   "property": "C138",
   "status": "proved",
   "theorems": [
    "C138_steady_state",
    "C138_solvable"
   ],
   "note": ""
  },
  {
   "property": "C139",
   "status": "proved",
   "theorems": [
    "C139_elements_conserved",
    "C139_mass_conserved",
    "C139_substep",
    "C139_cell"
   ],
   "note": ""
  },
  {
   "property": "C140",
   "status": "proved",
   "theorems": [
    "C140_absent_not_consumed"
   ],
   "note": "For states with oxygen (then the rates are defined, C138). Exact reals; the isfinite guard of the kernel is the identity on defined states."
  },
  {
   "property": "C141",
   "status": "proved",
   "theorems": [
    "C141_direction",
    "C141_steady_present"
   ],
   "note": "All reactions except the six whose forward or backward direction the kernel sets to zero (56, 57, 142, 178, 205 and 193)."
  },
  {
   "property": "C142",
   "status": "partial",
   "theorems": [
    "C142_limits",
    "C142_interior_only",
    "C142_units",
    "C142_spectral_partial",
    "C142_spectral_refuted"
   ],
   "note": "C142_limits, C142_interior_only and C142_units prove the property for the wave speed the kernel really uses, which is the length of the componentwise product of velocity and unit normal plus the sound speed. With the true spectral radius |u.n|+c the bound holds within a factor sqrt 3 (C142_spectral_partial) and the factor one half itself is violated by a diagonal cell (C142_spectral_refuted)."
  },
  {
   "property": "C143",
   "status": "partial",
   "theorems": [
    "C143_inviscid",
    "C143_units",
    "C143_one_speed_refuted",
    "C143_viscous_units_refuted"
   ],
   "note": "Proved without viscosity except at exactly one speed. C143_one_speed_refuted: at speed c/10^5 exactly, the code returns c (strict comparisons on both sides). C143_viscous_units_refuted: with viscosity the code limits by width/nu, the inverse of a velocity, so the result depends on the units."
  },
  {
   "property": "C144",
   "status": "proved",
   "theorems": [
    "C144_results_sorted",
    "C144_history_sorted",
    "C144_fixed_width"
   ],
   "note": ""
  },
  {
   "property": "C145",
   "status": "proved",
   "theorems": [
    "C145_generated_halo_mirrored",
    "C145_no_mass_no_species",
    "C145_insulating_wall",
    "C145_insulating_no_slip",
    "C145_friction",
    "C145_isothermal_heat",
    "C145_slip_plain",
    "C145_slip_damped"
   ],
   "note": ""
  },
  {
   "property": "C146",
   "status": "partial",
   "theorems": [
    "C146_smooth",
    "C146_no_jump",
    "C146_no_jump_refuted",
    "C146_one_sign",
    "C146_equilibrium_refuted"
   ],
   "note": "Proved for 30 of the 31 species. C146_no_jump_refuted: for CH2CHO the function falls to less than a third of its value as the temperature passes 1000 K, and C146_equilibrium_refuted: the equilibrium constant of H + CH2CO = CH2CHO more than halves. C146_one_sign: reversing the sign of the T^3 coefficient of CH2CHO below 1000 K (chem_C2H4_Air_Red22.cpp:392) removes the jump, so this is a transcription error in the code."
  },
  {
   "property": "C147",
   "status": "partial",
   "theorems": [
    "C147_collision_parameters",
    "C147_order_refuted",
    "C147_positive",
    "C147_reproduced",
    "C147_heat_capacity",
    "C147_heat_capacity_refuted",
    "C147_monatomic"
   ],
   "note": "Collision parameters are proved right unless the second species of a pair is polar and the first is not. C147_order_refuted: then the dipole moment of the polar species is read from the matrix (kineticTheoryPoly.py:124) before it has been put there, so the polar correction is skipped: well depth too small, diameter too large, and the diffusivity depends on the order in which the species are listed. C147_heat_capacity_refuted: for a calorically perfect gas the heat capacity is cp0*T/(Ru*MW) instead of cp0*MW/Ru (kineticTheoryPoly.py:14-28), so C147_monatomic (Eucken's law) fails for it. C147_reproduced needs values that a quartic can represent; how close the fit is otherwise is not stated."
  },
  {
   "property": "C148",
   "status": "partial",
   "theorems": [
    "C148_smallest_convex",
    "C148_straight",
    "C148_marked",
    "C148_boxed",
    "C148_moved",
    "C148_swapped",
    "C148_reversed",
    "C148_missed_refuted",
    "C148_false_refuted",
    "C148_reversed_refuted",
    "C148_interpolation"
   ],
   "note": "Exact for blocks with straight parallel grid lines, however spaced (C148_straight). The test uses the convex hull of up to 26 nodes, so for curved blocks it fails both ways: C148_missed_refuted (a cell centre of the block is not found in the block), C148_false_refuted (a point far from every cell is found). C148_reversed_refuted: with an even number of nodes above four the node taken as the middle is not the same from both ends, so the answer depends on the direction of the index. Qhull's triangulation is taken to fill the convex hull; its refusal of flat point sets is not modelled."
  },
  {
   "property": "C149",
   "status": "partial",
   "theorems": [
    "C149_between",
    "C149_admissible",
    "C149_linear",
    "C149_sound_speed",
    "C149_pressure_refuted",
    "C149_isothermal_refuted",
    "C149_species_refuted"
   ],
   "note": "Proved for density, velocity, internal energy and (MUSCL-HLLC) mass fractions; the sound speed of a perfect gas stays positive (C149_sound_speed). Pressure and sound speed reuse the limiter of the energy. C149_pressure_refuted: perfect-gas states with positive pressures give a negative face pressure. C149_isothermal_refuted: with uniform energy the ratio is 0/0, the limiter comes out as 2 (fmin and fmax pass over NaN), so the left state gets the right cell's pressure, and a linear pressure comes out exchanged between the sides. C149_species_refuted: MUSCL-Rusanov reuses the density limiter for partial densities and makes negative ones."
  },
  {
   "property": "C150",
   "status": "partial",
   "theorems": [
    "C150_pressure",
    "C150_advection",
    "C150_composition",
    "C150_species",
    "C150_mass_error",
    "C150_fourth_order_refuted"
   ],
   "note": "Exact for quartic pressure, for quartic density at constant velocity and for quartic composition. Not fourth order in general: the mass flux is the product of a density and a velocity interpolated separately, so when both vary its divergence carries the error h^2/12 (rho' u')' (C150_mass_error), and C150_fourth_order_refuted shows a smooth positive-density flow for which the order is exactly two."
  },
  {
   "property": "C151",
   "status": "partial",
   "theorems": [
    "C151_constants",
    "C151_profile",
    "C151_spline",
    "C151_mass_flux",
    "C151_reads_what_is_set",
    "C151_own_file",
    "C151_read",
    "C151_unknown_species_refuted"
   ],
   "note": "All parts proved except the last: C151_unknown_species_refuted shows that an entry under a name that is neither needed nor a species of the block (a misspelt species, say) changes nothing and raises nothing, so the mass fraction meant is silently 0."
  },
  {
   "property": "C152",
   "status": "partial",
   "theorems": [
    "C152_current_solution",
    "C152_initial",
    "C152_name_clash_refuted"
   ],
   "note": "Proved for species names different from the field names; C152_name_clash_refuted shows that a species called \"T\" replaces the temperature array, which then appears nowhere in the data set. VTK itself is modelled by its documented add/remove-by-name behaviour."
  },
  {
   "property": "C153",
   "status": "partial",
   "theorems": [
    "C153_available",
    "C153_heat_capacity",
    "C153_ratio_and_sound",
    "C153_energy_increases",
    "C153_temperature_found",
    "C153_molecular_weights",
    "C153_sulfur_hexafluoride_refuted",
    "C153_constant_cp",
    "C153_sf6_cp_refuted",
    "C153_calorically_perfect",
    "C153_critical_pressure_refuted",
    "C153_two_temperatures_refuted"
   ],
   "note": "Proved for all species and mixtures, with these exceptions, each proved: C153_sulfur_hexafluoride_refuted (the molecular weight of SF6 is 146.980338, that of its formula 146.048), C153_sf6_cp_refuted (its cp0 differs from its own polynomial by over 4e-4), C153_critical_pressure_refuted (its pcrit, written 2.749e6, is text to PyYAML: an error if SF6 is the first species, a number otherwise), C153_two_temperatures_refuted (the fits jump at the break temperature, so two temperatures can have one energy; C153_energy_increases and C153_temperature_found bound the ambiguity by 13 and 20 mK)."
  },
  {
   "property": "C154",
   "status": "proved",
   "theorems": [
    "C154_second_order",
    "C154_rusanov_first_order"
   ],
   "note": "Proved for the central schemes as stated. C154_rusanov_first_order shows that the property does not extend to the upwind scheme: for a gas at rest with varying density Rusanov's mass flux has an error of exactly first order."
  },
  {
   "property": "C155",
   "status": "proved",
   "theorems": [
    "C155_carried_by_mass",
    "C155_rusanov",
    "C155_step",
    "C155_central_overshoot"
   ],
   "note": "C155_step says that the step of the theorems is an explicit Euler step with the code's right-hand side. C155_central_overshoot shows that the five central schemes do not have the property for any step."
  },
  {
   "property": "C156",
   "status": "proved",
   "theorems": [
    "C156_second_order",
    "C156_fourth_order"
   ],
   "note": ""
  },
  {
   "property": "C157",
   "status": "proved",
   "theorems": [
    "C157_printed_number",
    "C157_any_distribution",
    "C157_bounds_every_change",
    "C157_zero_iff_unchanged",
    "C157_lines",
    "C157_twenty_lines",
    "C157_unprinted_largest"
   ],
   "note": ""
  },
  {
   "property": "C158",
   "status": "partial",
   "theorems": [
    "C158_two_point_gradient",
    "C158_hot_to_cold",
    "C158_received",
    "C158_hottest_never_gains",
    "C158_step_between",
    "C158_binary",
    "C158_stretched_refuted",
    "C158_oblique_refuted"
   ],
   "note": "Proved on evenly spaced boxes along the coordinate axes, for every stored cell gradient. C158_stretched_refuted: where the spacing changes from 1 to 3, and C158_oblique_refuted: on unit cubes turned about z (the damping distance of alphaDampingFlux.cpp:50-53 is not the distance along the normal there), heat flows from the colder to the hotter cell although the temperature rises monotonically."
  },
  {
   "property": "C159",
   "status": "proved",
   "theorems": [
    "C159_rusanov",
    "C159_hllc",
    "C159_limit_one_overshoots"
   ],
   "note": ""
  },
  {
   "property": "C160",
   "status": "partial",
   "theorems": [
    "C160_serial",
    "C160_parallel",
    "C160_idle_rank_refuted",
    "C160_other_arrays_stop",
    "C160_other_arrays_stop_parallel"
   ],
   "note": "Holds as stated when every rank has a block (C160_serial, C160_parallel, C160_other_arrays_stop, C160_other_arrays_stop_parallel). The code violates it otherwise: a rank without blocks indexes mb[0] and stops the parallel output, whatever the others hold (C160_idle_rank_refuted, for all inputs). The wrong time of the serial XDMF file is C98_arbitrary_time_refuted."
  },
  {
   "property": "C161",
   "status": "partial",
   "theorems": [
    "C161_only_own_files",
    "C161_only_own_files_parallel",
    "C161_others_safe",
    "C161_others_safe_parallel",
    "C161_q_refuted"
   ],
   "note": "Proved for every name but q and g (C161_only_own_files, C161_others_safe and their parallel forms). The code violates it for the array q: its output replaces the restart of the same iteration, which then reads as zeros without an error (C161_q_refuted)."
  },
  {
   "property": "C162",
   "status": "partial",
   "theorems": [
    "C162_same_choices",
    "C162_restart_keeps",
    "C162_array_keeps",
    "C162_lump_differs_refuted",
    "C162_halo_differs_refuted"
   ],
   "note": "Proved for equal choices of lumping and halos (C162_same_choices, with C162_restart_keeps and C162_array_keeps for the histories). The code takes the lumping and halo of the results for those of the grid, so with other choices the geometry leads nowhere (C162_lump_differs_refuted, C162_halo_differs_refuted)."
  },
  {
   "property": "C163",
   "status": "partial",
   "theorems": [
    "C163_run_continues",
    "C163_state_restored",
    "C163_restarted_run",
    "C163_tpg_primitives",
    "C163_tpg_refuted",
    "C163_inlet_time_refuted",
    "C163_tpg_state_restored",
    "C163_tpg_settled"
   ],
   "note": "Proved: the run loop continues as it would have (C163_run_continues, for every notion of sameness respected by a step), and for the calorically perfect gas the file gives back every interior cell and the counters (C163_state_restored), so that the restarted run is the tail of the whole one if a step depends on interior cells, counters and configuration only (C163_restarted_run). For the thermally perfect gas the primitives come back (C163_tpg_primitives) and with them everything but the conserved energy (C163_tpg_state_restored), which comes back within Newton's tolerance of 1e-8 J/kg in the cells the solver leaves behind where its iteration converged (C163_tpg_settled) but not exactly (C163_tpg_refuted). The code violates it where boundary data depend on time: titme is 0 in a restarted solver, so the first right-hand side takes them at time zero (C163_inlet_time_refuted)."
  },
  {
   "property": "C164",
   "status": "proved",
   "theorems": [
    "C164_fluxes",
    "C164_dissipation",
    "C164_gradients",
    "C164_no_diffusion",
    "C164_rhs",
    "C164_steps"
   ],
   "note": "C164_rhs composes the fluxes with the metric and the flux differences for every shock handling; C164_steps lifts rates in proportion through every documented tableau, for a right-hand side that keeps the proportions (as C164_rhs shows for the interior cells)."
  },
  {
   "property": "C165",
   "status": "partial",
   "theorems": [
    "C165_implied",
    "C165_dissipation",
    "C165_muscl2hllc_refuted",
    "C165_rhs"
   ],
   "note": "Proved for the scalar dissipation and every advective flux but muscl2hllc, on faces whose cells hold coherent states (C165_implied, C165_dissipation), and for the whole advective right-hand side with any shock capturing built from them (C165_rhs). muscl2hllc violates it: it limits each mass fraction by itself, and C165_muscl2hllc_refuted gives a mixture of three species in supersonic flow whose reconstructed fractions add to 7/8, so that the implied species gets a flux it would not have of its own."
  }
 ]
}