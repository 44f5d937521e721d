{
 "C03": {
  "note": "nface and bcType setters: proved for every history of assignments. Refuted part: the orientation setter stores any string (only neighborOrientation rejects it later)."
 },
 "C05": {
  "note": "Violated by the code: getBlock indexes the list with the block number first and raises IndexError when the number is >= the number of local blocks (refutation theorem). The rest of the property is the _partial theorem."
 },
 "C16": {
  "note": "Violated by the code for two or more blocks in a periodic direction: the loop body of multiBlockCube rebinds `lengths`, so the span is the block length (C16_span_refuted). With one block in that direction the span is the domain length (C16_span_partial)."
 },
 "C17": {
  "note": "Violated by the code: annulus() overwrites p1 by the origin, so two or more blocks along the axis raise ValueError (C17_axial_refuted). With one axial block it succeeds and the blocks tile one global annulus (C17_geometry_partial, C17_on_annulus)."
 },
 "C26": {
  "note": "Proved for every grid and every consistent scheme, alone, hybrid or with scalar dissipation (C26_advective_free_stream). HLLC and MUSCL-HLLC violate it (C26_hllc_refuted: oblique subsonic uniform flow on a wedge cell). The viscous half is proved under the diffusion theorems."
 },
 "C27": {
  "note": "Proved for KEEP, KEEPpe, KEPaEC, central, fourth-order KEEP, Rusanov, MUSCL-Rusanov, AUSM+-up. HLLC and MUSCL-HLLC lose the tangential velocity in the star state (C27_hllc_refuted); C27_hllc_partial gives exactly where they are consistent."
 },
 "C30": {
  "note": "Supersonic limits and resting contacts proved. A slip line at rest leaks tangential momentum (C30_slip_line_refuted)."
 },
 "C31": {
  "note": "MUSCL-Rusanov proved. First-order Rusanov combines |U_L| with c_R and |U_R| with c_L (C31_rusanov_refuted)."
 },
 "C32": {
  "note": "i direction proved; in j and k the code reads Q(i+1,j,k) instead of the next cell in that direction (C32_jk_directions_refuted)."
 },
 "C83": {
  "note": "Rusanov and AUSM+-up proved. HLLC: proved when the wave speeds are ordered and the contact moves (C83_hllc_partial), violated for colliding supersonic streams (C83_hllc_refuted, also MUSCL-HLLC). MUSCL-Rusanov violated (pressure limited with the internal-energy limiter of its own side)."
 },
 "C35": {
  "note": "The returned number is the attained maximum of the radius the code computes, for every reduction order and block list (C35_max_attained). That radius takes the length of the componentwise product of normal and velocity instead of |u.n|, so it can undershoot the spectral radius (C35_spectral_radius_refuted); bound up to sqrt 3 in C35_spectral_partial, exact on coordinate-aligned grids."
 },
 "C36": {
  "note": "Correct upstream of and inside the sponge (C36_sponge_ramp_partial); beyond its end the factor grows past the multiplier, capped at 1+multiplier (C36_beyond_end_refuted)."
 },
 "C39": {
  "note": "Proved whenever the given fractions are valid (C39_consistent_partial). Violated by the code for over-full compositions: the primitive branches renormalise the local Y used for Q but leave q unchanged (C39_oversized_refuted)."
 },
 "C41": {
  "note": "Whenever a value is returned it is the largest real root of the Peng-Robinson cubic, in both branches (C41_largest_root_partial). Violated by the code when the inflection point lies on the axis: 0/0 gives NaN (C41_inflection_refuted; exactly characterised by C41_defined_iff)."
 },
 "C43": {
  "note": "Proved for every explicit integrator on every linear system, on every polynomial source (rk1, rk2, rk3, rk34, rk4) and as order conditions of the tableaux. Violated for maccormack with a time-dependent source: the corrector re-uses the predictor's time (C43_maccormack_refuted)."
 },
 "C46": {
  "note": "Violated by the code: after a strang step the in-step time is one step ahead of the time (C46_strang_refuted), both half steps start at the old time (C46_halves_refuted) and a time-linear source is integrated with a first-order error (C46_source_refuted). For autonomous right-hand sides the composition is the Strang one (C46_autonomous)."
 },
 "C90": {
  "note": "The times handed to boundary conditions and right-hand sides are computed for every integrator (C90_times), the stage times are those of the tableau (C90_stageTimes). Violated by the code: the boundary data of the first stage of a step are those of the last stage of the step before, the others lag likewise (C90_boundary_refuted, C90_order_refuted)."
 },
 "C92": {
  "note": "Violated by the code: without a stored Qnm1 the older level is the initial state itself, so the first converged step advances by 2/3 c dt (C92_startup_refuted)."
 },
 "C52": {
  "note": "Violated by the code: walls.cpp stores the wall temperature itself in the halo, so the face mean is (Tw + T1)/2; C52_face_temperature_refuted proves this for every state whose interior temperature differs from Tw. C52_halo_temperature_partial: the halo value is exactly Tw."
 },
 "C55": {
  "note": "Proved for unit axes, the span check included. Refuted for other axes: gridFace.py:40 builds the matrices from the axis as given, although the stored axis is normalised afterwards (C55_axis_length_refuted)."
 },
 "C56": {
  "note": "Violated on faces 3-6: inlets.cpp:373-375 always reads inx, iny, inz (C56_own_normal_refuted). C56_face1_partial: on face 1 the outgoing invariant, total enthalpy and the isentropic relations hold. Missing: face 2, where the stored normal points out of the block."
 },
 "C93": {
  "note": "Proved for adiabatic walls with KEEP, central, Rusanov and HLLC fluxes. Refuted for isothermal walls with Rusanov (density jump across the face leaks mass) and for fourthOrderKEEP (both halo layers copy the first interior layer)."
 },
 "C94": {
  "note": "Proved for scalars. Refuted for velocity: periodics.cpp rotates the direction of differentiation but not the velocity components of the gradient tensor."
 },
 "C58": {
  "note": "Item access and assignment are proved for every sequence (C58_set, C58_get, C58_key_set_fixed). Violated by the inherited dict methods update, setdefault and pop, which bypass the frozen check (C58_other_methods_refuted)."
 },
 "C61": {
  "note": "Violated: ausmPlusUp is exported but missing in howManyNG's table, so selecting it raises KeyError (C61_ausm_refuted). All the other exported fluxes can be selected (C61_others_selectable)."
 },
 "C95": {
  "note": "C95_can_be_built_partial: with a shock-handling mode whenever a secondary flux is given, setup succeeds. Violated without: validateConfig accepts it and setRHS asserts (C95_validated_not_buildable_refuted)."
 },
 "C62": {
  "note": "Round trip, layouts and comments proved. Blank lines are not ignored: each becomes a processor without blocks and the run cannot be started (C62_blank_lines_refuted)."
 },
 "C63": {
  "note": "Violated: [[0,0],[2]] is accepted although block 1 has no owner (C63_accepted_not_partition_refuted). C63_partition_partial: with no duplicate and no negative number, what is accepted is a partition."
 },
 "C97": {
  "note": "Proved for both minimising modes. Violated with -numProcs, which ignores the limit (C97_num_procs_refuted)."
 },
 "C68": {
  "note": "The warnings per block and the normalisation are right (C68_warned_iff_bad, C68_normalized). Violated in the closing message, which comes for every state because verifySpeciesSum never returns True (C68_verdict_refuted, C68_message_always)."
 },
 "C98": {
  "note": "Restart outputs proved, serial and parallel. Violated for writeArbitraryArray: arbitraryMetaData drops the time, every block of the serial file is at time 0 (C98_arbitrary_time_refuted)."
 },
 "C99": {
  "note": "Proved for complete outputs. Violated without animateRestart if the program stops between the restart and its Qnm1 files: the next run silently takes the Qnm1 of an older output (C99_interrupted_refuted); with it the missing file is noticed (C99_animated_interruption)."
 },
 "C100": {
  "note": "Proved with animateRestart. Violated without: the one file is truncated before the new contents are there (C100_overwriting_refuted)."
 },
 "C69": {
  "note": "Proved for FFCMY, Skeletal and GRI30 for all rates (C69_elements_conserved, C69_mass_conserved) and for the kernel as long as no intermediate composition is clipped (C69_cell; one sub-step needs only a valid incoming composition, C69_cell_one_substep). Violated when the clipping between sub-steps acts: it creates atoms (C69_clipping_refuted). chem_C2H4_Air_Red22 (quasi-steady-state) is not modelled."
 },
 "C70": {
  "note": "Violated: the temperature source multiplies dimensionless enthalpies h/(Ru T) with mass sources (C70_temperature_source_refuted; C70_temperature_source_partial says what it computes). The total energy, which holds the formation energies, is untouched (C70_total_energy_untouched)."
 },
 "C72": {
  "note": "Violated: the kernels add viscous work with the wrong sign. C72_viscous_work_refuted gives a state where the stated energy flux is not what either kernel computes; C72_energy_flux_partial proves what is computed (minus the work, plus heat conduction plus species enthalpy; for diffusiveFlux when the implied last fraction is nonnegative), C72_viscous_work_partial that the statement holds exactly when the viscous work vanishes, C72_galilean_shift that a moving observer sees the energy flux change by the wrong sign."
 },
 "C74": {
  "note": "Proved for constantProps (the anchored kernel). C74_kineticTheory_positive_partial adds the kinetic-theory kernel for the first cell a thread handles and a composition in which no species has mole fraction one; it does not extend to later cells because of the defect recorded under C110."
 },
 "C109": {
  "note": "Proved for diffusiveFlux. Violated by alphaDampingFlux (C109_alphaDamping_refuted): the damping length sqrt(sum (e_i n_i)^2) is not the projection |e.n|, so turning the grid changes the heat flux."
 },
 "C110": {
  "note": "Violated in the default build: scratch arrays are accumulated with += and never reset between cells (C110_default_build_refuted: two identical consecutive cells get different viscosity). In the NSCOMPILE build it holds for every cell in which no species has mole fraction one (C110_nscompile_partial) and fails for a pure gas of a species other than the last, where uninitialised mole fractions are read (C110_nscompile_pure_refuted)."
 },
 "C76": {
  "note": "Proved for every index strictly inside the block (and for the indices performCutOperations computes). Refuted for 'any index': cutBlock checks only the upper bound, so index 0 or a negative index yields a part without cells. Lateral neighbours are resolved later by findInteriorNeighbor (geometric search), which is not modelled; the theorem states exactly which faces are left open."
 },
 "C77": {
  "note": "Termination, uniqueness, soundness and closure proved for all well-formed grids; exactness proved when the cut surface passes through each block in one way. Refuted otherwise: a block met a second time along another axis is skipped and blocks reachable only through it are missed."
 },
 "C78": {
  "note": "Proved for sectors at least two blocks thick and without other periodicity, with a unit axis: connectivity (C78_sector_connected) and geometry (C78_sector_turned, C78_sector_faces_meet). Refuted otherwise: one-block-thick sectors (C78_thin_refuted) and translationally periodic sectors (C78_translational_refuted) come out inconsistently connected, and a non-unit axis distorts the copies (C78_axis_refuted)."
 },
 "C79": {
  "note": "Refuted: stagnationSubsonicInlet is missing from the accepted list (C79_stagnation_refuted). Proved for every other boundary type (C79_boundary_types_partial)."
 },
 "C112": {
  "note": "Proved as an exact characterisation for grids without rotational periodicity (C112_verify_returns, C112_verify_true). The rotational part is refuted: verify() raises on every grid with a rotationally periodic connection, because grid faces have no array attribute (C112_rotational_refuted)."
 },
 "C82": {
  "note": "Matching, raising on disagreement, two-pass reading and the choice of boundary function are proved exactly. The guarantee that a face needing values has them after reading is refuted: a missing file checks nothing and a family without bcVals only prints a warning (C82_values_guaranteed_refuted)."
 },
 "C113": {
  "note": "Contents of the directory proved. That a run stopped by the NaN check leaves a good restart is refuted: on a step on which both are due the restart is written before the check, so with the default single restart file the bad state overwrites the good one (C113_good_restart_lost_refuted)."
 },
 "C115": {
  "note": "Ranges of p,u,v,w,T, species sum and the error proved. Species ranges are refuted: normalising after clipping moves mass fractions out of the source range (C115_species_range_refuted)."
 },
 "C117": {
  "note": "Proved when every connection joins faces normal to the same index axis (C117_hybrid_conserves). Refuted in general: the switch is stored per index direction and exchanged component by component, so where an i face meets a j face the two blocks weight the same face flux differently and mass is created (C117_rotated_interfaces_refuted)."
 },
 "C118": {
  "note": "Proved for the symmetric advective kernels, both diffusive kernels and pointwise property/subgrid models. The mixed-scale subgrid model, which looks at neighbouring cells, the MUSCL/HLLC and dissipation schemes and rotational periodicity are not covered."
 },
 "C119": {
  "note": "Proved for mechanisms with positive pre-exponential factors in states where the Troe expressions are defined. Refuted for negative pre-exponential factors (the text takes the logarithm of A: C119_negative_prefactor_refuted) and for a third-body reaction in which no species counts (the text keeps the previous reaction's third-body concentration: C119_blank_third_body_refuted)."
 },
 "C120": {
  "note": "Lines, points, tags and errors proved. Planes refuted: createPlane lays the points along unit vectors, so the plane has edges of length one whatever p1 and p2 are (C120_plane_refuted); proved when both edges have length one (C120_plane_partial)."
 },
 "C121": {
  "note": "Refuted as the utility stands: computeMetrics(2, xcOnly=True) does not match the signature, so any point inside any block raises TypeError (C121_lookup_refuted). Proved with that call repaired (C121_homes_partial), and for grids containing none of the points (C121_all_homeless)."
 },
 "C122": {
  "note": "Refuted at start-up: pgCoprocessor imports a misspelled module name, so switching tracing on stops the run (C122_trace_refuted); and on ranks whose block numbers are not below their local block count a due trace raises IndexError (C122_parallel_refuted). Set-up, titles and file contents of the coprocessor class itself are proved for serial numbering."
 },
 "C123": {
  "note": "Heights, growth and termination are proved (for a core of at least two points). Refuted: the default buffer layer ends above y+ = 33, not 30, since the rescaling multiplies by stop and divides by stop - start (C123_buffer_end_refuted); int(L/d) is used as a number of points, so core and horizontal spacings always exceed the requested ones (C123_core_resolution_refuted, C123_horizontal_resolution_refuted; the _partial theorem bounds the excess); the boundary-layer height is taken in metres though documented in delta (C123_bl_height_refuted); with a core of one point a channel stops short of its height (C123_short_channel_refuted)."
 },
 "C124": {
  "note": "Conductivity, diffusivity and positivity are proved for the NSCOMPILE build. Refuted: the viscosity is the geometric mean of the tabulated viscosity and sqrt T because the fitted square root is never squared (C124_viscosity_refuted, for every pure gas); in the default build scratch values carry over from the thread's previous cell (C124_default_build_refuted)."
 },
 "C125": {
  "note": "Conductivity proved for every pure fluid. The viscosity bracket applies the shape factor to its first term only: C125_viscosity_refuted gives the exact error and that it is non-zero whenever the factor is not 1; _partial theorems: equal when the factor is 1, error vanishing with density. Missing: positivity of the species values themselves from the state (assumed in C125_mixture, shown for a concrete gas)."
 },
 "C126": {
  "note": "Order, precedence, completeness and errors proved. Refuted in three corners: a blank field hides the library's value and becomes nan (C126_blank_refuted); a number YAML reads as text is accepted except for the first species (C126_first_text_refuted); with one species a lone number for NASA7 fills all fifteen coefficients (C126_scalar_nasa_refuted)."
 },
 "C128": {
  "note": "Proved for all other accepted combinations (C128_views_exist_partial). Refuted: dense-gas transport without the cubic equation of state reads critical data never created (C128_chung_refuted); chemistry with a calorically perfect gas reads NASA coefficients never created (C128_reacting_cpg_refuted); both pass validation, and species counts are not compared with the mechanism (C128_accepted_refuted)."
 },
 "C129": {
  "note": "C129_faces_partial: connectivity for every file; family and type for every label whose name does not begin or end with p, d, c or ':'. Missing because false: str.strip('pdc:') removes characters, not the prefix, so 'pdc:pinlet' becomes family 'inlet' (C129_stripped_label_refuted) and 'pdc:cold' is lost (C129_lost_label_refuted). Not modelled: file opening, comment lines, coordinate formats."
 },
 "C130": {
  "note": "C130_grid_partial: sides right for translational periodicity whose faces are exact translates, in any point order, when the span exceeds half the comparison tolerance; C130_sound: a side is given only if the centres match within tolerance. Refuted: below the tolerance both faces become Low, also for 1 m at 3e5 m from the origin (C130_small_span_refuted, C130_far_refuted); rotational periodicity always raises, grid faces having no rotation matrices (C130_rotational_refuted); every PERIODIC face gets the first periodic family (C130_two_families_refuted)."
 },
 "C131": {
  "note": "Under the reading of ICEM's listing spelt out in S_Icem.listed (in-face directions paired along each other, outward normals paired) and tokenised lines."
 },
 "C132": {
  "note": "C132_tags_partial: right for every face whose lines carry one label of a supported type. Refuted: of two labels on one face the last silently wins (C132_split_face_refuted); seven of the thirteen boundary types are rejected (C132_types_refuted)."
 },
 "C133": {
  "note": "Refuted outright: the periodic branch assigns bcType 'b1', which the setter rejects, so every grid with a periodic face raises (C133_periodic_refuted); the Multi-Block-Info reader counts domain files from 0 (C133_mbi_refuted)."
 },
 "C135": {
  "note": "Proved: the number of cuts is minimal and, when at least two cuts are needed, the axis with the shortest propagation is taken (C135_decision). Refuted: with a single cut all axes get cost 0 and the i axis is taken whatever the propagation (C135_fewest_blocks_refuted); a block with two points along any axis is always refused although another axis could be cut (C135_two_dimensional_refuted)."
 },
 "C137": {
  "note": "Proved for interior and translational joints, for one cut (C137_cut_once) and for any feasible list of operations (C137_operations). Refuted for rotational periodicity: a cut crossing such a joint raises, because the faces of a grid carry no rotation arrays (C137_rotational_refuted)."
 },
 "C140": {
  "note": "For states with oxygen (then the rates are defined, C138). Exact reals; the isfinite guard of the kernel is the identity on defined states."
 },
 "C141": {
  "note": "All reactions except the six whose forward or backward direction the kernel sets to zero (56, 57, 142, 178, 205 and 193)."
 },
 "C142": {
  "note": "C142_limits, C142_interior_only and C142_units prove the property for the wave speed the kernel really uses, which is the length of the componentwise product of velocity and unit normal plus the sound speed. With the true spectral radius |u.n|+c the bound holds within a factor sqrt 3 (C142_spectral_partial) and the factor one half itself is violated by a diagonal cell (C142_spectral_refuted)."
 },
 "C143": {
  "note": "Proved without viscosity except at exactly one speed. C143_one_speed_refuted: at speed c/10^5 exactly, the code returns c (strict comparisons on both sides). C143_viscous_units_refuted: with viscosity the code limits by width/nu, the inverse of a velocity, so the result depends on the units."
 },
 "C146": {
  "note": "Proved for 30 of the 31 species. C146_no_jump_refuted: for CH2CHO the function falls to less than a third of its value as the temperature passes 1000 K, and C146_equilibrium_refuted: the equilibrium constant of H + CH2CO = CH2CHO more than halves. C146_one_sign: reversing the sign of the T^3 coefficient of CH2CHO below 1000 K (chem_C2H4_Air_Red22.cpp:392) removes the jump, so this is a transcription error in the code."
 },
 "C147": {
  "note": "Collision parameters are proved right unless the second species of a pair is polar and the first is not. C147_order_refuted: then the dipole moment of the polar species is read from the matrix (kineticTheoryPoly.py:124) before it has been put there, so the polar correction is skipped: well depth too small, diameter too large, and the diffusivity depends on the order in which the species are listed. C147_heat_capacity_refuted: for a calorically perfect gas the heat capacity is cp0*T/(Ru*MW) instead of cp0*MW/Ru (kineticTheoryPoly.py:14-28), so C147_monatomic (Eucken's law) fails for it. C147_reproduced needs values that a quartic can represent; how close the fit is otherwise is not stated."
 },
 "C148": {
  "note": "Exact for blocks with straight parallel grid lines, however spaced (C148_straight). The test uses the convex hull of up to 26 nodes, so for curved blocks it fails both ways: C148_missed_refuted (a cell centre of the block is not found in the block), C148_false_refuted (a point far from every cell is found). C148_reversed_refuted: with an even number of nodes above four the node taken as the middle is not the same from both ends, so the answer depends on the direction of the index. Qhull's triangulation is taken to fill the convex hull; its refusal of flat point sets is not modelled."
 },
 "C149": {
  "note": "Proved for density, velocity, internal energy and (MUSCL-HLLC) mass fractions; the sound speed of a perfect gas stays positive (C149_sound_speed). Pressure and sound speed reuse the limiter of the energy. C149_pressure_refuted: perfect-gas states with positive pressures give a negative face pressure. C149_isothermal_refuted: with uniform energy the ratio is 0/0, the limiter comes out as 2 (fmin and fmax pass over NaN), so the left state gets the right cell's pressure, and a linear pressure comes out exchanged between the sides. C149_species_refuted: MUSCL-Rusanov reuses the density limiter for partial densities and makes negative ones."
 },
 "C150": {
  "note": "Exact for quartic pressure, for quartic density at constant velocity and for quartic composition. Not fourth order in general: the mass flux is the product of a density and a velocity interpolated separately, so when both vary its divergence carries the error h^2/12 (rho' u')' (C150_mass_error), and C150_fourth_order_refuted shows a smooth positive-density flow for which the order is exactly two."
 },
 "C151": {
  "note": "All parts proved except the last: C151_unknown_species_refuted shows that an entry under a name that is neither needed nor a species of the block (a misspelt species, say) changes nothing and raises nothing, so the mass fraction meant is silently 0."
 },
 "C152": {
  "note": "Proved for species names different from the field names; C152_name_clash_refuted shows that a species called \"T\" replaces the temperature array, which then appears nowhere in the data set. VTK itself is modelled by its documented add/remove-by-name behaviour."
 },
 "C153": {
  "note": "Proved for all species and mixtures, with these exceptions, each proved: C153_sulfur_hexafluoride_refuted (the molecular weight of SF6 is 146.980338, that of its formula 146.048), C153_sf6_cp_refuted (its cp0 differs from its own polynomial by over 4e-4), C153_critical_pressure_refuted (its pcrit, written 2.749e6, is text to PyYAML: an error if SF6 is the first species, a number otherwise), C153_two_temperatures_refuted (the fits jump at the break temperature, so two temperatures can have one energy; C153_energy_increases and C153_temperature_found bound the ambiguity by 13 and 20 mK)."
 },
 "C154": {
  "note": "Proved for the central schemes as stated. C154_rusanov_first_order shows that the property does not extend to the upwind scheme: for a gas at rest with varying density Rusanov's mass flux has an error of exactly first order."
 },
 "C155": {
  "note": "C155_step says that the step of the theorems is an explicit Euler step with the code's right-hand side. C155_central_overshoot shows that the five central schemes do not have the property for any step."
 },
 "C158": {
  "note": "Proved on evenly spaced boxes along the coordinate axes, for every stored cell gradient. C158_stretched_refuted: where the spacing changes from 1 to 3, and C158_oblique_refuted: on unit cubes turned about z (the damping distance of alphaDampingFlux.cpp:50-53 is not the distance along the normal there), heat flows from the colder to the hotter cell although the temperature rises monotonically."
 },
 "C160": {
  "note": "Holds as stated when every rank has a block (C160_serial, C160_parallel, C160_other_arrays_stop, C160_other_arrays_stop_parallel). The code violates it otherwise: a rank without blocks indexes mb[0] and stops the parallel output, whatever the others hold (C160_idle_rank_refuted, for all inputs). The wrong time of the serial XDMF file is C98_arbitrary_time_refuted."
 },
 "C161": {
  "note": "Proved for every name but q and g (C161_only_own_files, C161_others_safe and their parallel forms). The code violates it for the array q: its output replaces the restart of the same iteration, which then reads as zeros without an error (C161_q_refuted)."
 },
 "C162": {
  "note": "Proved for equal choices of lumping and halos (C162_same_choices, with C162_restart_keeps and C162_array_keeps for the histories). The code takes the lumping and halo of the results for those of the grid, so with other choices the geometry leads nowhere (C162_lump_differs_refuted, C162_halo_differs_refuted)."
 },
 "C163": {
  "note": "Proved: the run loop continues as it would have (C163_run_continues, for every notion of sameness respected by a step), and for the calorically perfect gas the file gives back every interior cell and the counters (C163_state_restored), so that the restarted run is the tail of the whole one if a step depends on interior cells, counters and configuration only (C163_restarted_run). For the thermally perfect gas the primitives come back (C163_tpg_primitives) and with them everything but the conserved energy (C163_tpg_state_restored), which comes back within Newton's tolerance of 1e-8 J/kg in the cells the solver leaves behind where its iteration converged (C163_tpg_settled) but not exactly (C163_tpg_refuted). The code violates it where boundary data depend on time: titme is 0 in a restarted solver, so the first right-hand side takes them at time zero (C163_inlet_time_refuted)."
 },
 "C165": {
  "note": "Proved for the scalar dissipation and every advective flux but muscl2hllc, on faces whose cells hold coherent states (C165_implied, C165_dissipation), and for the whole advective right-hand side with any shock capturing built from them (C165_rhs). muscl2hllc violates it: it limits each mass fraction by itself, and C165_muscl2hllc_refuted gives a mixture of three species in supersonic flow whose reconstructed fractions add to 7/8, so that the implied species gets a flux it would not have of its own."
 },
 "C164": {
  "note": "C164_rhs composes the fluxes with the metric and the flux differences for every shock handling; C164_steps lifts rates in proportion through every documented tableau, for a right-hand side that keeps the proportions (as C164_rhs shows for the interior cells)."
 }
}