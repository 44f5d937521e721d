{"id": "C01", "title": "Neighbour orientation is the inverse of the face orientation", "statement": "For every face whose orientation is a legal three-digit string, the neighbour orientation reported by the face is again a legal orientation, is the inverse signed axis permutation of the face's own, and asking the neighbour for its neighbour orientation gives back the original string.", "quantifier": "all legal orientation strings (signed permutations of the three axes)", "why_tests_cant": "a test samples a few orientations; the claim is that no legal one is mis-inverted or rejected", "anchors": ["src/peregrinepy/multiBlock/topologyFace.py:neighborOrientation"]}
{"id": "C02", "title": "Neighbour face number agrees with the geometry and is symmetric", "statement": "For every face number and every legal orientation, the neighbour face number is a legal face; it is the face of the neighbour whose outward direction is opposite to this face's outward direction expressed in the neighbour's axes; and looking back from that neighbour face gives the original face number.", "quantifier": "all six faces and all legal orientations", "why_tests_cant": "a wrong table entry is only visible for the face/orientation pair that uses it", "anchors": ["src/peregrinepy/multiBlock/topologyFace.py:neighborNface"]}
{"id": "C03", "title": "Illegal face numbers, boundary types and orientations are rejected", "statement": "Setting a face number outside 1..6 or an unknown boundary condition name raises, and a face object never holds such a value; an orientation that is not three digits naming a signed permutation is rejected.", "quantifier": "all values offered to the setters and all sequences of setter calls", "why_tests_cant": "the set of rejected inputs is unbounded", "anchors": ["src/peregrinepy/multiBlock/topologyFace.py", "src/peregrinepy/multiBlock/topologyBlock.py:getFace"]}
{"id": "C04", "title": "Block numbers stay unique when blocks are appended", "statement": "Starting from a freshly created multi-block object, after any number of appendBlock calls all block numbers are distinct and getBlock of each number returns the block carrying it.", "quantifier": "every initial block count and every number of appends", "why_tests_cant": "histories of appends are unbounded", "anchors": ["src/peregrinepy/multiBlock/topology.py:appendBlock", "src/peregrinepy/multiBlock/topology.py:getBlock"]}
{"id": "C05", "title": "getBlock finds every block a rank owns", "statement": "For every list of blocks a rank may own (in any order and with any numbers) getBlock(n) returns the block numbered n if present and an error otherwise.", "quantifier": "all block lists and all block numbers", "why_tests_cant": "depends on the whole domain decomposition, not on a single case", "anchors": ["src/peregrinepy/multiBlock/topology.py:getBlock"]}
{"id": "C06", "title": "Cell-centred halo exchange delivers the geometrically adjacent cell", "statement": "For any two face-connected blocks with matching face dimensions, any face, any orientation and any number of ghost layers, after communicate() every halo cell of a cell-centred array behind that face holds the value of the neighbour's interior cell that the orientation says is adjacent (layer g behind the face gets the g-th interior layer of the neighbour).", "quantifier": "all block sizes, ghost-layer counts, faces, orientations, array contents and halo cells", "why_tests_cant": "48 orientations times 6 faces times all sizes and layers; tests check a few coordinates", "anchors": ["src/peregrinepy/mpiComm/communicate.py", "src/peregrinepy/multiBlock/solverFace.py:_setCommBuffers", "src/peregrinepy/multiBlock/solverFace.py:_setOrientFunc"]}
{"id": "C07", "title": "Node halo exchange delivers the geometrically adjacent node", "statement": "Same as the cell-centred exchange for node arrays x,y,z, where the shared face plane of nodes is skipped: halo layer g holds the neighbour's node at distance g from the shared plane.", "quantifier": "all block sizes, ghost-layer counts, faces, orientations, array contents and halo nodes", "why_tests_cant": "off-by-one in the node offset only shows for particular face/layer/orientation combinations", "anchors": ["src/peregrinepy/mpiComm/communicate.py", "src/peregrinepy/multiBlock/solverFace.py:_setCommBuffers"]}
{"id": "C08", "title": "First-halo-only exchange fills exactly the first halo layer", "statement": "For the variables exchanged only in the first halo (dqdx, dqdy, dqdz, phi) the single layer sent is the neighbour's first interior layer and the single layer written is the halo layer touching the face, for every face, orientation and number of ghost layers.", "quantifier": "all faces, orientations, sizes, ghost-layer counts", "why_tests_cant": "the selected index differs per face side and per list reversal", "anchors": ["src/peregrinepy/multiBlock/solverFace.py:_setCommBuffers"]}
{"id": "C09", "title": "Halo exchange never touches interior data", "statement": "An exchange writes only halo layers of faces that have a neighbour; all interior cells/nodes and the halos of boundary faces keep their values.", "quantifier": "all blocks, faces, orientations and contents", "why_tests_cant": "absence of a write cannot be sampled", "anchors": ["src/compute/utils/sendRecvBuffer.cpp", "src/peregrinepy/mpiComm/communicate.py"]}
{"id": "C10", "title": "Sent and received buffers have the same shape", "statement": "For every pair of connected faces with matching dimensions, the oriented send buffer has exactly the shape of the partner's receive buffer.", "quantifier": "all sizes, faces, orientations, ghost-layer counts and component counts", "why_tests_cant": "a mismatch corrupts or hangs MPI only for some orientation", "anchors": ["src/peregrinepy/multiBlock/solverFace.py:_setCommBuffers"]}
{"id": "C11", "title": "Message tags match the two ends of a connection and never collide", "statement": "The tag a face sends with equals the tag its partner face receives with, and two different faces of a rank never post receives with equal tags.", "quantifier": "all block numberings and connectivities that are symmetric", "why_tests_cant": "collisions depend on the global numbering", "anchors": ["src/peregrinepy/multiBlock/solverFace.py:_setCommBuffers"]}
{"id": "C12", "title": "communicate() cannot deadlock", "statement": "For every symmetric connectivity, every distribution of blocks over ranks, every list of variables and every MPI scheduling, including fully synchronous sends, every rank completes communicate().", "quantifier": "all topologies, distributions, variable lists and interleavings", "why_tests_cant": "deadlocks depend on the schedule and on message-buffering behaviour", "anchors": ["src/peregrinepy/mpiComm/communicate.py"]}
{"id": "C13", "title": "The result of communicate() does not depend on the schedule", "statement": "Under every interleaving and message delay, each receive gets the message of its partner face for the same variable, so the data placed is the same in every execution.", "quantifier": "all interleavings, topologies and distributions", "why_tests_cant": "races do not reproduce in tests", "anchors": ["src/peregrinepy/mpiComm/communicate.py"]}
{"id": "C14", "title": "Cube connectivity is symmetric and geometric", "statement": "For every number of blocks in each direction and every choice of periodic directions, block (i,j,k)'s neighbours set by multiBlockCube are exactly the adjacent blocks (wrapping only in periodic directions), the relation is symmetric face to opposite face, and boundary faces have no neighbour.", "quantifier": "all block-count triples and periodic flags", "why_tests_cant": "tests use a handful of decompositions", "anchors": ["src/peregrinepy/grid/create.py:cubicConnectivity", "src/peregrinepy/grid/create.py:multiBlockCube"]}
{"id": "C15", "title": "Adjacent cube blocks share identical face nodes", "statement": "For every decomposition, the nodes of the last plane of a block coincide with those of the first plane of its neighbour, and the blocks together tile the requested box.", "quantifier": "all decompositions, sizes, origins and lengths", "why_tests_cant": "floating literals in tests hide systematic gaps", "anchors": ["src/peregrinepy/grid/create.py:cube", "src/peregrinepy/grid/create.py:multiBlockCube"]}
{"id": "C16", "title": "Periodic span of a periodic cube is the domain length", "statement": "When multiBlockCube is asked for a periodic direction, the translation attached to the periodic faces is the full length of the domain in that direction, so that low-face nodes shifted by it coincide with the high-face nodes.", "quantifier": "all block counts and lengths", "why_tests_cant": "single-block tests cannot distinguish block length from domain length", "anchors": ["src/peregrinepy/grid/create.py:multiBlockCube"]}
{"id": "C17", "title": "multiBlockAnnulus accepts every decomposition", "statement": "For every number of blocks along the axis, radius and angle, multiBlockAnnulus builds the annulus without raising.", "quantifier": "all block-count triples", "why_tests_cant": "the failing branch needs more than one axial block", "anchors": ["src/peregrinepy/grid/create.py:annulus", "src/peregrinepy/grid/create.py:multiBlockAnnulus"]}
{"id": "C18", "title": "Halo generation extrapolates and leaves the block interior alone", "statement": "generateHalo never changes interior nodes; the face halo nodes are reflections of interior nodes about the face plane, so that on a uniformly spaced grid the halo continues the grid uniformly.", "quantifier": "all block sizes, ghost counts and coordinates", "why_tests_cant": "every size and mask combination cannot be enumerated", "anchors": ["src/peregrinepy/grid/generateHalo.py"]}
{"id": "C19", "title": "Cell faces close", "statement": "For every hexahedral cell, however distorted, the six outward face-area vectors computed by the metrics sum to zero.", "quantifier": "all node coordinates of all cells of all blocks", "why_tests_cant": "an algebraic identity over the reals", "anchors": ["src/peregrinepy/grid/metrics.py:metrics"]}
{"id": "C20", "title": "Volumes and transformation metrics are exact on affine cells", "statement": "For every parallelepiped cell the computed cell volume equals the determinant of its edge vectors (clipped from below at 1e-16), and the metric terms are the exact inverse Jacobian; the volumes of the cells of a box add up to a boundary expression.", "quantifier": "all edge vectors with positive volume (above the clip)", "why_tests_cant": "continuous input space", "anchors": ["src/peregrinepy/grid/metrics.py:metrics"]}
{"id": "C21", "title": "Face normals are unit vectors and areas non-negative", "statement": "Every face area is at least the clip value and every face with area above the clip has a unit normal equal to its area vector divided by its area.", "quantifier": "all node coordinates", "why_tests_cant": "continuous input space", "anchors": ["src/peregrinepy/grid/metrics.py:metrics"]}
{"id": "C22", "title": "Gradients are exact for linear fields", "statement": "On affine grids the second- and fourth-order gradient operators return exactly the gradient of every field linear in x,y,z whenever the cells have at least the clip volume 1e-16; in smaller cells they return exactly that gradient times the cell volume over 1e-16 (one hundredth of it on cubes of one micrometre).", "quantifier": "all affine grids, all linear fields, all cells", "why_tests_cant": "continuous input space", "anchors": ["src/compute/utils/dq2FD.cpp", "src/compute/utils/dq4FD.cpp", "src/peregrinepy/grid/metrics.py:metrics"]}
{"id": "C23", "title": "Discrete conservation", "statement": "For every block size, every set of face fluxes and every conserved component, the volume-weighted sum of the right-hand side over the interior equals the net flux through the block's outer faces; interior faces cancel exactly. It holds for the plain, the hybrid and the dissipative application.", "quantifier": "all block sizes, all flux and switch fields, all components", "why_tests_cant": "sums over unbounded index sets", "anchors": ["src/compute/utils/applyFluxes.cpp"]}
{"id": "C24", "title": "Conservation across block interfaces", "statement": "Fluxes through an interface shared by two blocks cancel in the total when the two blocks compute the same face flux up to orientation.", "quantifier": "all sizes and fluxes", "why_tests_cant": "as above", "anchors": ["src/compute/utils/applyFluxes.cpp"]}
{"id": "C25", "title": "Hybrid switching blends with complementary weights", "statement": "With hybrid shock handling the primary and secondary fluxes of a face enter both adjacent cells with weights 1-phi and phi for the same face switch phi, so a face switch in [0,1] gives a convex combination; phi=0 is purely primary and phi=1 purely secondary.", "quantifier": "all switch fields and fluxes", "why_tests_cant": "continuous input space and both sides of each face", "anchors": ["src/compute/utils/applyFluxes.cpp:applyHybridFlux", "src/peregrinepy/RHS.py"]}
{"id": "C26", "title": "Free-stream preservation", "statement": "On every closed grid, a uniform flow gives a zero right-hand side for every advective scheme and for the viscous fluxes.", "quantifier": "all grids, all uniform states, all schemes", "why_tests_cant": "needs every distorted grid", "anchors": ["src/compute/advFlux", "src/compute/diffFlux/alphaDampingFlux.cpp", "src/compute/utils/applyFluxes.cpp"]}
{"id": "C27", "title": "Flux consistency", "statement": "Every advective scheme reduces to the exact Euler flux when the states on its stencil are equal.", "quantifier": "all states, all face vectors", "why_tests_cant": "continuous input space", "anchors": ["src/compute/advFlux"]}
{"id": "C28", "title": "Central schemes are symmetric", "statement": "Swapping the left and right states and reversing the face vector negates the flux of KEEP, KEEPpe, KEPaEC and central schemes, so that two blocks looking at a face from opposite sides compute the same transfer.", "quantifier": "all states and face vectors", "why_tests_cant": "continuous input space", "anchors": ["src/compute/advFlux/KEEP.cpp", "src/compute/advFlux/KEEPpe.cpp", "src/compute/advFlux/KEPaEC.cpp", "src/compute/advFlux/centralDifference.cpp"]}
{"id": "C29", "title": "KEEP preserves kinetic energy", "statement": "The KEEP momentum flux is the mass flux times the arithmetic mean velocity plus the mean pressure force, so the convective terms create no kinetic energy: the discrete kinetic-energy balance of every cell telescopes.", "quantifier": "all states, all block sizes", "why_tests_cant": "an identity for every state pair", "anchors": ["src/compute/advFlux/KEEP.cpp"]}
{"id": "C30", "title": "HLLC picks the upwind flux in supersonic flow and resolves contacts", "statement": "The HLLC flux equals the left flux when all waves run right, the right flux when all waves run left, and a stationary isolated contact gives only the pressure flux.", "quantifier": "all states", "why_tests_cant": "continuous input space with branches", "anchors": ["src/compute/advFlux/hllc.cpp"]}
{"id": "C31", "title": "Rusanov dissipation bounds both wave speeds", "statement": "The dissipation speed of the Rusanov flux is at least |U|+c of each of the two states.", "quantifier": "all pairs of states", "why_tests_cant": "continuous input space", "anchors": ["src/compute/advFlux/rusanov.cpp"]}
{"id": "C32", "title": "Scalar dissipation acts along its own direction in each index direction", "statement": "The artificial dissipation added on a face depends only on the four cells across that face and vanishes when they are equal.", "quantifier": "all fields and the three index directions", "why_tests_cant": "the i-direction hides index mistakes", "anchors": ["src/compute/advFlux/scalarDissipation.cpp"]}
{"id": "C33", "title": "Shock switches stay in [0,1]", "statement": "For positive pressure every shock switch value lies between 0 and 1 and is 0 for linear (Jameson) resp. constant fields.", "quantifier": "all positive pressure fields", "why_tests_cant": "continuous input space", "anchors": ["src/compute/switches/jameson.cpp", "src/compute/switches/vanAlbada.cpp", "src/compute/switches/vanLeer.cpp"]}
{"id": "C34", "title": "Time step respects both limits", "statement": "With variable time stepping the step never exceeds the configured maximum step and the resulting CFL number never exceeds the configured maximum; on every rank the same step is used.", "quantifier": "all states, limits and ranks", "why_tests_cant": "depends on a global reduction over all cells", "anchors": ["src/peregrinepy/mpiComm/mpiUtils.py:getDtMaxCFL", "src/compute/utils/cfl.cpp"]}
{"id": "C35", "title": "The reported CFL is the maximum over all interior cells", "statement": "CFLmax returns an upper bound for every interior cell's spectral radius, attained by some cell.", "quantifier": "all block sizes and fields", "why_tests_cant": "a maximum over an unbounded index set", "anchors": ["src/compute/utils/cfl.cpp"]}
{"id": "C36", "title": "The viscous sponge multiplier stays between 1 and the configured multiplier", "statement": "Everywhere in the domain the viscosity is multiplied by a factor between 1 (before the sponge) and the configured multiplier (at and beyond its end).", "quantifier": "all points, origins, ends and multipliers", "why_tests_cant": "needs points beyond the sponge end", "anchors": ["src/compute/utils/viscousSponge.cpp"]}
{"id": "C37", "title": "Calorically perfect gas: primitive and conserved updates are inverse", "statement": "For every physical state and any number of species, computing conserved from primitive and then primitive from conserved variables returns the original state, and conversely.", "quantifier": "all species counts, all physical states", "why_tests_cant": "continuous, unbounded dimension", "anchors": ["src/compute/thermo/cpg.cpp"]}
{"id": "C38", "title": "Mass fractions are clipped to a valid composition", "statement": "After the equation of state runs on conserved variables, every mass fraction is in [0,1], they sum to at most one, and the implied last species is in [0,1].", "quantifier": "all inputs, all species counts", "why_tests_cant": "unbounded inputs", "anchors": ["src/compute/thermo/cpg.cpp", "src/compute/thermo/tpg.cpp"]}
{"id": "C39", "title": "Primitive update keeps q and Q consistent", "statement": "After the equation of state runs on primitives, the stored mass fractions equal the stored partial densities divided by the stored density.", "quantifier": "all inputs", "why_tests_cant": "only fails for over-full compositions", "anchors": ["src/compute/thermo/cpg.cpp", "src/compute/thermo/tpg.cpp"]}
{"id": "C40", "title": "Thermally perfect gas temperature inversion", "statement": "The temperature iteration is Newton's method on the internal energy with the exact derivative. It ends with the energy residual of its last evaluation at or below the tolerance or after 100 evaluations; the stored temperature is one further Newton step and reproduces the energy to the tolerance as well whenever cv is positive and varies by less than a factor of two over that step.", "quantifier": "all energies, compositions and iterates", "why_tests_cant": "convergence behaviour over a continuous space", "anchors": ["src/compute/thermo/tpg.cpp"]}
{"id": "C41", "title": "Cubic equation of state returns a root of its cubic", "statement": "The compressibility factor chosen satisfies the cubic polynomial exactly in both discriminant branches, and in the three-root branch it is the largest root.", "quantifier": "all coefficient values", "why_tests_cant": "continuous input space with trigonometric branches", "anchors": ["src/compute/thermo/cubic.cpp"]}
{"id": "C42", "title": "Explicit integrators realise their Butcher tableau", "statement": "For every right-hand side, rk1, rk2, rk3, rk34, rk4 and maccormack advance the state exactly as the Runge-Kutta method with the documented tableau.", "quantifier": "all right-hand-side functions, states and steps", "why_tests_cant": "quantifies over functions", "anchors": ["src/peregrinepy/integrators", "src/compute/timeIntegration"]}
{"id": "C43", "title": "Order of accuracy", "statement": "On every linear autonomous system and every polynomial-in-time source of the appropriate degree each explicit integrator matches the exact solution's Taylor expansion to its advertised order.", "quantifier": "all linear operators, sources and steps", "why_tests_cant": "quantifies over functions", "anchors": ["src/peregrinepy/integrators", "src/compute/timeIntegration"]}
{"id": "C44", "title": "Step bookkeeping", "statement": "After N steps with any integrator and any step sizes, the iteration counter has increased by N, the time by the sum of the step sizes, every block agrees with the solver object, and the in-step time equals the time.", "quantifier": "all integrators, histories of step sizes and N", "why_tests_cant": "unbounded histories", "anchors": ["src/peregrinepy/integrators", "src/peregrinepy/multiBlock/restart.py", "src/peregrinepy/multiBlock/solver.py"]}
{"id": "C45", "title": "Equilibria and linear invariants are preserved", "statement": "If the right-hand side vanishes at a state every explicit integrator leaves it unchanged for every step; if a linear functional vanishes on the right-hand side everywhere, every integrator conserves it.", "quantifier": "all right-hand sides, states, step counts", "why_tests_cant": "quantifies over functions and histories", "anchors": ["src/peregrinepy/integrators", "src/compute/timeIntegration"]}
{"id": "C46", "title": "Strang splitting time levels", "statement": "During and after a Strang step the in-step time handed to boundary conditions equals the simulation time.", "quantifier": "all steps", "why_tests_cant": "tests do not look at the stored in-step time", "anchors": ["src/peregrinepy/integrators/strang.py"]}
{"id": "C47", "title": "Dual-time stepping keeps two consistent time levels", "statement": "After every dual-time step the stored older levels are the states one and two steps back, and the pseudo-time residual vanishes exactly when the second-order backward difference equals the spatial right-hand side.", "quantifier": "all histories of steps and all states", "why_tests_cant": "unbounded histories", "anchors": ["src/peregrinepy/integrators/dualTime.py", "src/compute/timeIntegration/dualTime.cpp"]}
{"id": "C48", "title": "The implicit dual-time update solves its linear system", "statement": "Whenever no zero pivot is met, the in-place LU with pivoting returns the unique solution of the cell's linear system, for every number of equations.", "quantifier": "all matrices and right-hand sides, all sizes", "why_tests_cant": "all matrices of all sizes", "anchors": ["src/compute/timeIntegration/dualTime.cpp:invertDQ"]}
{"id": "C49", "title": "Index ranges select exactly what they name", "statement": "For every block size and ghost count, the total range is every cell, the interior range is exactly the non-halo cells, the six face ranges are exactly the halo cells behind each face, and unknown selectors raise.", "quantifier": "all sizes, ghost counts and selectors", "why_tests_cant": "boundary off-by-ones per face", "anchors": ["src/compute/rangeMap.cpp:getRange3"]}
{"id": "C50", "title": "Boundary conditions fill all halo layers", "statement": "With one or two ghost layers (all the configurations the code can select) every boundary condition fills each halo layer of its face from the boundary data and the interior cells in line with it, reads only cells that exist, and writes nothing else.", "quantifier": "all ghost counts, sizes and faces", "why_tests_cant": "layer indices accumulate across the loop", "anchors": ["src/compute/boundaryConditions", "src/compute/rangeMap.cpp:getFaceSliceIdxs"]}
{"id": "C51", "title": "Walls are impermeable", "statement": "For every wall type the face-averaged normal velocity after the inviscid wall condition is zero, speed and pressure are unchanged by the reflection; after the viscous condition no-slip walls have zero face velocity and moving walls the prescribed one.", "quantifier": "all states, all unit normals", "why_tests_cant": "continuous input space", "anchors": ["src/compute/boundaryConditions/walls.cpp"]}
{"id": "C52", "title": "Isothermal walls hold the wall temperature", "statement": "The temperature imposed by an isothermal wall makes the face value equal to the prescribed wall temperature.", "quantifier": "all states", "why_tests_cant": "continuous input space", "anchors": ["src/compute/boundaryConditions/walls.cpp"]}
{"id": "C53", "title": "Mass-flux inlet delivers the prescribed mass flux", "statement": "At a constant mass-flux inlet the face mass flux computed from face-averaged density and velocity equals the prescribed value in every component.", "quantifier": "all states with positive density", "why_tests_cant": "continuous input space", "anchors": ["src/compute/boundaryConditions/inlets.cpp", "src/peregrinepy/bcs/prepInlets.py"]}
{"id": "C54", "title": "Supersonic exit produces admissible halo states", "statement": "At a supersonic exit halo pressure is between 0 and the interior value, temperature is non-negative and mass fractions are in [0,1].", "quantifier": "all interior states", "why_tests_cant": "continuous input space", "anchors": ["src/compute/boundaryConditions/exits.cpp"]}
{"id": "C55", "title": "Periodic rotation matrices are rotations", "statement": "The two rotation matrices of a rotational periodic face are orthogonal, inverse to each other and fix the axis, for every axis and angle the user may set.", "quantifier": "all axes and angles", "why_tests_cant": "needs non-unit axes", "anchors": ["src/peregrinepy/multiBlock/gridFace.py:periodicAxis"]}
{"id": "C56", "title": "Stagnation inlet uses the normal of its own face", "statement": "The stagnation inlet computes the inflow direction from the normals of the face it is applied to.", "quantifier": "all six faces", "why_tests_cant": "tests use i-faces", "anchors": ["src/compute/boundaryConditions/inlets.cpp"]}
{"id": "C57", "title": "Cubic-spline inlet is periodic and selects a valid interval", "statement": "For every time the interval index used by the cubic-spline inlet is a valid interval, the local time lies in [0, dt), and the signal repeats with period N*dt.", "quantifier": "all times, interval counts and interval lengths", "why_tests_cant": "unbounded time", "anchors": ["src/compute/boundaryConditions/inlets.cpp"]}
{"id": "C58", "title": "Frozen dictionaries reject unknown keys", "statement": "After freezing, setting or getting an unknown key raises, known keys can be read and written, and the key set never changes, for every sequence of operations.", "quantifier": "all operation sequences", "why_tests_cant": "unbounded histories", "anchors": ["src/peregrinepy/misc/frozenDict.py"]}
{"id": "C59", "title": "Config validation accepts exactly the consistent configurations", "statement": "A configuration passes validation iff it satisfies the documented consistency rules.", "quantifier": "all configurations", "why_tests_cant": "product of all options", "anchors": ["src/peregrinepy/files/configFile.py:validateConfig"]}
{"id": "C60", "title": "Enough ghost layers for every stencil", "statement": "For every accepted scheme combination the number of ghost layers is at least what every selected stencil reads, and at most two.", "quantifier": "all scheme combinations", "why_tests_cant": "product of all options", "anchors": ["src/peregrinepy/multiBlock/__init__.py:howManyNG"]}
{"id": "C61", "title": "Every listed advective scheme can be selected", "statement": "Every advective flux exported by the compute library can be selected as primary flux without an internal error.", "quantifier": "all scheme names", "why_tests_cant": "requires the cross product of names and tables", "anchors": ["src/peregrinepy/multiBlock/__init__.py:howManyNG", "src/compute/advFlux/bindingsAdvFlux.cpp"]}
{"id": "C62", "title": "blocksForProcs parsing", "statement": "Reading back a blocksForProcs file written by the load balancer returns the same groups, comment and blank lines are ignored.", "quantifier": "all group lists", "why_tests_cant": "unbounded inputs", "anchors": ["src/peregrinepy/readers/readBlocksForProcs.py", "utilities/loadBalancer.py"]}
{"id": "C63", "title": "A block distribution accepted at start-up is a partition", "statement": "If bootstrapCase accepts a blocksForProcs list then every block of the case is assigned to exactly one rank.", "quantifier": "all lists of lists", "why_tests_cant": "the space of decompositions", "anchors": ["src/peregrinepy/bootstrapCase.py"]}
{"id": "C64", "title": "Load balancer output is a partition", "statement": "Whenever the load balancer's own check passes the groups partition the blocks; in the minimum-processor mode no processor is loaded beyond the largest block.", "quantifier": "all block lists and sizes", "why_tests_cant": "unbounded inputs", "anchors": ["utilities/loadBalancer.py"]}
{"id": "C65", "title": "Connectivity files round-trip", "statement": "Writing the connectivity of any multi-block and reading it back yields the same neighbour, orientation, boundary type and family for every face.", "quantifier": "all multi-blocks", "why_tests_cant": "unbounded", "anchors": ["src/peregrinepy/writers/writeConnectivity.py", "src/peregrinepy/readers/readConnectivity.py"]}
{"id": "C66", "title": "Grid and restart files round-trip", "statement": "Flattening an array for output and reshaping it on input is the identity for every shape and ghost count; interior data survive a write/read cycle.", "quantifier": "all shapes and contents", "why_tests_cant": "unbounded", "anchors": ["src/peregrinepy/writers/writeGrid.py", "src/peregrinepy/readers/readGrid.py", "src/peregrinepy/writers/writeRestart.py", "src/peregrinepy/readers/readRestart.py"]}
{"id": "C67", "title": "Restart read fills halos from the nearest interior cell", "statement": "After reading a restart into a solver block every halo cell equals the nearest interior cell.", "quantifier": "all shapes and contents", "why_tests_cant": "unbounded", "anchors": ["src/peregrinepy/readers/readRestart.py"]}
{"id": "C68", "title": "Species-sum check reports honestly", "statement": "checkSpeciesSum reports a problem exactly when some cell's mass fractions sum above one, and normalising leaves all sums at most one without touching valid cells.", "quantifier": "all fields", "why_tests_cant": "unbounded", "anchors": ["src/peregrinepy/multiBlock/restart.py", "src/peregrinepy/multiBlock/restartBlock.py"]}
{"id": "C69", "title": "Chemistry conserves mass and elements", "statement": "For every mechanism and every set of reaction rates the species production rates sum to zero in mass, and each element is conserved, whenever molecular weights are sums of atomic weights.", "quantifier": "all rate vectors, all mechanisms", "why_tests_cant": "quantifies over all thermochemical states", "anchors": ["src/compute/chemistry", "utilities/ct2pgChem.py"]}
{"id": "C70", "title": "Chemistry temperature source conserves energy", "statement": "The temperature source used in chemical sub-stepping balances the enthalpy released by the species sources.", "quantifier": "all states", "why_tests_cant": "continuous input space", "anchors": ["src/compute/chemistry"]}
{"id": "C71", "title": "Diffusive species fluxes sum to zero", "statement": "The corrected diffusive mass fluxes of all species, including the implied last one, sum to zero for every number of species.", "quantifier": "all species counts and gradients", "why_tests_cant": "unbounded dimension", "anchors": ["src/compute/diffFlux/alphaDampingFlux.cpp", "src/compute/diffFlux/diffusiveFlux.cpp"]}
{"id": "C72", "title": "Viscous work is consistent with the viscous momentum flux", "statement": "The energy flux of the viscous terms equals face velocity dotted with the viscous momentum flux plus heat and species enthalpy flux.", "quantifier": "all states and gradients", "why_tests_cant": "sign errors need a shear flow with heating", "anchors": ["src/compute/diffFlux/alphaDampingFlux.cpp"]}
{"id": "C73", "title": "Binary diffusion table indexing is a bijection", "statement": "The packed triangular index used for binary diffusion coefficients maps each unordered species pair to a distinct slot inside the table.", "quantifier": "all species counts and pairs", "why_tests_cant": "unbounded species count", "anchors": ["src/compute/transport/kineticTheory.cpp", "src/peregrinepy/thermoTransport/kineticTheoryPoly.py"]}
{"id": "C74", "title": "Mixture transport properties are positive and reduce to pure values", "statement": "For positive species properties and any composition the mixture viscosity and conductivity are positive, and for a pure gas equal that species' value.", "quantifier": "all species counts and compositions", "why_tests_cant": "unbounded", "anchors": ["src/compute/transport/constantProps.cpp"]}
{"id": "C75", "title": "Subgrid viscosity only adds dissipation", "statement": "The subgrid models never reduce viscosity or conductivity and add nothing in uniform flow.", "quantifier": "all states", "why_tests_cant": "continuous", "anchors": ["src/compute/subgrid"]}
{"id": "C76", "title": "Cutting a block preserves its cells and nodes", "statement": "After cutting a block at any index the two parts together hold exactly the original cells, share one node plane, are connected to each other, and the outer neighbour points to the new part.", "quantifier": "all blocks, axes and indices", "why_tests_cant": "unbounded", "anchors": ["utilities/cutGrid.py:cutBlock"]}
{"id": "C77", "title": "Cut propagation reaches every connected block exactly once", "statement": "cutPath terminates and returns each block reachable across the cut plane once, with the axis and direction transported by the orientations.", "quantifier": "all connectivities", "why_tests_cant": "graph traversal over arbitrary topologies", "anchors": ["utilities/cutGrid.py:cutPath"]}
{"id": "C78", "title": "Rotated sector grids are consistently connected", "statement": "copyRotateSectorGrid produces symmetric connectivity for every sector grid and number of segments.", "quantifier": "all sector grids and segment counts", "why_tests_cant": "unbounded", "anchors": ["utilities/copyRotateSectorGrid.py"]}
{"id": "C79", "title": "Grid verification accepts all legal boundary types", "statement": "verify() does not reject a grid merely because a boundary face uses one of the boundary types the solver supports.", "quantifier": "all boundary types", "why_tests_cant": "one missing name", "anchors": ["utilities/verifyGrid.py:verify", "src/peregrinepy/multiBlock/topologyFace.py"]}
{"id": "C80", "title": "Run loop performs the configured number of steps and writes at the configured cadence", "statement": "simulate() takes exactly niter steps unless a NaN is detected, and writes a restart after exactly those steps whose iteration number is a multiple of the interval.", "quantifier": "all iteration counts, intervals and NaN histories", "why_tests_cant": "unbounded histories", "anchors": ["runPeregrine.py:simulate"]}
{"id": "C81", "title": "Interpolation creates no new extrema", "statement": "Interpolating from one grid to another never produces values outside the range of the source data.", "quantifier": "all source and target data and all interpolants", "why_tests_cant": "quantifies over interpolants", "anchors": ["src/peregrinepy/interpolation/blocksToBlock.py"]}
{"id": "C82", "title": "Boundary-condition files are matched to faces by family and type", "statement": "Reading a boundary-condition file attaches to each face the entry of its family and raises when the type disagrees.", "quantifier": "all files and multi-blocks", "why_tests_cant": "unbounded", "anchors": ["src/peregrinepy/readers/readBcs.py"]}
{"id": "C83", "title": "Upwind schemes do not care which side is called left", "statement": "Counting the cells of a face from the other side and reversing the face vector negates the flux of the Rusanov, MUSCL-Rusanov, AUSM+-up and HLLC schemes, so two blocks looking at a shared face compute the same transfer.", "quantifier": "all pairs of states, all face vectors", "why_tests_cant": "depends on signs, branch choices and limiters over all states", "anchors": ["src/compute/advFlux/rusanov.cpp", "src/compute/advFlux/ausmPlusUp.cpp", "src/compute/advFlux/hllc.cpp", "src/compute/advFlux/muscl2rusanov.cpp"]}
{"id": "C84", "title": "Global conservation, end to end", "statement": "After one halo exchange, the volume-weighted sum over all cells of all blocks of all ranks of the advective right-hand side equals minus the flux through the unconnected block faces, for every symmetric scheme.", "quantifier": "all conforming multi-block grids with shared face nodes and equal handedness, all partitions over ranks, all states", "why_tests_cant": "needs every connection, orientation and stencil at once", "anchors": ["src/peregrinepy/mpiComm/blockComm.py:communicate", "src/compute/utils/applyFluxes.cpp", "src/peregrinepy/RHS.py:RHS", "src/peregrinepy/grid/metrics.py"]}
{"id": "C85", "title": "A NaN or infinity anywhere stops every rank", "statement": "The value the NaN check returns is positive on every rank exactly when some interior entry of the conserved variables of some block of some rank is NaN or infinite.", "quantifier": "all states, all partitions over ranks, all reduction orders", "why_tests_cant": "quantifies over all reduction schedules and data distributions", "anchors": ["src/compute/utils/checkNan.cpp:checkNan", "src/peregrinepy/mpiComm/mpiUtils.py:checkForNan"]}
{"id": "C86", "title": "Cell count and load efficiency", "statement": "The reported number of cells does not depend on the distribution of blocks over ranks; the load efficiency lies in (0,100] percent, is 100 only when all ranks hold equally many cells, and the processor named is one with the largest load.", "quantifier": "all block sizes and distributions over any number of ranks", "why_tests_cant": "all distributions and rank counts", "anchors": ["src/peregrinepy/mpiComm/mpiUtils.py:getNumCells", "src/peregrinepy/mpiComm/mpiUtils.py:getLoadEfficiency"]}
{"id": "C87", "title": "The stored thermodynamic state obeys its equation of state", "statement": "After the primitive branch of the calorically perfect or real gas the stored pressure, density, temperature and composition satisfy the equation of state (ideal gas law; Peng-Robinson law with van der Waals mixing on the physical side v > b), momentum, energy and partial densities are coherent with the primitives, and the density is positive; for the calorically perfect gas gamma > 1 and the conserved branch returns positive pressure and temperature for every state with positive internal energy.", "quantifier": "all positive gas data, numbers of species, compositions, pressures and temperatures", "why_tests_cant": "continuous space of states and gas data", "anchors": ["src/compute/thermo/cpg.cpp", "src/compute/thermo/cubic.cpp"]}
{"id": "C88", "title": "Thermally perfect and real gas: primitive to conserved and back is the identity", "statement": "For the thermally perfect gas and for the real gas (whenever its compressibility factor is defined) running the primitive branch and then the conserved branch returns the original primitives, conserved variables and derived quantities, for every temperature from 1 K.", "quantifier": "all gas data, compositions, velocities, pressures and temperatures >= 1", "why_tests_cant": "continuous space of states; involves an iteration and a cubic root", "anchors": ["src/compute/thermo/tpg.cpp", "src/compute/thermo/cubic.cpp"]}
{"id": "C89", "title": "Strong stability carries over to whole runs", "statement": "Any convex set of states that every forward Euler step up to h0 keeps invariant (positivity, bounds, norms) is kept by every run of rk1, rk2, maccormack and rk3 with steps up to h0 and of rk34 with steps up to 2 h0.", "quantifier": "all right-hand sides, convex sets, histories of step sizes", "why_tests_cant": "quantifies over functions, sets and unbounded histories", "anchors": ["src/peregrinepy/integrators", "src/compute/timeIntegration"]}
{"id": "C90", "title": "Boundary data belong to the stage they are used in", "statement": "Every right-hand side evaluated during a step uses boundary data of its own stage time.", "quantifier": "all integrators, step sizes and consecutive steps", "why_tests_cant": "quantifies over histories; needs observation of internal times", "anchors": ["src/peregrinepy/integrators", "src/peregrinepy/consistify.py", "src/peregrinepy/RHS.py"]}
{"id": "C91", "title": "The implicit matrix is the exact Jacobian and is always solvable", "statement": "For every cell holding an ideal-gas state the physical-time matrix assembled by the dual-time integrator is the derivative of the conserved variables with respect to the primitive ones, the full preconditioned matrix is nonsingular for every positive reference velocity and step ratio, and the kernel returns the unique solution.", "quantifier": "all ideal-gas mixtures (calorically or thermally perfect), states, step sizes, directions, numbers of species", "why_tests_cant": "continuous space of states and directional derivatives", "anchors": ["src/compute/timeIntegration/dualTime.cpp:invertDQ"]}
{"id": "C92", "title": "Dual-time start-up", "statement": "The first dual-time step from an initial condition is consistent: converging the pseudo-time iteration on du/dt = c advances the state by c dt.", "quantifier": "all states, step sizes, constant right-hand sides", "why_tests_cant": "holds for all states and converged iterations, not for sampled ones", "anchors": ["src/peregrinepy/integrators/dualTime.py:initializeDualTime", "src/compute/timeIntegration/dualTime.cpp"]}
{"id": "C93", "title": "Nothing but momentum crosses a wall", "statement": "After the inviscid wall condition has filled the halo, the mass, energy and species fluxes every documented primary flux computes on the wall face are zero.", "quantifier": "all states, grids, wall types and central, KEEP, Rusanov and HLLC fluxes", "why_tests_cant": "continuous input space; interplay of boundary condition and flux", "anchors": ["src/compute/boundaryConditions/walls.cpp", "src/compute/advFlux"]}
{"id": "C94", "title": "Gradients at rotational periodic faces are those of the rotated field", "statement": "At a rotational periodic face the halo gradients equal the gradients of the rotated neighbour field: for scalars and for the velocity vector.", "quantifier": "all linear fields, axes and angles", "why_tests_cant": "continuous input space", "anchors": ["src/compute/boundaryConditions/periodics.cpp"]}
{"id": "C95", "title": "What passes validation can be set up", "statement": "Every configuration that passes validation and names only existing schemes, models and integrators can be turned into a solver without an error.", "quantifier": "all configurations", "why_tests_cant": "product of all options", "anchors": ["src/peregrinepy/files/configFile.py:validateConfig", "src/peregrinepy/multiBlock/__init__.py:setRHS"]}
{"id": "C96", "title": "The right-hand side is the one the configuration asks for", "statement": "For every configuration the advective right-hand side the solver evaluates is that of the configured primary flux, combined with the configured secondary flux in the configured shock-handling way.", "quantifier": "all configurations, blocks and states", "why_tests_cant": "product of all options and all states", "anchors": ["src/peregrinepy/multiBlock/__init__.py:setRHS", "src/peregrinepy/RHS.py"]}
{"id": "C97", "title": "The limit on blocks per processor is respected", "statement": "With a limit on the number of blocks per processor no processor group the load balancer writes holds more blocks than the limit.", "quantifier": "all block lists, sizes, limits and modes", "why_tests_cant": "unbounded inputs", "anchors": ["utilities/loadBalancer.py"]}
{"id": "C98", "title": "The XDMF files describe what was written", "statement": "For every output, serial or parallel, each block's XDMF entry carries the time and extents of that block and every data location in it leads to an existing dataset of the announced size, however the blocks are spread over the ranks.", "quantifier": "all block lists, sizes, distributions, lumped or not, animated or not, with or without halos", "why_tests_cant": "unbounded inputs and distributions", "anchors": ["src/peregrinepy/writers/writeMetaData.py", "src/peregrinepy/writers/writeRestart.py", "src/peregrinepy/writers/parallelWriter.py:registerParallelMetaData", "src/peregrinepy/writers/writeArbitraryArray.py"]}
{"id": "C99", "title": "A dual-time run restarts with its time history", "statement": "Restarting a dual-time simulation from an output restores all three time levels the second-order time derivative needs; an interrupted output does not silently combine levels of different outputs.", "quantifier": "all states, block lists and moments at which the program stops", "why_tests_cant": "crash points and unbounded states", "anchors": ["src/peregrinepy/writers/writeDualTimeQnm1.py", "src/peregrinepy/integrators/dualTime.py:initializeDualTime", "runPeregrine.py:simulate"]}
{"id": "C100", "title": "An interrupted output does not destroy the last restart", "statement": "If the program stops at any moment while it writes a restart, the previous restart can still be read.", "quantifier": "all moments during an output, all contents of the half-written files", "why_tests_cant": "crash points cannot be enumerated by tests", "anchors": ["src/peregrinepy/writers/writeRestart.py", "src/peregrinepy/writers/parallelWriter.py:parallelWriteRestart", "src/peregrinepy/writers/writeMetaData.py:getVarFileName"]}
{"id": "C101", "title": "Reactions obey the second law", "statement": "At every temperature and composition each reversible reaction of every mechanism runs in the direction that lowers the Gibbs energy and stands still exactly at its equilibrium, so a mechanism of reversible reactions never produces Gibbs energy.", "quantifier": "all mechanisms, reactions, temperatures and positive concentrations", "why_tests_cant": "continuous input space; one wrong sign among thousands of table entries", "anchors": ["src/compute/chemistry/chem_C2H4_Air_Skeletal.cpp", "src/compute/chemistry/chem_GRI30.cpp", "src/compute/chemistry/chem_CH4_O2_FFCMY.cpp"]}
{"id": "C102", "title": "Absent species are not consumed", "statement": "In every state a species whose mass fraction is zero has a non-negative source, so that for a small enough chemistry sub-step no mass fraction becomes negative.", "quantifier": "all mechanisms, states and species", "why_tests_cant": "continuous input space", "anchors": ["src/compute/chemistry/chem_C2H4_Air_Skeletal.cpp", "src/compute/chemistry/chem_GRI30.cpp", "src/compute/chemistry/chem_CH4_O2_FFCMY.cpp"]}
{"id": "C103", "title": "Reaction rates are finite in every state", "statement": "Whatever the mass fractions, at positive density and any temperature from 1 K every reaction rate is a number: no fall-off expression takes the logarithm of zero or divides zero by zero.", "quantifier": "all mechanisms, mass fractions, densities and temperatures", "why_tests_cant": "singular states are a null set that random tests miss", "anchors": ["src/compute/chemistry/chem_C2H4_Air_Skeletal.cpp", "src/compute/chemistry/chem_GRI30.cpp", "src/compute/chemistry/chem_CH4_O2_FFCMY.cpp"]}
{"id": "C104", "title": "Diffusive fluxes are antisymmetric in the two sides of a face", "statement": "Computing the viscous and diffusive flux of a face from the other side (cells swapped, area and normal reversed) gives exactly minus the flux, for every equation, so two blocks sharing a face exchange equal and opposite amounts.", "quantifier": "all species counts, states, gradients and face geometries, both diffusive kernels", "why_tests_cant": "A numerical test compares a few faces in floating point; the claim is an identity for every state and number of species.", "anchors": ["src/compute/diffFlux/alphaDampingFlux.cpp", "src/compute/diffFlux/diffusiveFlux.cpp"]}
{"id": "C105", "title": "A uniform state has no diffusive flux", "statement": "If the two cells of a face hold the same primitive state and have zero gradients, every component of the diffusive flux is zero.", "quantifier": "all states, species counts and geometries, both kernels", "why_tests_cant": "Must hold for every state and every face geometry.", "anchors": ["src/compute/diffFlux/alphaDampingFlux.cpp", "src/compute/diffFlux/diffusiveFlux.cpp"]}
{"id": "C106", "title": "Diffusive fluxes are exact for linear fields", "statement": "When cell values and gradients come from a linear field, the damped face gradient is that field's gradient on every grid whose centre line is not parallel to the face, so the momentum flux is the exact Newtonian stress and the heat flux the exact Fourier flux.", "quantifier": "all linear fields and non-degenerate face geometries", "why_tests_cant": "Skewed and stretched grids are unlimited in number.", "anchors": ["src/compute/diffFlux/alphaDampingFlux.cpp", "src/compute/diffFlux/diffusiveFlux.cpp"]}
{"id": "C107", "title": "Alpha damping opposes odd-even oscillations", "statement": "For cells whose gradients vanish but whose values differ across a face, the alpha-damping flux always acts against the jump: momentum, heat and (with equal diffusivities) species flow from the larger to the smaller value, strictly so when the jump and the coefficient are nonzero.", "quantifier": "all jumps, geometries and species counts", "why_tests_cant": "The sign must hold for every jump and direction.", "anchors": ["src/compute/diffFlux/alphaDampingFlux.cpp"]}
{"id": "C108", "title": "The viscous stress only dissipates", "statement": "With nonnegative viscosity the viscous momentum flux contracted with the velocity gradient is never positive, and rigid rotation and pure dilatation produce no viscous momentum flux.", "quantifier": "all velocity gradients", "why_tests_cant": "An inequality over a nine-dimensional space of gradients.", "anchors": ["src/compute/diffFlux/diffusiveFlux.cpp"]}
{"id": "C109", "title": "Diffusive fluxes do not depend on the orientation of the coordinate system", "statement": "Rotating the grid, the velocities and their gradients rotates the momentum flux and leaves the energy and species fluxes unchanged.", "quantifier": "all rotations and reflections, states and face geometries", "why_tests_cant": "Ranges over the whole orthogonal group.", "anchors": ["src/compute/diffFlux/alphaDampingFlux.cpp", "src/compute/diffFlux/diffusiveFlux.cpp"]}
{"id": "C110", "title": "Transport properties of a cell depend only on the state of that cell", "statement": "The kinetic-theory kernel gives two cells in the same state the same viscosity, conductivity and diffusivities, whatever other cells the same thread handled before.", "quantifier": "all cell sequences per thread, all compositions and both build variants", "why_tests_cant": "Depends on the assignment of cells to threads; a single-cell unit test cannot see it.", "anchors": ["src/compute/transport/kineticTheory.cpp"]}
{"id": "C111", "title": "A binary mixture diffuses with the binary coefficient", "statement": "For two species the mixture-averaged diffusivities of both species equal the tabulated binary coefficient of the pair divided by the pressure, whatever the composition.", "quantifier": "all binary mixtures that are not pure, temperatures and pressures", "why_tests_cant": "An identity over all compositions and molecular weights.", "anchors": ["src/compute/transport/kineticTheory.cpp"]}
{"id": "C112", "title": "Grid verification compares every point with its partner", "statement": "verify() returns True exactly for grids in which, at every connection and in every relative orientation, each face point coincides (to 1e-10, after periodic translation) with the point it is joined to, every connection is answered by its neighbour, and no block is left handed; it supports rotationally periodic grids once their data are read.", "quantifier": "all grids, all 48 orientations, all six faces", "why_tests_cant": "48 orientations times six faces times arbitrary shapes and coordinates", "anchors": ["utilities/verifyGrid.py:verify", "utilities/verifyGrid.py:extractFace", "src/peregrinepy/multiBlock/topologyBlock.py"]}
{"id": "C113", "title": "The restart directory after a run", "statement": "With animated restarts the directory holds, for every scheduled step, a file of that number with that step's state; otherwise the one file holds the last scheduled step; a run stopped by the NaN check leaves the state it stopped with as number 99999999; and a stopped run still leaves the last good restart.", "quantifier": "all run lengths, intervals, NaN histories, block numberings and earlier contents of the directory", "why_tests_cant": "Depends on the interleaving of unboundedly many scheduled writes with the stop.", "anchors": ["runPeregrine.py:simulate", "src/peregrinepy/writers/writeRestart.py", "src/peregrinepy/writers/parallelWriter.py"]}
{"id": "C114", "title": "Interpolation looks in every source block that could contain a target point", "statement": "For each target block the search lists every source block containing one of its points; the verbose search lists exactly these.", "quantifier": "all source and target grids and all hulls contained in their bounding box", "why_tests_cant": "Ranges over all pairs of grids.", "anchors": ["src/peregrinepy/interpolation/bounds.py"]}
{"id": "C115", "title": "Interpolated flow fields stay in range", "statement": "Interpolating a restart keeps every primitive inside the range of the source blocks used, mass fractions sum to at most one and stay within the source range, and a target block outside the whole source grid is reported.", "quantifier": "all source and target multi-blocks, interpolants and species counts", "why_tests_cant": "Quantifies over interpolants, data and numbers of species.", "anchors": ["utilities/interpolate.py", "src/peregrinepy/interpolation/blocksToBlock.py"]}
{"id": "C116", "title": "Unified halo nodes match the neighbours' grid, across periodic faces too", "statement": "After unifySolverGrid, interior nodes are where they were; every face-halo node of a connected face is at the position of the neighbour's interior node that occupies the same place in the glued index spaces, moved back (low face) or forward (high face) by the periodic span along, or about, the periodic axis if the face is periodic; and on grids whose connectivity is regular along edges the edge and corner halo nodes are consistent too (for a uniform multi-block box: all halo nodes continue the uniform grid).", "quantifier": "all multi-block grids with reciprocal connectivity, any orientation, rank distribution, halo width, translational and rotational periodic faces", "why_tests_cant": "needs every combination of orientations, periodic pairs and edge neighbours, and an induction over the three exchange rounds", "anchors": ["src/peregrinepy/grid/unifySolverGrid.py:unifySolverGrid", "src/peregrinepy/multiBlock/gridFace.py:periodicAxis", "src/peregrinepy/multiBlock/solverFace.py:s0_"]}
{"id": "C117", "title": "Hybrid schemes conserve across block interfaces", "statement": "With a hybrid scheme (primary flux blended with a secondary one by a shock switch), after the halo exchanges the volume-weighted change of every conserved quantity summed over all blocks is minus the outflow of the blended flux through the unconnected faces, whatever the orientation of the connections.", "quantifier": "all conforming multi-block grids, kernels, states and switch values", "why_tests_cant": "needs every orientation of every connection and every state; single-block tests have no interface", "anchors": ["src/peregrinepy/RHS.py:RHS", "src/peregrinepy/consistify.py:consistify", "src/compute/utils/applyFluxes.cpp:applyHybridFlux", "src/peregrinepy/mpiComm/communicate.py", "src/compute/switches"]}
{"id": "C118", "title": "The whole flow right-hand side is conservative over all blocks", "statement": "Advective plus diffusive fluxes, with properties and gradients exchanged and boundary conditions applied as in a step, change every conserved quantity summed over all blocks only by the outflow through unconnected faces.", "quantifier": "all conforming multi-block grids with shared halo nodes (up to periodic translation), all symmetric advective kernels, both diffusive kernels, all states, gradients and pointwise property models", "why_tests_cant": "sums over arbitrarily many blocks and all relative orientations; involves two exchanges and boundary updates in between", "anchors": ["src/peregrinepy/RHS.py:RHS", "src/compute/diffFlux/alphaDampingFlux.cpp", "src/compute/diffFlux/diffusiveFlux.cpp", "src/compute/utils/applyFluxes.cpp", "src/peregrinepy/mpiComm/communicate.py"]}
{"id": "C119", "title": "The generated chemistry kernel computes the mechanism it was generated from", "statement": "For a mechanism of Arrhenius, third-body, Lindemann and Troe reactions, the kernel text written by ct2pgChem, when run on any temperature, concentrations and Gibbs energies, gives for each reaction the law of mass action with that reaction's rate (forward minus reverse by equilibrium) and for each species its molecular weight times its net production, and mass is conserved when every reaction balances; a reaction without net change is refused.", "quantifier": "all mechanisms, species counts, orders, temperatures, concentrations and Gibbs energies", "why_tests_cant": "ranges over all mechanisms and all states; generated text is only ever compiled for a few mechanisms", "anchors": ["utilities/ct2pgChem.py:ct2pgChem", "utilities/ct2pgChem.py:rateConstString", "utilities/ct2pgChem.py:intOrFloat"]}
{"id": "C120", "title": "Trace point collections are the points asked for", "statement": "A line is n equally spaced points including both ends; a plane is the n01 x n02 equally spaced points of the parallelogram p0, p1, p2; every point carries the heading of its collection as its tag; unsupported collections raise.", "quantifier": "all collections, corners and counts", "why_tests_cant": "ranges over all corners and counts", "anchors": ["utilities/generateTracePoints.py:createLine", "utilities/generateTracePoints.py:createPlane", "utilities/generateTracePoints.py:getPointsTagsFromInput"]}
{"id": "C121", "title": "Every trace point inside the grid is written with the block it lies in and the nearest cell", "statement": "The trace point file lists, in order, each requested point that lies in some block with the first block containing it, a cell of it no other of which is nearer, and the point's tag; points in no block are dropped.", "quantifier": "all grids, point lists and tags", "why_tests_cant": "ranges over all grids and points", "anchors": ["utilities/generateTracePoints.py:generateTracePoints", "src/peregrinepy/grid/gridBlock.py:computeMetrics", "src/peregrinepy/interpolation/bounds.py:ptsInBlkBounds"]}
{"id": "C122", "title": "Trace files record the probed cells at every due step", "statement": "With tracing switched on, every trace point of this rank's blocks has a file with a title for each column; after any history of steps the file has gained exactly one row, time and primitive variables of the cell, for each step whose number is a multiple of niterTrace; existing files are appended to.", "quantifier": "all block sets, trace points, intervals, histories and existing files", "why_tests_cant": "depends on unbounded histories and on the distribution of blocks over ranks", "anchors": ["src/peregrinepy/coproc/tracePointCoprocessor.py:tracePointsCoprocessor", "src/peregrinepy/coproc/pgCoprocessor.py:coprocessor", "src/peregrinepy/multiBlock/topology.py:getBlock"]}
{"id": "C123", "title": "The boundary-layer and channel grid has the heights, growth and resolution asked for", "statement": "The wall-normal points rise strictly from 0 to the height asked for (a channel symmetrically to 2 delta); the viscous sublayer is uniform up to y+ = 5 and the buffer layer ends at y+ = 30; spacings grow by the given rates and nowhere exceed the core spacing; the horizontal spacings do not exceed the requested ones; the loops end for every growth rate above one.", "quantifier": "all Reynolds numbers, growth rates, spacings and domain sizes", "why_tests_cant": "ranges over all inputs; the loops and int() truncations depend on them", "anchors": ["utilities/boundaryLayerGrid.py:ptsWithGR", "utilities/boundaryLayerGrid.py:growToDy"]}
{"id": "C124", "title": "Kinetic-theory transport with unity Lewis number follows the fitted tables", "statement": "Each cell's viscosity and conductivity are the mixing rules applied to the species values of the fitted tables at the cell's own temperature and composition, whatever cells were computed before; all species diffuse with the heat diffusivity; all values are positive.", "quantifier": "all tables, species counts, cells, compositions and orders of cells", "why_tests_cant": "ranges over all states and over the history of cells per thread", "anchors": ["src/compute/transport/kineticTheoryUnityLewis.cpp:kineticTheoryUnityLewis", "src/peregrinepy/thermoTransport/kineticTheoryPoly.py:kineticTheoryPoly"]}
{"id": "C125", "title": "Dense-gas transport is the correlation of Chung et al.", "statement": "For one species the kernel stores the viscosity and conductivity of the published correlation with its published constants; in a mixture the conductivity lies between the species values, the viscosity is positive, and all species diffuse with the heat diffusivity.", "quantifier": "all species data, temperatures, densities, heat capacities and compositions", "why_tests_cant": "an identity between formulas over a continuum of states", "anchors": ["src/compute/transport/chungDenseGasUnityLewis.cpp:chungDenseGasUnityLewis", "src/peregrinepy/thermoTransport/chungDenseGas.py:chungDenseGas", "src/peregrinepy/thermoTransport/chungConstants.py"]}
{"id": "C126", "title": "Species properties come from the user, failing that from the library", "statement": "For every property, the solver's array has one entry per species in the order given, equal to the user's value where one is given and to the library's otherwise; a species with neither stops the set-up; a species named without data takes everything from the library.", "quantifier": "all species lists, user files, libraries and properties", "why_tests_cant": "ranges over all inputs and libraries", "anchors": ["src/peregrinepy/thermoTransport/completeSpecies.py:completeSpecies", "src/peregrinepy/thermoTransport/thtrdat.py:thtrdat", "src/peregrinepy/misc/createViewMirrorArray.py:createViewMirrorArray"]}
{"id": "C127", "title": "The species file is the first found of input directory, working directory, database, given path", "statement": "The species file read is the first existing of inputDir/name, ./name, the package database's name and name itself; none existing is an error; a list of names needs no file.", "quantifier": "all file systems, configurations and names", "why_tests_cant": "ranges over all file-system contents", "anchors": ["src/peregrinepy/thermoTransport/findUserSpData.py:findUserSpData"]}
{"id": "C128", "title": "Every species array a selected kernel reads has been set up", "statement": "For every accepted configuration, each compute function the solver calls (equation of state, transport, chemistry) reads only species arrays that were created, and the mechanism has as many species as the run.", "quantifier": "all accepted combinations of equation of state, transport, chemistry and species", "why_tests_cant": "ranges over all combinations of settings", "anchors": ["src/peregrinepy/thermoTransport/thtrdat.py:thtrdat", "src/peregrinepy/multiBlock/__init__.py:setConsistify", "src/peregrinepy/multiBlock/__init__.py:setRHS", "src/compute/transport/chungDenseGasUnityLewis.cpp", "src/compute/chemistry"]}
{"id": "C129", "title": "Labels and connectivity of a GridPro grid carry over", "statement": "Every face of the converted grid has the neighbour and orientation of the GridPro connectivity file (none where GridPro writes 0), and the family and boundary type its surface's label names.", "quantifier": "all property and connectivity files, family dictionaries, blocks and faces", "why_tests_cant": "ranges over all files and labels", "anchors": ["utilities/gridPro2pg.py", "src/peregrinepy/multiBlock/topologyFace.py:bcType"]}
{"id": "C130", "title": "The two sides of a GridPro periodicity are told apart", "statement": "Of the two faces joined by a periodicity, the one whose image under the positive shift (or rotation) is the other becomes Low and the other High, with the span and axis of their own family; faces that do not match stop the conversion.", "quantifier": "all grids, spans, axes, families and face orientations", "why_tests_cant": "ranges over all geometries", "anchors": ["utilities/gridPro2pg.py", "src/peregrinepy/multiBlock/topologyFace.py:periodicAxis", "utilities/verifyGrid.py:extractFace"]}
{"id": "C131", "title": "Connectivity of an ICEM grid carries over", "statement": "Every interior face of the converted grid names the adjacent domain (numbered from 0) and the true orientation of the joint, whatever signs and order ICEM lists the directions in; the two blocks of a joint name each other's faces with inverse orientations; lines out of order stop the conversion.", "quantifier": "all blocks, faces, orientations, direction listings and point ranges", "why_tests_cant": "48 orientations x all listings x all section contents; a wrong sign only shows for some of them", "anchors": ["utilities/icem2pg.py", "src/peregrinepy/multiBlock/topologyFace.py:neighborNface", "src/peregrinepy/multiBlock/topologyFace.py:neighborOrientation"]}
{"id": "C132", "title": "Boundary labels of an ICEM grid carry over", "statement": "Every labelled face of an ICEM block gets the family of its label and the family's boundary type, for every boundary type the solver offers; differently labelled parts of one face are not merged silently.", "quantifier": "all boundary sections, labels, ranges and boundary types", "why_tests_cant": "ranges over all files and family dictionaries", "anchors": ["utilities/icem2pg.py", "src/peregrinepy/multiBlock/topologyFace.py:bcType"]}
{"id": "C133", "title": "Periodic ICEM grids and both coordinate formats can be converted", "statement": "A periodic pair in the topology file becomes a periodic joint of the grid, and the domain files of the Multi-Block-Info format are read in the topology file's numbering.", "quantifier": "all topology files with a periodic section; all directories", "why_tests_cant": "a statement about every input of a kind", "anchors": ["utilities/icem2pg.py", "src/peregrinepy/multiBlock/topologyFace.py:bcType"]}
{"id": "C134", "title": "Grid statistics are the statistics of the grid", "statement": "The grid analysis reports the total number of cells of the grid; the number, the cells and the point counts of a largest and of a smallest block, the one with the lowest number among equals; the mean number of cells per block and the standard deviation, which is zero exactly when all blocks have the same number of cells. A grid with a block without cells is refused.", "quantifier": "every grid whose blocks carry the numbers 0..n-1 in any list order, with any point counts", "why_tests_cant": "A test checks a few grids; the claim is about every assignment of sizes and every order of the blocks, including ties.", "anchors": ["utilities/analyzeGrid.py:analyzeGrid", "src/peregrinepy/multiBlock/topology.py:getBlock"]}
{"id": "C135", "title": "Automatic cutting makes as few blocks as possible", "statement": "Given a maximum block size, the cutting utility cuts the largest block the smallest number of times for which its points divided by the number of pieces fit the limit, along an axis for which the propagation of the cut meets the fewest blocks, and gives up only when the block cannot be cut that finely.", "quantifier": "every grid, every limit below the largest block's size", "why_tests_cant": "The decision depends on the connectivity of the whole grid and on arithmetic of the limit; unit tests only see chosen grids.", "anchors": ["utilities/cutGrid.py:__main__ (415-463)", "utilities/cutGrid.py:cutPath", "utilities/analyzeGrid.py:analyzeGrid"]}
{"id": "C136", "title": "A configuration file written by the code reads back as the same configuration", "statement": "The file written from a configuration holds every section and every setting exactly once with its value; reading that file yields the same value for every setting; and if the configuration had been validated, the file is accepted again by validation and validation changes nothing.", "quantifier": "every configuration reachable from the default one by setting values", "why_tests_cant": "The set of configurations is infinite; a test writes a handful.", "anchors": ["src/peregrinepy/writers/writeConfigFile.py:writeConfigFile", "src/peregrinepy/readers/readConfigFile.py:readConfigFile", "src/peregrinepy/files/configFile.py:validateConfig"]}
{"id": "C137", "title": "Cutting a connected grid gives a connected grid", "statement": "Cutting a block of a connected grid, whose joined faces coincide (directly or after a periodic translation), cuts every block the cut surface runs through at the corresponding index, keeps all points and all boundary conditions, and joins every piece to exactly the pieces it touches, with the right orientation; so the result is again a connected grid whose joined faces coincide, and cuts can be repeated. Rotational periodicity is treated like translational.", "quantifier": "every connected grid, block, axis and index inside the block, and every sequence of cutting operations, for which the surface does not pass through one block in two different ways and distinct pieces have face centres further apart than the tolerance", "why_tests_cant": "The connectivity, the orientations and the order in which the search meets the faces range over all grids; a test can only try a few.", "anchors": ["utilities/cutGrid.py:performCutOperations", "utilities/cutGrid.py:findInteriorNeighbor", "utilities/cutGrid.py:cutBlock", "utilities/cutGrid.py:cutPath", "utilities/cutGrid.py:extractCorners"]}
{"id": "C138", "title": "The quasi-steady species of the reduced ethylene mechanism are in steady state", "statement": "Whenever the reduced mechanism's rates are computed, each of the ten eliminated species (CH, CH2, CH2s, HCO, CH3O, H2CC, C2H3, C2H5, CH2CHO, nC3H7) is made exactly as fast as it is used over all 206 reactions. With oxygen present the computation always succeeds: no rate and no pivot of the elimination divides by zero or takes the logarithm of a non-positive number, and the eliminated species get non-negative concentrations.", "quantifier": "every pressure, temperature and composition (for success: every positive pressure, temperature of at least 1 K, non-negative composition with some oxygen)", "why_tests_cant": "The elimination is a hand-unrolled sparse 10 by 10 solve of 130 statements; agreement at sample states cannot exclude a zero pivot or an unbalanced species elsewhere.", "anchors": ["src/compute/chemistry/chem_C2H4_Air_Red22.cpp:chem_C2H4_Air_Red22"]}
{"id": "C139", "title": "The reduced ethylene mechanism conserves elements and mass", "statement": "The sources of the 22 transported species carry no net atoms of any element and no net mass (with molecular weights that are sums of atomic weights), although ten intermediate species are eliminated; so does a sub-step, and so does the kernel's change of the partial densities for any number of sub-steps, as long as no intermediate composition has to be clipped.", "quantifier": "every state, time step and number of sub-steps", "why_tests_cant": "Conservation must hold at every state; it depends on the elimination being exact.", "anchors": ["src/compute/chemistry/chem_C2H4_Air_Red22.cpp:chem_C2H4_Air_Red22"]}
{"id": "C140", "title": "The reduced ethylene mechanism does not consume what is not there", "statement": "With oxygen present, a transported species with zero mass fraction has a non-negative source.", "quantifier": "every pressure, temperature of at least 1 K, and composition with oxygen", "why_tests_cant": "The sign must hold for every composition on every face of the simplex.", "anchors": ["src/compute/chemistry/chem_C2H4_Air_Red22.cpp:chem_C2H4_Air_Red22"]}
{"id": "C141", "title": "Reactions of the reduced ethylene mechanism run down their Gibbs energy", "statement": "If all transported species are present then so are the steady ones, and every reaction kept in both directions has a positive, zero or negative net rate exactly when its change of Gibbs energy, computed from the kernel's own thermodynamic fits, is negative, zero or positive.", "quantifier": "every positive pressure, temperature of at least 1 K and strictly positive composition; every reaction not made one-way", "why_tests_cant": "Thermodynamic consistency of 200 reactions at every state.", "anchors": ["src/compute/chemistry/chem_C2H4_Air_Red22.cpp:chem_C2H4_Air_Red22"]}
{"id": "C142", "title": "Local pseudo-time steps respect every direction", "statement": "In the dual-time scheme each cell's local pseudo-time step is positive and is the largest one for which, in every direction that has more than one cell, the step times the spectral radius is at most one half and (for viscous runs) the step times the kinematic viscosity is at most a tenth of the squared cell width; it is infinite exactly when there is no such direction; cells outside the interior keep the old value; the step does not depend on the units. The spectral radius meant is the convective one, |u.n|+c over the cell width.", "quantifier": "every block, metrics, state with positive sound speed and widths, viscous or not", "why_tests_cant": "The bound must hold for every cell geometry and velocity direction.", "anchors": ["src/compute/timeIntegration/dualTime.cpp:localDtau"]}
{"id": "C143", "title": "The preconditioning velocity is the local speed between two limits", "statement": "The reference velocity of the low-Mach preconditioner is the local speed, but at least a hundred-thousandth of the sound speed and at most the sound speed, and is a velocity: in other units of length and time it is the same velocity, with and without viscosity.", "quantifier": "every state with positive sound speed, every cell geometry", "why_tests_cant": "The piecewise definition has to be right for every speed, also at the switches between its branches, and for every unit system.", "anchors": ["src/compute/timeIntegration/dualTime.cpp:invertDQ"]}
{"id": "C144", "title": "Output files sort in time order", "statement": "Sorted by name, the result files of a run come in the order of their step numbers (and, for one file per block, then of their block numbers), as do the files holding the previous time level of the dual-time scheme. The number in the name is the step number with leading zeros.", "quantifier": "every pair of step numbers below 10^8 and block numbers below 10^6, lumped or not, with or without step numbers", "why_tests_cant": "A test lists a few names; the claim is about the order of every two.", "anchors": ["src/peregrinepy/writers/writeMetaData.py:restartMetaData", "src/peregrinepy/writers/parallelWriter.py:parallelWriteRestart"]}
{"id": "C145", "title": "Nothing diffuses through walls", "statement": "After a wall's boundary condition has been applied to the cells and to the gradients, neither diffusive flux carries mass or species through the wall; through an insulating wall that does not move it carries no energy, and through one that moves only the power of the friction (whose sign is C72's subject); a slip wall feels no friction along it, and with the plain scheme none at all; at no-slip and moving walls the friction, and at isothermal ones the conducted heat, are those of the first interior cell's gradients. The damped scheme needs halo nodes mirrored about the wall, which is what the code generates.", "quantifier": "every wall type, face, block, state, field of gradients, transport properties and grid", "why_tests_cant": "Needs the halo values, the halo gradients and the flux formula to fit together for every state and orientation of the face.", "anchors": ["src/compute/boundaryConditions/walls.cpp", "src/compute/diffFlux/diffusiveFlux.cpp:diffusiveFlux", "src/compute/diffFlux/alphaDampingFlux.cpp:alphaDampingFlux", "src/peregrinepy/RHS.py:RHS", "src/peregrinepy/grid/generateHalo.py:generateHalo"]}
{"id": "C146", "title": "The reduced ethylene mechanism has no jump at 1000 K", "statement": "The thermodynamic functions from which the reduced ethylene mechanism builds its equilibrium constants are continuous in the temperature, except at 1000 K, where their two polynomials meet to within two parts in 100 000; so equilibrium constants do not jump as a cell is heated through 1000 K.", "quantifier": "all 31 species of the mechanism and every positive temperature", "why_tests_cant": "A test at sampled temperatures and species can miss the one temperature and the one coefficient that matter.", "anchors": ["src/compute/chemistry/chem_C2H4_Air_Red22.cpp:chem_C2H4_Air_Red22"]}
{"id": "C147", "title": "Transport tables from kinetic theory are those of kinetic theory", "statement": "The tables that the kinetic-theory transport models read are built from collision parameters that are the ones of Monchick and Mason for every pair, polar or not, whichever species is listed first; viscosities and diffusivities are positive; at the fitted temperatures the kernels reproduce a property whose scaled values a quartic in ln T can represent; the conductivity uses the species' molar heat capacity over Ru, so that a gas of atoms follows Eucken's law.", "quantifier": "every list of species with plausible data, both gas models, any positive collision integrals, any least-squares fit", "why_tests_cant": "The tables come out of a double loop whose order matters, and hold for every species list; a test compares a few properties of one mixture.", "anchors": ["src/peregrinepy/thermoTransport/kineticTheoryPoly.py:kineticTheoryPoly", "src/compute/transport/kineticTheory.cpp:kineticTheory"]}
{"id": "C148", "title": "A block is said to contain the points it contains", "statement": "The test whether points lie in a block, used by the grid-to-grid interpolation and by the trace-point search, finds exactly the points in the region filled by the block's cells; it never reports a point outside the block's bounding box, finds the block's corners and the middles of its edges and faces, and does not depend on the position, units, or index directions of the block. So every target point inside some source block is inside a block that the interpolation uses.", "quantifier": "every block with at least one cell, every point, every affine map of space", "why_tests_cant": "The region of points and the shapes of blocks are continuous families.", "anchors": ["src/peregrinepy/interpolation/bounds.py:ptsInBlkBounds", "src/peregrinepy/interpolation/bounds.py:findBounds", "utilities/generateTracePoints.py:generateTracePoints"]}
{"id": "C149", "title": "MUSCL reconstruction makes no new extrema", "statement": "In both second-order upwind schemes the density, velocity, internal energy, pressure, sound speed and composition of the two face states lie between those of the cells on the two sides of the face (so stay positive and admissible), and fields that vary linearly get their exact value at the face from both sides.", "quantifier": "every four-cell stencil of states with positive density and energy, both schemes, both sides of the face", "why_tests_cant": "The limiter is piecewise with divisions that can hit zero; the claim is about every stencil.", "anchors": ["src/compute/advFlux/muscl2hllc.cpp:muscl2hllc", "src/compute/advFlux/muscl2rusanov.cpp:muscl2rusanov"]}
{"id": "C150", "title": "The fourth-order scheme is fourth-order accurate", "statement": "On a uniform grid the divergence of the fourth-order fluxes differs from the exact one by an error of fourth order in the spacing; it is exact for the gradient of a pressure, and for the advection of a density or a composition by a uniform flow, that is a polynomial of degree four in the coordinate.", "quantifier": "every polynomial flow, spacing and position", "why_tests_cant": "The order of accuracy is a limit over all spacings; a test samples a few grids.", "anchors": ["src/compute/advFlux/fourthOrderKEEP.cpp:fourthOrderKEEP"]}
{"id": "C151", "title": "Boundary values are the ones given", "statement": "A boundary whose values are in the boundary-condition file is set up exactly when every value its type needs is there; the whole face then has these values, mass fractions not named being 0. With a profile, every interior cell of the face has the value of the face's own file and every edge cell that of the nearest interior cell, and likewise for the spline coefficients of the unsteady inlet. A mass-flux inlet passes the given mass flux on all six faces. The conditions read nothing that was not set, and a value that none of them can use is reported.", "quantifier": "every type of wall, inlet and exit, every block, face, dictionary of values, directory of files and any number of ghost layers", "why_tests_cant": "Needs all types, faces, block shapes and dictionaries; the fill of the edges depends on the order of overlapping assignments.", "anchors": ["src/peregrinepy/bcs/prepInlets.py", "src/peregrinepy/bcs/prepExits.py", "src/peregrinepy/bcs/prepWalls.py", "src/peregrinepy/readers/readBcs.py:readBcs"]}
{"id": "C152", "title": "In-situ visualisation is given the solution", "statement": "The data set handed to the in-situ pipeline has each block of this process at its global number and nothing at the others. After any history of calls, every block's grid has the block's interior nodes as points and exactly the fields density, pressure, velocity, temperature and one mass fraction per species, one value per interior cell in VTK's numbering, equal to the device's solution at the last call for which data was requested; the mass fractions sum to one. No field is lost, whatever the species are called.", "quantifier": "every number of blocks, block shape, number of ghost layers, species list and history of requested and declined calls", "why_tests_cant": "Needs every history of calls and every block shape and species list; the replacement of arrays by name depends on all earlier calls.", "anchors": ["src/peregrinepy/coproc/catalystCoprocessor.py:catalystCoprocessor"]}
{"id": "C153", "title": "The species library gives physical gases", "statement": "Any list of distinct species of the library that comes with the code can be used with constant properties, and any without the two invented species as a thermally perfect gas. For every such mixture, every composition and every temperature from 200 K to 5000 K, the heat capacity is at least 2.47 gas constants, so that the ratio of heat capacities lies between 1 and 1.69 and the speed of sound is real, and the internal energy determines the temperature. Molecular weights are those of the formulas, and constant heat capacities those of the polynomials at 298 K.", "quantifier": "every list of library species, every composition, every temperature in the range", "why_tests_cant": "Ranges over all temperatures (a continuum) and all mixtures of 56 species.", "anchors": ["src/peregrinepy/thermoTransport/database/speciesLibrary.yaml", "src/peregrinepy/thermoTransport/completeSpecies.py:completeSpecies", "src/compute/thermo/tpg.cpp:tpg"]}
{"id": "C154", "title": "The central schemes are second-order accurate", "statement": "Along any line of evenly spaced cells, through faces of any orientation, what the central schemes (KEEP, KEEPpe, KEPaEC, central differences, fourth-order KEEP) take out of a cell per unit spacing differs from the derivative of the exact Euler flux by at most a constant times the square of the spacing, for mass, momentum, energy and every species.", "quantifier": "every three times continuously differentiable gas with positive density and internal energy, every area vector, position, component and central scheme", "why_tests_cant": "A limit over all spacings for every smooth flow; a test samples a few grids and flows.", "anchors": ["src/compute/advFlux/KEEP.cpp:KEEP", "src/compute/advFlux/KEEPpe.cpp:KEEPpe", "src/compute/advFlux/KEPaEC.cpp:KEPaEC", "src/compute/advFlux/centralDifference.cpp:centralDifference", "src/compute/advFlux/fourthOrderKEEP.cpp:fourthOrderKEEP", "src/compute/advFlux/rusanov.cpp:rusanov"]}
{"id": "C155", "title": "The first-order upwind schemes make no new extrema of composition", "statement": "In one explicit step of HLLC or AUSM+up in which a cell gives away no more mass than it has, or of Rusanov in which the step times the wave rates of its faces is at most twice its volume, the density of the cell stays non-negative and each mass fraction stays between the smallest and the largest of the cell and its six neighbours.", "quantifier": "every grid (any cell shapes), state with positive density and sound speed, species and step; the central schemes overshoot for every step, however short", "why_tests_cant": "Needs all states, grids and steps; overshoots appear only at particular fronts.", "anchors": ["src/compute/advFlux/hllc.cpp:hllc", "src/compute/advFlux/ausmPlusUp.cpp:ausmPlusUp", "src/compute/advFlux/rusanov.cpp:rusanov", "src/compute/utils/applyFluxes.cpp:applyFlux"]}
{"id": "C156", "title": "Cell gradients of smooth fields are accurate to the order of the scheme", "statement": "On a grid of equal parallelepipeds (of volume at least 1e-16), for a field that varies smoothly along a grid line, the derivative along that line given by the computed cell gradient differs from the exact one by at most M h^2/6 with the second-order scheme (M bounding the third derivative along the line) and M h^4/18 with the fourth-order scheme (M bounding the fifth), so that it converges as the grid is refined.", "quantifier": "every such grid (any shape, skewness and handedness allowed by the metrics), every cell, spacing and smooth field", "why_tests_cant": "A bound over all smooth fields and spacings; a test samples a few.", "anchors": ["src/compute/utils/dq2FD.cpp:dq2FD", "src/compute/utils/dq4FD.cpp:dq4FD", "src/peregrinepy/grid/metrics.py:metrics"]}
{"id": "C157", "title": "The dual-time residual printed is the size of the last change over the whole run", "statement": "When the iteration count is a multiple of the print interval, a dual-time step prints one heading and twenty numbered lines whose entry for each primitive is the square root of the sum, over every interior cell of every block of every rank, of the squared change of that primitive in the sub-iteration (and prints nothing otherwise); the number does not depend on how the blocks are distributed over the ranks or on how a reduction visits the cells, no cell changed by more than it, and it is zero exactly when no cell changed. The largest change, gathered alongside and not printed, is that of the rank that changes least.", "quantifier": "every number of ranks and blocks, block size, reduction order, number of species and state", "why_tests_cant": "Depends on the decomposition and on the order of a parallel reduction, which a test cannot enumerate.", "anchors": ["src/compute/timeIntegration/dualTime.cpp:residual", "src/peregrinepy/integrators/dualTime.py:dualTime.step", "src/peregrinepy/integrators/dualTime.py:printResidual"]}
{"id": "C158", "title": "Heat flows from the hotter cell to the colder one", "statement": "In a gas at rest the heat a cell receives through its faces is, face by face, the mean conductivity times area times temperature difference over distance: heat flows from hotter to colder cells, the hottest cell never gains and the coldest never loses any, a short enough step leaves the temperature within those of the cell and its neighbours, and in a binary mixture each species flows from where there is more of it to where there is less.", "quantifier": "every grid, state, conductivity and stored gradient; holds on evenly spaced boxes along the axes and fails on stretched and on turned grids", "why_tests_cant": "Needs every temperature field and every grid; the reversal appears only where the gradient changes abruptly.", "anchors": ["src/compute/diffFlux/alphaDampingFlux.cpp:alphaDampingFlux", "src/compute/utils/dq2FD.cpp:dq2FD", "src/compute/utils/applyFluxes.cpp:applyFlux"]}
{"id": "C159", "title": "The variable time step keeps the first-order upwind schemes free of new extrema", "statement": "On rectangular grids, with the variable time step and a CFL limit of at most 1/6, the time step the code computes from all its blocks is small enough that one Euler step of HLLC leaves every density non-negative and every mass fraction within the bounds of the cell and its six neighbours; for Rusanov the same holds if the limit is at most 1/(3(1+r)), r the largest ratio of the widths of neighbouring cells. A limit of 1 is not enough.", "quantifier": "every number of ranks and blocks, reduction order, node spacing in the three directions, state with positive density and sound speed, species, and largest step; blocks at least two cells thick in each direction", "why_tests_cant": "The step depends on all cells of all ranks; instabilities appear only at particular states.", "anchors": ["src/compute/utils/cfl.cpp:CFLmax", "src/peregrinepy/mpiComm/mpiUtils.py:getDtMaxCFL", "src/compute/advFlux/rusanov.cpp:rusanov", "src/compute/advFlux/hllc.cpp:hllc", "src/peregrinepy/grid/metrics.py", "src/compute/utils/applyFluxes.cpp:applyFlux"]}
{"id": "C160", "title": "An array written for viewing shows each cell its own value", "statement": "Writing a cell-centred array - serially or in parallel, lumped or one file per block, animated or not, serially also with halos - succeeds over whatever files exist; the XDMF file then has, for each block, its number, extents and one scalar per component (named after the array, numbered if there are several), and each of them leads to a dataset of the announced extents whose values are those of the component in every cell shown, up to the file's precision. Arrays that live on faces, edges or nodes are refused rather than mislabelled. A parallel output in which some rank holds no block fails.", "quantifier": "every list of blocks, array, number of components, distribution over ranks, order of writing, halo width and set of existing files", "why_tests_cant": "Depends on the decomposition, on the order in which ranks write and on every array shape; a test writes one file.", "anchors": ["src/peregrinepy/writers/writeArbitraryArray.py:writeArbitraryArray", "src/peregrinepy/writers/parallelWriter.py:parallelWriteArbitraryArray", "src/peregrinepy/writers/parallelWriter.py:registerParallelMetaData", "src/peregrinepy/writers/writeMetaData.py:arbitraryMetaData"]}
{"id": "C161", "title": "Writing an array for viewing leaves restarts and grids alone", "statement": "Whatever it is given, an output of the array called name only touches files called name.<...>; so every restart and every grid in the same directory reads as before, unless the array is called q or g. The array q (the primitive variables) has the file names of the restart: written beside it, it replaces the restart, and a program restarted from it reads zero for every variable, without an error.", "quantifier": "every array name, list of blocks, set of existing files, iteration and choice of lumping and animation", "why_tests_cant": "Must hold for every set of files and every array; a test tries one array in an empty directory.", "anchors": ["src/peregrinepy/writers/writeMetaData.py:arbitraryMetaData.getVarFileName", "src/peregrinepy/writers/writeMetaData.py:restartMetaData.getVarFileName", "src/peregrinepy/writers/writeArbitraryArray.py:writeArbitraryArray", "src/peregrinepy/readers/readRestart.py:readRestart"]}
{"id": "C162", "title": "The geometry in XDMF files leads to the nodes of the grid", "statement": "Every coordinate location in an XDMF file - of the grid, of results, of an array - leads to a dataset of the announced extents with that coordinate of every node of its block, at once and after any later output of restarts or arrays, if the grid was written with the same lumping and the same choice about halos; with a different choice the location leads to no dataset, or to one of another size.", "quantifier": "every list of blocks, halo width, lumping, halo choice and sequence of later outputs", "why_tests_cant": "Ranges over all histories of output into one directory; viewers are not part of the tests.", "anchors": ["src/peregrinepy/writers/writeMetaData.py:gridMetaData.getGridFileH5Location", "src/peregrinepy/writers/writeMetaData.py:gridMetaData.addBlockElem", "src/peregrinepy/writers/writeGrid.py:writeGrid", "src/peregrinepy/writers/writeRestart.py:writeRestart"]}
{"id": "C163", "title": "A restarted run continues as the uninterrupted one", "statement": "If a run is stopped after an iteration whose restart has been written, and a new run is started from that file - lumped or not, animated or not, written by any number of ranks in any order, with possibly other halo widths - then every interior cell starts with the primitives, conserved variables and thermodynamic quantities the old run had, with its iteration number and time, and the new run prints, steps, writes and checks what the old run would have done had it gone on.", "quantifier": "every number of ranks and blocks, every composition and state the solver has made consistent, every pair of iteration counts before and after the restart, every output schedule", "why_tests_cant": "Ranges over all states, run lengths and restart points; bitwise continuation of a long run is never compared in the tests, and the time-dependent boundaries are not restarted at all.", "anchors": ["src/peregrinepy/bootstrapCase.py:bootstrapCase", "src/peregrinepy/readers/readRestart.py:readRestart", "src/peregrinepy/runPeregrine.py:simulate", "src/peregrinepy/consistify.py:consistify", "src/peregrinepy/multiBlock/solver.py:solver", "src/peregrinepy/writers/parallelWriter.py:parallelWriteRestart", "src/compute/thermo/cpg.cpp:cpg", "src/compute/thermo/tpg.cpp:tpg"]}
{"id": "C164", "title": "A uniform mixture stays uniform", "statement": "If in the cells a flux reads every species has the same mass fraction, then every advective flux, the scalar dissipation and the flux differences carry each species in proportion to the mass - its component is its mass fraction times the mass component - there are no gradients and no diffusive fluxes of species, so the rate of change of every partial density is its mass fraction times that of the density; and a time step of any integrator keeps the mass fractions as they were.", "quantifier": "every advective flux and shock handling, every number of species and mass fractions, every velocity, pressure, temperature and density field, every face geometry and block, every integrator and sequence of step sizes", "why_tests_cant": "Ranges over all flow fields and compositions; a test can only run single fluxes on single states and compare within a tolerance.", "anchors": ["src/compute/advFlux/KEEP.cpp:KEEP", "src/compute/advFlux/fourthOrderKEEP.cpp:fourthOrderKEEP", "src/compute/advFlux/rusanov.cpp:rusanov", "src/compute/advFlux/ausmPlusUp.cpp:ausmPlusUp", "src/compute/advFlux/hllc.cpp:hllc", "src/compute/advFlux/muscl2hllc.cpp:muscl2hllc", "src/compute/advFlux/scalarDissipation.cpp:scalarDissipation", "src/compute/diffFlux/diffusiveFlux.cpp:diffusiveFlux", "src/compute/diffFlux/alphaDampingFlux.cpp:alphaDampingFlux", "src/compute/utils/applyFluxes.cpp:applyFlux", "src/peregrinepy/RHS.py:RHS"]}
{"id": "C165", "title": "It makes no difference which species is implied", "statement": "The last species of a mixture is not transported: its flux is the mass flux less the fluxes of the others. Whichever species is left out, this is the flux the scheme would have computed for it, had it been transported, in the same flow - for every advective flux and for the scalar dissipation.", "quantifier": "every advective flux, every number of species and every composition of the cells of the stencil, every velocity, pressure, temperature and density, every face geometry", "why_tests_cant": "Ranges over all states and compositions and over the choice of the species; tests fix one order of the species and one state.", "anchors": ["src/compute/advFlux/KEEP.cpp:KEEP", "src/compute/advFlux/KEEPpe.cpp:KEEPpe", "src/compute/advFlux/KEPaEC.cpp:KEPaEC", "src/compute/advFlux/centralDifference.cpp:centralDifference", "src/compute/advFlux/fourthOrderKEEP.cpp:fourthOrderKEEP", "src/compute/advFlux/rusanov.cpp:rusanov", "src/compute/advFlux/ausmPlusUp.cpp:ausmPlusUp", "src/compute/advFlux/hllc.cpp:hllc", "src/compute/advFlux/muscl2rusanov.cpp:muscl2rusanov", "src/compute/advFlux/muscl2hllc.cpp:muscl2hllc", "src/compute/advFlux/scalarDissipation.cpp:scalarDissipation"]}
