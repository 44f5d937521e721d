#!/usr/bin/env python3
# Generates /verif/properties.jsonl from the table below (one entry per property).
import json, sys
P = []
def p(id, title, statement, quantifier, why, *anchors):
    P.append(dict(id=id, title=title, statement=statement, quantifier=quantifier,
                  why_tests_cant=why, anchors=list(anchors)))

# ---------------------------------------------------------------- topology
p("C01","Neighbour orientation is the inverse of the face orientation",
  "For every face whose orientation is a legal three-digit string, the neighbour orientation reported by the face is again a legal orientation, is the inverse signed axis permutation of the face's own, and asking the neighbour for its neighbour orientation gives back the original string.",
  "all legal orientation strings (signed permutations of the three axes)",
  "a test samples a few orientations; the claim is that no legal one is mis-inverted or rejected",
  "src/peregrinepy/multiBlock/topologyFace.py:neighborOrientation")
p("C02","Neighbour face number agrees with the geometry and is symmetric",
  "For every face number and every legal orientation, the neighbour face number is a legal face; it is the face of the neighbour whose outward direction is opposite to this face's outward direction expressed in the neighbour's axes; and looking back from that neighbour face gives the original face number.",
  "all six faces and all legal orientations",
  "a wrong table entry is only visible for the face/orientation pair that uses it",
  "src/peregrinepy/multiBlock/topologyFace.py:neighborNface")
p("C03","Illegal face numbers, boundary types and orientations are rejected",
  "Setting a face number outside 1..6 or an unknown boundary condition name raises, and a face object never holds such a value; an orientation that is not three digits naming a signed permutation is rejected.",
  "all values offered to the setters and all sequences of setter calls",
  "the set of rejected inputs is unbounded",
  "src/peregrinepy/multiBlock/topologyFace.py","src/peregrinepy/multiBlock/topologyBlock.py:getFace")
p("C04","Block numbers stay unique when blocks are appended",
  "Starting from a freshly created multi-block object, after any number of appendBlock calls all block numbers are distinct and getBlock of each number returns the block carrying it.",
  "every initial block count and every number of appends",
  "histories of appends are unbounded",
  "src/peregrinepy/multiBlock/topology.py:appendBlock","src/peregrinepy/multiBlock/topology.py:getBlock")
p("C05","getBlock finds every block a rank owns",
  "For every list of blocks a rank may own (in any order and with any numbers) getBlock(n) returns the block numbered n if present and an error otherwise.",
  "all block lists and all block numbers",
  "depends on the whole domain decomposition, not on a single case",
  "src/peregrinepy/multiBlock/topology.py:getBlock")
# ---------------------------------------------------------------- halo exchange
p("C06","Cell-centred halo exchange delivers the geometrically adjacent cell",
  "For any two face-connected blocks with matching face dimensions, any face, any orientation and any number of ghost layers, after communicate() every halo cell of a cell-centred array behind that face holds the value of the neighbour's interior cell that the orientation says is adjacent (layer g behind the face gets the g-th interior layer of the neighbour).",
  "all block sizes, ghost-layer counts, faces, orientations, array contents and halo cells",
  "48 orientations times 6 faces times all sizes and layers; tests check a few coordinates",
  "src/peregrinepy/mpiComm/communicate.py","src/peregrinepy/multiBlock/solverFace.py:_setCommBuffers","src/peregrinepy/multiBlock/solverFace.py:_setOrientFunc")
p("C07","Node halo exchange delivers the geometrically adjacent node",
  "Same as the cell-centred exchange for node arrays x,y,z, where the shared face plane of nodes is skipped: halo layer g holds the neighbour's node at distance g from the shared plane.",
  "all block sizes, ghost-layer counts, faces, orientations, array contents and halo nodes",
  "off-by-one in the node offset only shows for particular face/layer/orientation combinations",
  "src/peregrinepy/mpiComm/communicate.py","src/peregrinepy/multiBlock/solverFace.py:_setCommBuffers")
p("C08","First-halo-only exchange fills exactly the first halo layer",
  "For the variables exchanged only in the first halo (dqdx, dqdy, dqdz, phi) the single layer sent is the neighbour's first interior layer and the single layer written is the halo layer touching the face, for every face, orientation and number of ghost layers.",
  "all faces, orientations, sizes, ghost-layer counts",
  "the selected index differs per face side and per list reversal",
  "src/peregrinepy/multiBlock/solverFace.py:_setCommBuffers")
p("C09","Halo exchange never touches interior data",
  "An exchange writes only halo layers of faces that have a neighbour; all interior cells/nodes and the halos of boundary faces keep their values.",
  "all blocks, faces, orientations and contents",
  "absence of a write cannot be sampled",
  "src/compute/utils/sendRecvBuffer.cpp","src/peregrinepy/mpiComm/communicate.py")
p("C10","Sent and received buffers have the same shape",
  "For every pair of connected faces with matching dimensions, the oriented send buffer has exactly the shape of the partner's receive buffer.",
  "all sizes, faces, orientations, ghost-layer counts and component counts",
  "a mismatch corrupts or hangs MPI only for some orientation",
  "src/peregrinepy/multiBlock/solverFace.py:_setCommBuffers")
p("C11","Message tags match the two ends of a connection and never collide",
  "The tag a face sends with equals the tag its partner face receives with, and two different faces of a rank never post receives with equal tags.",
  "all block numberings and connectivities that are symmetric",
  "collisions depend on the global numbering",
  "src/peregrinepy/multiBlock/solverFace.py:_setCommBuffers")
p("C12","communicate() cannot deadlock",
  "For every symmetric connectivity, every distribution of blocks over ranks, every list of variables and every MPI scheduling, including fully synchronous sends, every rank completes communicate().",
  "all topologies, distributions, variable lists and interleavings",
  "deadlocks depend on the schedule and on message-buffering behaviour",
  "src/peregrinepy/mpiComm/communicate.py")
p("C13","The result of communicate() does not depend on the schedule",
  "Under every interleaving and message delay, each receive gets the message of its partner face for the same variable, so the data placed is the same in every execution.",
  "all interleavings, topologies and distributions",
  "races do not reproduce in tests",
  "src/peregrinepy/mpiComm/communicate.py")
# ---------------------------------------------------------------- grid creation
p("C14","Cube connectivity is symmetric and geometric",
  "For every number of blocks in each direction and every choice of periodic directions, block (i,j,k)'s neighbours set by multiBlockCube are exactly the adjacent blocks (wrapping only in periodic directions), the relation is symmetric face to opposite face, and boundary faces have no neighbour.",
  "all block-count triples and periodic flags",
  "tests use a handful of decompositions",
  "src/peregrinepy/grid/create.py:cubicConnectivity","src/peregrinepy/grid/create.py:multiBlockCube")
p("C15","Adjacent cube blocks share identical face nodes",
  "For every decomposition, the nodes of the last plane of a block coincide with those of the first plane of its neighbour, and the blocks together tile the requested box.",
  "all decompositions, sizes, origins and lengths",
  "floating literals in tests hide systematic gaps",
  "src/peregrinepy/grid/create.py:cube","src/peregrinepy/grid/create.py:multiBlockCube")
p("C16","Periodic span of a periodic cube is the domain length",
  "When multiBlockCube is asked for a periodic direction, the translation attached to the periodic faces is the full length of the domain in that direction, so that low-face nodes shifted by it coincide with the high-face nodes.",
  "all block counts and lengths",
  "single-block tests cannot distinguish block length from domain length",
  "src/peregrinepy/grid/create.py:multiBlockCube")
p("C17","multiBlockAnnulus accepts every decomposition",
  "For every number of blocks along the axis, radius and angle, multiBlockAnnulus builds the annulus without raising.",
  "all block-count triples",
  "the failing branch needs more than one axial block",
  "src/peregrinepy/grid/create.py:annulus","src/peregrinepy/grid/create.py:multiBlockAnnulus")
p("C18","Halo generation extrapolates and leaves the block interior alone",
  "generateHalo never changes interior nodes; the face halo nodes are reflections of interior nodes about the face plane, so that on a uniformly spaced grid the halo continues the grid uniformly.",
  "all block sizes, ghost counts and coordinates",
  "every size and mask combination cannot be enumerated",
  "src/peregrinepy/grid/generateHalo.py")
# ---------------------------------------------------------------- metrics
p("C19","Cell faces close",
  "For every hexahedral cell, however distorted, the six outward face-area vectors computed by the metrics sum to zero.",
  "all node coordinates of all cells of all blocks",
  "an algebraic identity over the reals",
  "src/peregrinepy/grid/metrics.py:metrics")
p("C20","Volumes and transformation metrics are exact on affine cells",
  "For every parallelepiped cell the computed cell volume equals the determinant of its edge vectors (clipped from below at 1e-16), and the metric terms are the exact inverse Jacobian; the volumes of the cells of a box add up to a boundary expression.",
  "all edge vectors with positive volume (above the clip)",
  "continuous input space",
  "src/peregrinepy/grid/metrics.py:metrics")
p("C21","Face normals are unit vectors and areas non-negative",
  "Every face area is at least the clip value and every face with area above the clip has a unit normal equal to its area vector divided by its area.",
  "all node coordinates",
  "continuous input space",
  "src/peregrinepy/grid/metrics.py:metrics")
p("C22","Gradients are exact for linear fields",
  "On affine grids the second- and fourth-order gradient operators return exactly the gradient of every field linear in x,y,z whenever the cells have at least the clip volume 1e-16; in smaller cells they return exactly that gradient times the cell volume over 1e-16 (one hundredth of it on cubes of one micrometre).",
  "all affine grids, all linear fields, all cells",
  "continuous input space",
  "src/compute/utils/dq2FD.cpp","src/compute/utils/dq4FD.cpp","src/peregrinepy/grid/metrics.py:metrics")
# ---------------------------------------------------------------- flux application
p("C23","Discrete conservation",
  "For every block size, every set of face fluxes and every conserved component, the volume-weighted sum of the right-hand side over the interior equals the net flux through the block's outer faces; interior faces cancel exactly. It holds for the plain, the hybrid and the dissipative application.",
  "all block sizes, all flux and switch fields, all components",
  "sums over unbounded index sets",
  "src/compute/utils/applyFluxes.cpp")
p("C24","Conservation across block interfaces",
  "Fluxes through an interface shared by two blocks cancel in the total when the two blocks compute the same face flux up to orientation.",
  "all sizes and fluxes",
  "as above",
  "src/compute/utils/applyFluxes.cpp")
p("C25","Hybrid switching blends with complementary weights",
  "With hybrid shock handling the primary and secondary fluxes of a face enter both adjacent cells with weights 1-phi and phi for the same face switch phi, so a face switch in [0,1] gives a convex combination; phi=0 is purely primary and phi=1 purely secondary.",
  "all switch fields and fluxes",
  "continuous input space and both sides of each face",
  "src/compute/utils/applyFluxes.cpp:applyHybridFlux","src/peregrinepy/RHS.py")
p("C26","Free-stream preservation",
  "On every closed grid, a uniform flow gives a zero right-hand side for every advective scheme and for the viscous fluxes.",
  "all grids, all uniform states, all schemes",
  "needs every distorted grid",
  "src/compute/advFlux","src/compute/diffFlux/alphaDampingFlux.cpp","src/compute/utils/applyFluxes.cpp")
p("C27","Flux consistency",
  "Every advective scheme reduces to the exact Euler flux when the states on its stencil are equal.",
  "all states, all face vectors",
  "continuous input space",
  "src/compute/advFlux")
p("C28","Central schemes are symmetric",
  "Swapping the left and right states and reversing the face vector negates the flux of KEEP, KEEPpe, KEPaEC and central schemes, so that two blocks looking at a face from opposite sides compute the same transfer.",
  "all states and face vectors",
  "continuous input space",
  "src/compute/advFlux/KEEP.cpp","src/compute/advFlux/KEEPpe.cpp","src/compute/advFlux/KEPaEC.cpp","src/compute/advFlux/centralDifference.cpp")
p("C29","KEEP preserves kinetic energy",
  "The KEEP momentum flux is the mass flux times the arithmetic mean velocity plus the mean pressure force, so the convective terms create no kinetic energy: the discrete kinetic-energy balance of every cell telescopes.",
  "all states, all block sizes",
  "an identity for every state pair",
  "src/compute/advFlux/KEEP.cpp")
p("C30","HLLC picks the upwind flux in supersonic flow and resolves contacts",
  "The HLLC flux equals the left flux when all waves run right, the right flux when all waves run left, and a stationary isolated contact gives only the pressure flux.",
  "all states",
  "continuous input space with branches",
  "src/compute/advFlux/hllc.cpp")
p("C31","Rusanov dissipation bounds both wave speeds",
  "The dissipation speed of the Rusanov flux is at least |U|+c of each of the two states.",
  "all pairs of states",
  "continuous input space",
  "src/compute/advFlux/rusanov.cpp")
p("C32","Scalar dissipation acts along its own direction in each index direction",
  "The artificial dissipation added on a face depends only on the four cells across that face and vanishes when they are equal.",
  "all fields and the three index directions",
  "the i-direction hides index mistakes",
  "src/compute/advFlux/scalarDissipation.cpp")
# ---------------------------------------------------------------- switches, cfl, sponge
p("C33","Shock switches stay in [0,1]",
  "For positive pressure every shock switch value lies between 0 and 1 and is 0 for linear (Jameson) resp. constant fields.",
  "all positive pressure fields",
  "continuous input space",
  "src/compute/switches/jameson.cpp","src/compute/switches/vanAlbada.cpp","src/compute/switches/vanLeer.cpp")
p("C34","Time step respects both limits",
  "With variable time stepping the step never exceeds the configured maximum step and the resulting CFL number never exceeds the configured maximum; on every rank the same step is used.",
  "all states, limits and ranks",
  "depends on a global reduction over all cells",
  "src/peregrinepy/mpiComm/mpiUtils.py:getDtMaxCFL","src/compute/utils/cfl.cpp")
p("C35","The reported CFL is the maximum over all interior cells",
  "CFLmax returns an upper bound for every interior cell's spectral radius, attained by some cell.",
  "all block sizes and fields",
  "a maximum over an unbounded index set",
  "src/compute/utils/cfl.cpp")
p("C36","The viscous sponge multiplier stays between 1 and the configured multiplier",
  "Everywhere in the domain the viscosity is multiplied by a factor between 1 (before the sponge) and the configured multiplier (at and beyond its end).",
  "all points, origins, ends and multipliers",
  "needs points beyond the sponge end",
  "src/compute/utils/viscousSponge.cpp")
# ---------------------------------------------------------------- EOS
p("C37","Calorically perfect gas: primitive and conserved updates are inverse",
  "For every physical state and any number of species, computing conserved from primitive and then primitive from conserved variables returns the original state, and conversely.",
  "all species counts, all physical states",
  "continuous, unbounded dimension",
  "src/compute/thermo/cpg.cpp")
p("C38","Mass fractions are clipped to a valid composition",
  "After the equation of state runs on conserved variables, every mass fraction is in [0,1], they sum to at most one, and the implied last species is in [0,1].",
  "all inputs, all species counts",
  "unbounded inputs",
  "src/compute/thermo/cpg.cpp","src/compute/thermo/tpg.cpp")
p("C39","Primitive update keeps q and Q consistent",
  "After the equation of state runs on primitives, the stored mass fractions equal the stored partial densities divided by the stored density.",
  "all inputs",
  "only fails for over-full compositions",
  "src/compute/thermo/cpg.cpp","src/compute/thermo/tpg.cpp")
p("C40","Thermally perfect gas temperature inversion",
  "The temperature iteration is Newton's method on the internal energy with the exact derivative. It ends with the energy residual of its last evaluation at or below the tolerance or after 100 evaluations; the stored temperature is one further Newton step and reproduces the energy to the tolerance as well whenever cv is positive and varies by less than a factor of two over that step.",
  "all energies, compositions and iterates",
  "convergence behaviour over a continuous space",
  "src/compute/thermo/tpg.cpp")
p("C41","Cubic equation of state returns a root of its cubic",
  "The compressibility factor chosen satisfies the cubic polynomial exactly in both discriminant branches, and in the three-root branch it is the largest root.",
  "all coefficient values",
  "continuous input space with trigonometric branches",
  "src/compute/thermo/cubic.cpp")
# ---------------------------------------------------------------- time integration
p("C42","Explicit integrators realise their Butcher tableau",
  "For every right-hand side, rk1, rk2, rk3, rk34, rk4 and maccormack advance the state exactly as the Runge-Kutta method with the documented tableau.",
  "all right-hand-side functions, states and steps",
  "quantifies over functions",
  "src/peregrinepy/integrators","src/compute/timeIntegration")
p("C43","Order of accuracy",
  "On every linear autonomous system and every polynomial-in-time source of the appropriate degree each explicit integrator matches the exact solution's Taylor expansion to its advertised order.",
  "all linear operators, sources and steps",
  "quantifies over functions",
  "src/peregrinepy/integrators","src/compute/timeIntegration")
p("C44","Step bookkeeping",
  "After N steps with any integrator and any step sizes, the iteration counter has increased by N, the time by the sum of the step sizes, every block agrees with the solver object, and the in-step time equals the time.",
  "all integrators, histories of step sizes and N",
  "unbounded histories",
  "src/peregrinepy/integrators","src/peregrinepy/multiBlock/restart.py","src/peregrinepy/multiBlock/solver.py")
p("C45","Equilibria and linear invariants are preserved",
  "If the right-hand side vanishes at a state every explicit integrator leaves it unchanged for every step; if a linear functional vanishes on the right-hand side everywhere, every integrator conserves it.",
  "all right-hand sides, states, step counts",
  "quantifies over functions and histories",
  "src/peregrinepy/integrators","src/compute/timeIntegration")
p("C46","Strang splitting time levels",
  "During and after a Strang step the in-step time handed to boundary conditions equals the simulation time.",
  "all steps",
  "tests do not look at the stored in-step time",
  "src/peregrinepy/integrators/strang.py")
p("C47","Dual-time stepping keeps two consistent time levels",
  "After every dual-time step the stored older levels are the states one and two steps back, and the pseudo-time residual vanishes exactly when the second-order backward difference equals the spatial right-hand side.",
  "all histories of steps and all states",
  "unbounded histories",
  "src/peregrinepy/integrators/dualTime.py","src/compute/timeIntegration/dualTime.cpp")
p("C48","The implicit dual-time update solves its linear system",
  "Whenever no zero pivot is met, the in-place LU with pivoting returns the unique solution of the cell's linear system, for every number of equations.",
  "all matrices and right-hand sides, all sizes",
  "all matrices of all sizes",
  "src/compute/timeIntegration/dualTime.cpp:invertDQ")
# ---------------------------------------------------------------- boundary conditions
p("C49","Index ranges select exactly what they name",
  "For every block size and ghost count, the total range is every cell, the interior range is exactly the non-halo cells, the six face ranges are exactly the halo cells behind each face, and unknown selectors raise.",
  "all sizes, ghost counts and selectors",
  "boundary off-by-ones per face",
  "src/compute/rangeMap.cpp:getRange3")
p("C50","Boundary conditions fill all halo layers",
  "With one or two ghost layers (all the configurations the code can select) every boundary condition fills each halo layer of its face from the boundary data and the interior cells in line with it, reads only cells that exist, and writes nothing else.",
  "all ghost counts, sizes and faces",
  "layer indices accumulate across the loop",
  "src/compute/boundaryConditions","src/compute/rangeMap.cpp:getFaceSliceIdxs")
p("C51","Walls are impermeable",
  "For every wall type the face-averaged normal velocity after the inviscid wall condition is zero, speed and pressure are unchanged by the reflection; after the viscous condition no-slip walls have zero face velocity and moving walls the prescribed one.",
  "all states, all unit normals",
  "continuous input space",
  "src/compute/boundaryConditions/walls.cpp")
p("C52","Isothermal walls hold the wall temperature",
  "The temperature imposed by an isothermal wall makes the face value equal to the prescribed wall temperature.",
  "all states",
  "continuous input space",
  "src/compute/boundaryConditions/walls.cpp")
p("C53","Mass-flux inlet delivers the prescribed mass flux",
  "At a constant mass-flux inlet the face mass flux computed from face-averaged density and velocity equals the prescribed value in every component.",
  "all states with positive density",
  "continuous input space",
  "src/compute/boundaryConditions/inlets.cpp","src/peregrinepy/bcs/prepInlets.py")
p("C54","Supersonic exit produces admissible halo states",
  "At a supersonic exit halo pressure is between 0 and the interior value, temperature is non-negative and mass fractions are in [0,1].",
  "all interior states",
  "continuous input space",
  "src/compute/boundaryConditions/exits.cpp")
p("C55","Periodic rotation matrices are rotations",
  "The two rotation matrices of a rotational periodic face are orthogonal, inverse to each other and fix the axis, for every axis and angle the user may set.",
  "all axes and angles",
  "needs non-unit axes",
  "src/peregrinepy/multiBlock/gridFace.py:periodicAxis")
p("C56","Stagnation inlet uses the normal of its own face",
  "The stagnation inlet computes the inflow direction from the normals of the face it is applied to.",
  "all six faces",
  "tests use i-faces",
  "src/compute/boundaryConditions/inlets.cpp")
p("C57","Cubic-spline inlet is periodic and selects a valid interval",
  "For every time the interval index used by the cubic-spline inlet is a valid interval, the local time lies in [0, dt), and the signal repeats with period N*dt.",
  "all times, interval counts and interval lengths",
  "unbounded time",
  "src/compute/boundaryConditions/inlets.cpp")
# ---------------------------------------------------------------- config / set-up
p("C58","Frozen dictionaries reject unknown keys",
  "After freezing, setting or getting an unknown key raises, known keys can be read and written, and the key set never changes, for every sequence of operations.",
  "all operation sequences",
  "unbounded histories",
  "src/peregrinepy/misc/frozenDict.py")
p("C59","Config validation accepts exactly the consistent configurations",
  "A configuration passes validation iff it satisfies the documented consistency rules.",
  "all configurations",
  "product of all options",
  "src/peregrinepy/files/configFile.py:validateConfig")
p("C60","Enough ghost layers for every stencil",
  "For every accepted scheme combination the number of ghost layers is at least what every selected stencil reads, and at most two.",
  "all scheme combinations",
  "product of all options",
  "src/peregrinepy/multiBlock/__init__.py:howManyNG")
p("C61","Every listed advective scheme can be selected",
  "Every advective flux exported by the compute library can be selected as primary flux without an internal error.",
  "all scheme names",
  "requires the cross product of names and tables",
  "src/peregrinepy/multiBlock/__init__.py:howManyNG","src/compute/advFlux/bindingsAdvFlux.cpp")
p("C62","blocksForProcs parsing",
  "Reading back a blocksForProcs file written by the load balancer returns the same groups, comment and blank lines are ignored.",
  "all group lists",
  "unbounded inputs",
  "src/peregrinepy/readers/readBlocksForProcs.py","utilities/loadBalancer.py")
p("C63","A block distribution accepted at start-up is a partition",
  "If bootstrapCase accepts a blocksForProcs list then every block of the case is assigned to exactly one rank.",
  "all lists of lists",
  "the space of decompositions",
  "src/peregrinepy/bootstrapCase.py")
p("C64","Load balancer output is a partition",
  "Whenever the load balancer's own check passes the groups partition the blocks; in the minimum-processor mode no processor is loaded beyond the largest block.",
  "all block lists and sizes",
  "unbounded inputs",
  "utilities/loadBalancer.py")
# ---------------------------------------------------------------- IO
p("C65","Connectivity files round-trip",
  "Writing the connectivity of any multi-block and reading it back yields the same neighbour, orientation, boundary type and family for every face.",
  "all multi-blocks",
  "unbounded",
  "src/peregrinepy/writers/writeConnectivity.py","src/peregrinepy/readers/readConnectivity.py")
p("C66","Grid and restart files round-trip",
  "Flattening an array for output and reshaping it on input is the identity for every shape and ghost count; interior data survive a write/read cycle.",
  "all shapes and contents",
  "unbounded",
  "src/peregrinepy/writers/writeGrid.py","src/peregrinepy/readers/readGrid.py","src/peregrinepy/writers/writeRestart.py","src/peregrinepy/readers/readRestart.py")
p("C67","Restart read fills halos from the nearest interior cell",
  "After reading a restart into a solver block every halo cell equals the nearest interior cell.",
  "all shapes and contents",
  "unbounded",
  "src/peregrinepy/readers/readRestart.py")
p("C68","Species-sum check reports honestly",
  "checkSpeciesSum reports a problem exactly when some cell's mass fractions sum above one, and normalising leaves all sums at most one without touching valid cells.",
  "all fields",
  "unbounded",
  "src/peregrinepy/multiBlock/restart.py","src/peregrinepy/multiBlock/restartBlock.py")
# ---------------------------------------------------------------- chemistry / transport
p("C69","Chemistry conserves mass and elements",
  "For every mechanism and every set of reaction rates the species production rates sum to zero in mass, and each element is conserved, whenever molecular weights are sums of atomic weights.",
  "all rate vectors, all mechanisms",
  "quantifies over all thermochemical states",
  "src/compute/chemistry","utilities/ct2pgChem.py")
p("C70","Chemistry temperature source conserves energy",
  "The temperature source used in chemical sub-stepping balances the enthalpy released by the species sources.",
  "all states",
  "continuous input space",
  "src/compute/chemistry")
p("C71","Diffusive species fluxes sum to zero",
  "The corrected diffusive mass fluxes of all species, including the implied last one, sum to zero for every number of species.",
  "all species counts and gradients",
  "unbounded dimension",
  "src/compute/diffFlux/alphaDampingFlux.cpp","src/compute/diffFlux/diffusiveFlux.cpp")
p("C72","Viscous work is consistent with the viscous momentum flux",
  "The energy flux of the viscous terms equals face velocity dotted with the viscous momentum flux plus heat and species enthalpy flux.",
  "all states and gradients",
  "sign errors need a shear flow with heating",
  "src/compute/diffFlux/alphaDampingFlux.cpp")
p("C73","Binary diffusion table indexing is a bijection",
  "The packed triangular index used for binary diffusion coefficients maps each unordered species pair to a distinct slot inside the table.",
  "all species counts and pairs",
  "unbounded species count",
  "src/compute/transport/kineticTheory.cpp","src/peregrinepy/thermoTransport/kineticTheoryPoly.py")
p("C74","Mixture transport properties are positive and reduce to pure values",
  "For positive species properties and any composition the mixture viscosity and conductivity are positive, and for a pure gas equal that species' value.",
  "all species counts and compositions",
  "unbounded",
  "src/compute/transport/constantProps.cpp")
p("C75","Subgrid viscosity only adds dissipation",
  "The subgrid models never reduce viscosity or conductivity and add nothing in uniform flow.",
  "all states",
  "continuous",
  "src/compute/subgrid")
# ---------------------------------------------------------------- utilities / driver
p("C76","Cutting a block preserves its cells and nodes",
  "After cutting a block at any index the two parts together hold exactly the original cells, share one node plane, are connected to each other, and the outer neighbour points to the new part.",
  "all blocks, axes and indices",
  "unbounded",
  "utilities/cutGrid.py:cutBlock")
p("C77","Cut propagation reaches every connected block exactly once",
  "cutPath terminates and returns each block reachable across the cut plane once, with the axis and direction transported by the orientations.",
  "all connectivities",
  "graph traversal over arbitrary topologies",
  "utilities/cutGrid.py:cutPath")
p("C78","Rotated sector grids are consistently connected",
  "copyRotateSectorGrid produces symmetric connectivity for every sector grid and number of segments.",
  "all sector grids and segment counts",
  "unbounded",
  "utilities/copyRotateSectorGrid.py")
p("C79","Grid verification accepts all legal boundary types",
  "verify() does not reject a grid merely because a boundary face uses one of the boundary types the solver supports.",
  "all boundary types",
  "one missing name",
  "utilities/verifyGrid.py:verify","src/peregrinepy/multiBlock/topologyFace.py")
p("C80","Run loop performs the configured number of steps and writes at the configured cadence",
  "simulate() takes exactly niter steps unless a NaN is detected, and writes a restart after exactly those steps whose iteration number is a multiple of the interval.",
  "all iteration counts, intervals and NaN histories",
  "unbounded histories",
  "runPeregrine.py:simulate")
p("C81","Interpolation creates no new extrema",
  "Interpolating from one grid to another never produces values outside the range of the source data.",
  "all source and target data and all interpolants",
  "quantifies over interpolants",
  "src/peregrinepy/interpolation/blocksToBlock.py")
p("C82","Boundary-condition files are matched to faces by family and type",
  "Reading a boundary-condition file attaches to each face the entry of its family and raises when the type disagrees.",
  "all files and multi-blocks",
  "unbounded",
  "src/peregrinepy/readers/readBcs.py")
EXTRA = "/verif/tools/props_extra.py"
import os
if os.path.exists(EXTRA):
    exec(open(EXTRA).read())
ids = [x["id"] for x in P]
assert len(set(ids)) == len(ids)
with open("/verif/properties.jsonl","w") as f:
    for x in P: f.write(json.dumps(x)+"\n")
print(len(P))
