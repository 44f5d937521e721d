p("C83","Upwind schemes do not care which side is called left",
  "Counting the cells of a face from the other side and reversing the face vector negates the flux of the Rusanov, MUSCL-Rusanov, AUSM+-up and HLLC schemes, so two blocks looking at a shared face compute the same transfer.",
  "all pairs of states, all face vectors",
  "depends on signs, branch choices and limiters over all states",
  "src/compute/advFlux/rusanov.cpp","src/compute/advFlux/ausmPlusUp.cpp","src/compute/advFlux/hllc.cpp","src/compute/advFlux/muscl2rusanov.cpp")
p("C84","Global conservation, end to end",
  "After one halo exchange, the volume-weighted sum over all cells of all blocks of all ranks of the advective right-hand side equals minus the flux through the unconnected block faces, for every symmetric scheme.",
  "all conforming multi-block grids with shared face nodes and equal handedness, all partitions over ranks, all states",
  "needs every connection, orientation and stencil at once",
  "src/peregrinepy/mpiComm/blockComm.py:communicate","src/compute/utils/applyFluxes.cpp","src/peregrinepy/RHS.py:RHS","src/peregrinepy/grid/metrics.py")
p("C85","A NaN or infinity anywhere stops every rank",
  "The value the NaN check returns is positive on every rank exactly when some interior entry of the conserved variables of some block of some rank is NaN or infinite.",
  "all states, all partitions over ranks, all reduction orders",
  "quantifies over all reduction schedules and data distributions",
  "src/compute/utils/checkNan.cpp:checkNan","src/peregrinepy/mpiComm/mpiUtils.py:checkForNan")
p("C86","Cell count and load efficiency",
  "The reported number of cells does not depend on the distribution of blocks over ranks; the load efficiency lies in (0,100] percent, is 100 only when all ranks hold equally many cells, and the processor named is one with the largest load.",
  "all block sizes and distributions over any number of ranks",
  "all distributions and rank counts",
  "src/peregrinepy/mpiComm/mpiUtils.py:getNumCells","src/peregrinepy/mpiComm/mpiUtils.py:getLoadEfficiency")
p("C87","The stored thermodynamic state obeys its equation of state",
  "After the primitive branch of the calorically perfect or real gas the stored pressure, density, temperature and composition satisfy the equation of state (ideal gas law; Peng-Robinson law with van der Waals mixing on the physical side v > b), momentum, energy and partial densities are coherent with the primitives, and the density is positive; for the calorically perfect gas gamma > 1 and the conserved branch returns positive pressure and temperature for every state with positive internal energy.",
  "all positive gas data, numbers of species, compositions, pressures and temperatures",
  "continuous space of states and gas data",
  "src/compute/thermo/cpg.cpp","src/compute/thermo/cubic.cpp")
p("C88","Thermally perfect and real gas: primitive to conserved and back is the identity",
  "For the thermally perfect gas and for the real gas (whenever its compressibility factor is defined) running the primitive branch and then the conserved branch returns the original primitives, conserved variables and derived quantities, for every temperature from 1 K.",
  "all gas data, compositions, velocities, pressures and temperatures >= 1",
  "continuous space of states; involves an iteration and a cubic root",
  "src/compute/thermo/tpg.cpp","src/compute/thermo/cubic.cpp")

p("C89","Strong stability carries over to whole runs",
  "Any convex set of states that every forward Euler step up to h0 keeps invariant (positivity, bounds, norms) is kept by every run of rk1, rk2, maccormack and rk3 with steps up to h0 and of rk34 with steps up to 2 h0.",
  "all right-hand sides, convex sets, histories of step sizes",
  "quantifies over functions, sets and unbounded histories",
  "src/peregrinepy/integrators","src/compute/timeIntegration")
p("C90","Boundary data belong to the stage they are used in",
  "Every right-hand side evaluated during a step uses boundary data of its own stage time.",
  "all integrators, step sizes and consecutive steps",
  "quantifies over histories; needs observation of internal times",
  "src/peregrinepy/integrators","src/peregrinepy/consistify.py","src/peregrinepy/RHS.py")
p("C91","The implicit matrix is the exact Jacobian and is always solvable",
  "For every cell holding an ideal-gas state the physical-time matrix assembled by the dual-time integrator is the derivative of the conserved variables with respect to the primitive ones, the full preconditioned matrix is nonsingular for every positive reference velocity and step ratio, and the kernel returns the unique solution.",
  "all ideal-gas mixtures (calorically or thermally perfect), states, step sizes, directions, numbers of species",
  "continuous space of states and directional derivatives",
  "src/compute/timeIntegration/dualTime.cpp:invertDQ")
p("C92","Dual-time start-up",
  "The first dual-time step from an initial condition is consistent: converging the pseudo-time iteration on du/dt = c advances the state by c dt.",
  "all states, step sizes, constant right-hand sides",
  "holds for all states and converged iterations, not for sampled ones",
  "src/peregrinepy/integrators/dualTime.py:initializeDualTime","src/compute/timeIntegration/dualTime.cpp")

p("C93","Nothing but momentum crosses a wall",
  "After the inviscid wall condition has filled the halo, the mass, energy and species fluxes every documented primary flux computes on the wall face are zero.",
  "all states, grids, wall types and central, KEEP, Rusanov and HLLC fluxes",
  "continuous input space; interplay of boundary condition and flux",
  "src/compute/boundaryConditions/walls.cpp","src/compute/advFlux")
p("C94","Gradients at rotational periodic faces are those of the rotated field",
  "At a rotational periodic face the halo gradients equal the gradients of the rotated neighbour field: for scalars and for the velocity vector.",
  "all linear fields, axes and angles",
  "continuous input space",
  "src/compute/boundaryConditions/periodics.cpp")
p("C95","What passes validation can be set up",
  "Every configuration that passes validation and names only existing schemes, models and integrators can be turned into a solver without an error.",
  "all configurations",
  "product of all options",
  "src/peregrinepy/files/configFile.py:validateConfig","src/peregrinepy/multiBlock/__init__.py:setRHS")
p("C96","The right-hand side is the one the configuration asks for",
  "For every configuration the advective right-hand side the solver evaluates is that of the configured primary flux, combined with the configured secondary flux in the configured shock-handling way.",
  "all configurations, blocks and states",
  "product of all options and all states",
  "src/peregrinepy/multiBlock/__init__.py:setRHS","src/peregrinepy/RHS.py")
p("C97","The limit on blocks per processor is respected",
  "With a limit on the number of blocks per processor no processor group the load balancer writes holds more blocks than the limit.",
  "all block lists, sizes, limits and modes",
  "unbounded inputs",
  "utilities/loadBalancer.py")
p("C98","The XDMF files describe what was written",
  "For every output, serial or parallel, each block's XDMF entry carries the time and extents of that block and every data location in it leads to an existing dataset of the announced size, however the blocks are spread over the ranks.",
  "all block lists, sizes, distributions, lumped or not, animated or not, with or without halos",
  "unbounded inputs and distributions",
  "src/peregrinepy/writers/writeMetaData.py","src/peregrinepy/writers/writeRestart.py","src/peregrinepy/writers/parallelWriter.py:registerParallelMetaData","src/peregrinepy/writers/writeArbitraryArray.py")
p("C99","A dual-time run restarts with its time history",
  "Restarting a dual-time simulation from an output restores all three time levels the second-order time derivative needs; an interrupted output does not silently combine levels of different outputs.",
  "all states, block lists and moments at which the program stops",
  "crash points and unbounded states",
  "src/peregrinepy/writers/writeDualTimeQnm1.py","src/peregrinepy/integrators/dualTime.py:initializeDualTime","runPeregrine.py:simulate")
p("C100","An interrupted output does not destroy the last restart",
  "If the program stops at any moment while it writes a restart, the previous restart can still be read.",
  "all moments during an output, all contents of the half-written files",
  "crash points cannot be enumerated by tests",
  "src/peregrinepy/writers/writeRestart.py","src/peregrinepy/writers/parallelWriter.py:parallelWriteRestart","src/peregrinepy/writers/writeMetaData.py:getVarFileName")
p("C101","Reactions obey the second law",
  "At every temperature and composition each reversible reaction of every mechanism runs in the direction that lowers the Gibbs energy and stands still exactly at its equilibrium, so a mechanism of reversible reactions never produces Gibbs energy.",
  "all mechanisms, reactions, temperatures and positive concentrations",
  "continuous input space; one wrong sign among thousands of table entries",
  "src/compute/chemistry/chem_C2H4_Air_Skeletal.cpp","src/compute/chemistry/chem_GRI30.cpp","src/compute/chemistry/chem_CH4_O2_FFCMY.cpp")
p("C102","Absent species are not consumed",
  "In every state a species whose mass fraction is zero has a non-negative source, so that for a small enough chemistry sub-step no mass fraction becomes negative.",
  "all mechanisms, states and species",
  "continuous input space",
  "src/compute/chemistry/chem_C2H4_Air_Skeletal.cpp","src/compute/chemistry/chem_GRI30.cpp","src/compute/chemistry/chem_CH4_O2_FFCMY.cpp")
p("C103","Reaction rates are finite in every state",
  "Whatever the mass fractions, at positive density and any temperature from 1 K every reaction rate is a number: no fall-off expression takes the logarithm of zero or divides zero by zero.",
  "all mechanisms, mass fractions, densities and temperatures",
  "singular states are a null set that random tests miss",
  "src/compute/chemistry/chem_C2H4_Air_Skeletal.cpp","src/compute/chemistry/chem_GRI30.cpp","src/compute/chemistry/chem_CH4_O2_FFCMY.cpp")
p("C104","Diffusive fluxes are antisymmetric in the two sides of a face",
  "Computing the viscous and diffusive flux of a face from the other side (cells swapped, area and normal reversed) gives exactly minus the flux, for every equation, so two blocks sharing a face exchange equal and opposite amounts.",
  "all species counts, states, gradients and face geometries, both diffusive kernels",
  "A numerical test compares a few faces in floating point; the claim is an identity for every state and number of species.",
  "src/compute/diffFlux/alphaDampingFlux.cpp","src/compute/diffFlux/diffusiveFlux.cpp")
p("C105","A uniform state has no diffusive flux",
  "If the two cells of a face hold the same primitive state and have zero gradients, every component of the diffusive flux is zero.",
  "all states, species counts and geometries, both kernels",
  "Must hold for every state and every face geometry.",
  "src/compute/diffFlux/alphaDampingFlux.cpp","src/compute/diffFlux/diffusiveFlux.cpp")
p("C106","Diffusive fluxes are exact for linear fields",
  "When cell values and gradients come from a linear field, the damped face gradient is that field's gradient on every grid whose centre line is not parallel to the face, so the momentum flux is the exact Newtonian stress and the heat flux the exact Fourier flux.",
  "all linear fields and non-degenerate face geometries",
  "Skewed and stretched grids are unlimited in number.",
  "src/compute/diffFlux/alphaDampingFlux.cpp","src/compute/diffFlux/diffusiveFlux.cpp")
p("C107","Alpha damping opposes odd-even oscillations",
  "For cells whose gradients vanish but whose values differ across a face, the alpha-damping flux always acts against the jump: momentum, heat and (with equal diffusivities) species flow from the larger to the smaller value, strictly so when the jump and the coefficient are nonzero.",
  "all jumps, geometries and species counts",
  "The sign must hold for every jump and direction.",
  "src/compute/diffFlux/alphaDampingFlux.cpp")
p("C108","The viscous stress only dissipates",
  "With nonnegative viscosity the viscous momentum flux contracted with the velocity gradient is never positive, and rigid rotation and pure dilatation produce no viscous momentum flux.",
  "all velocity gradients",
  "An inequality over a nine-dimensional space of gradients.",
  "src/compute/diffFlux/diffusiveFlux.cpp")
p("C109","Diffusive fluxes do not depend on the orientation of the coordinate system",
  "Rotating the grid, the velocities and their gradients rotates the momentum flux and leaves the energy and species fluxes unchanged.",
  "all rotations and reflections, states and face geometries",
  "Ranges over the whole orthogonal group.",
  "src/compute/diffFlux/alphaDampingFlux.cpp","src/compute/diffFlux/diffusiveFlux.cpp")
p("C110","Transport properties of a cell depend only on the state of that cell",
  "The kinetic-theory kernel gives two cells in the same state the same viscosity, conductivity and diffusivities, whatever other cells the same thread handled before.",
  "all cell sequences per thread, all compositions and both build variants",
  "Depends on the assignment of cells to threads; a single-cell unit test cannot see it.",
  "src/compute/transport/kineticTheory.cpp")
p("C111","A binary mixture diffuses with the binary coefficient",
  "For two species the mixture-averaged diffusivities of both species equal the tabulated binary coefficient of the pair divided by the pressure, whatever the composition.",
  "all binary mixtures that are not pure, temperatures and pressures",
  "An identity over all compositions and molecular weights.",
  "src/compute/transport/kineticTheory.cpp")
p("C112","Grid verification compares every point with its partner","verify() returns True exactly for grids in which, at every connection and in every relative orientation, each face point coincides (to 1e-10, after periodic translation) with the point it is joined to, every connection is answered by its neighbour, and no block is left handed; it supports rotationally periodic grids once their data are read.","all grids, all 48 orientations, all six faces","48 orientations times six faces times arbitrary shapes and coordinates","utilities/verifyGrid.py:verify","utilities/verifyGrid.py:extractFace","src/peregrinepy/multiBlock/topologyBlock.py")
p("C113","The restart directory after a run",
  "With animated restarts the directory holds, for every scheduled step, a file of that number with that step's state; otherwise the one file holds the last scheduled step; a run stopped by the NaN check leaves the state it stopped with as number 99999999; and a stopped run still leaves the last good restart.",
  "all run lengths, intervals, NaN histories, block numberings and earlier contents of the directory",
  "Depends on the interleaving of unboundedly many scheduled writes with the stop.",
  "runPeregrine.py:simulate","src/peregrinepy/writers/writeRestart.py","src/peregrinepy/writers/parallelWriter.py")
p("C114","Interpolation looks in every source block that could contain a target point",
  "For each target block the search lists every source block containing one of its points; the verbose search lists exactly these.",
  "all source and target grids and all hulls contained in their bounding box",
  "Ranges over all pairs of grids.",
  "src/peregrinepy/interpolation/bounds.py")
p("C115","Interpolated flow fields stay in range",
  "Interpolating a restart keeps every primitive inside the range of the source blocks used, mass fractions sum to at most one and stay within the source range, and a target block outside the whole source grid is reported.",
  "all source and target multi-blocks, interpolants and species counts",
  "Quantifies over interpolants, data and numbers of species.",
  "utilities/interpolate.py","src/peregrinepy/interpolation/blocksToBlock.py")

p("C116","Unified halo nodes match the neighbours' grid, across periodic faces too",
  "After unifySolverGrid, interior nodes are where they were; every face-halo node of a connected face is at the position of the neighbour's interior node that occupies the same place in the glued index spaces, moved back (low face) or forward (high face) by the periodic span along, or about, the periodic axis if the face is periodic; and on grids whose connectivity is regular along edges the edge and corner halo nodes are consistent too (for a uniform multi-block box: all halo nodes continue the uniform grid).",
  "all multi-block grids with reciprocal connectivity, any orientation, rank distribution, halo width, translational and rotational periodic faces",
  "needs every combination of orientations, periodic pairs and edge neighbours, and an induction over the three exchange rounds",
  "src/peregrinepy/grid/unifySolverGrid.py:unifySolverGrid","src/peregrinepy/multiBlock/gridFace.py:periodicAxis","src/peregrinepy/multiBlock/solverFace.py:s0_")
p("C117","Hybrid schemes conserve across block interfaces",
  "With a hybrid scheme (primary flux blended with a secondary one by a shock switch), after the halo exchanges the volume-weighted change of every conserved quantity summed over all blocks is minus the outflow of the blended flux through the unconnected faces, whatever the orientation of the connections.",
  "all conforming multi-block grids, kernels, states and switch values",
  "needs every orientation of every connection and every state; single-block tests have no interface",
  "src/peregrinepy/RHS.py:RHS","src/peregrinepy/consistify.py:consistify","src/compute/utils/applyFluxes.cpp:applyHybridFlux","src/peregrinepy/mpiComm/communicate.py","src/compute/switches")
p("C118","The whole flow right-hand side is conservative over all blocks",
  "Advective plus diffusive fluxes, with properties and gradients exchanged and boundary conditions applied as in a step, change every conserved quantity summed over all blocks only by the outflow through unconnected faces.",
  "all conforming multi-block grids with shared halo nodes (up to periodic translation), all symmetric advective kernels, both diffusive kernels, all states, gradients and pointwise property models",
  "sums over arbitrarily many blocks and all relative orientations; involves two exchanges and boundary updates in between",
  "src/peregrinepy/RHS.py:RHS","src/compute/diffFlux/alphaDampingFlux.cpp","src/compute/diffFlux/diffusiveFlux.cpp","src/compute/utils/applyFluxes.cpp","src/peregrinepy/mpiComm/communicate.py")
p("C119","The generated chemistry kernel computes the mechanism it was generated from",
  "For a mechanism of Arrhenius, third-body, Lindemann and Troe reactions, the kernel text written by ct2pgChem, when run on any temperature, concentrations and Gibbs energies, gives for each reaction the law of mass action with that reaction's rate (forward minus reverse by equilibrium) and for each species its molecular weight times its net production, and mass is conserved when every reaction balances; a reaction without net change is refused.",
  "all mechanisms, species counts, orders, temperatures, concentrations and Gibbs energies",
  "ranges over all mechanisms and all states; generated text is only ever compiled for a few mechanisms",
  "utilities/ct2pgChem.py:ct2pgChem","utilities/ct2pgChem.py:rateConstString","utilities/ct2pgChem.py:intOrFloat")
p("C120","Trace point collections are the points asked for",
  "A line is n equally spaced points including both ends; a plane is the n01 x n02 equally spaced points of the parallelogram p0, p1, p2; every point carries the heading of its collection as its tag; unsupported collections raise.",
  "all collections, corners and counts",
  "ranges over all corners and counts",
  "utilities/generateTracePoints.py:createLine","utilities/generateTracePoints.py:createPlane","utilities/generateTracePoints.py:getPointsTagsFromInput")
p("C121","Every trace point inside the grid is written with the block it lies in and the nearest cell",
  "The trace point file lists, in order, each requested point that lies in some block with the first block containing it, a cell of it no other of which is nearer, and the point's tag; points in no block are dropped.",
  "all grids, point lists and tags",
  "ranges over all grids and points",
  "utilities/generateTracePoints.py:generateTracePoints","src/peregrinepy/grid/gridBlock.py:computeMetrics","src/peregrinepy/interpolation/bounds.py:ptsInBlkBounds")
p("C122","Trace files record the probed cells at every due step",
  "With tracing switched on, every trace point of this rank's blocks has a file with a title for each column; after any history of steps the file has gained exactly one row, time and primitive variables of the cell, for each step whose number is a multiple of niterTrace; existing files are appended to.",
  "all block sets, trace points, intervals, histories and existing files",
  "depends on unbounded histories and on the distribution of blocks over ranks",
  "src/peregrinepy/coproc/tracePointCoprocessor.py:tracePointsCoprocessor","src/peregrinepy/coproc/pgCoprocessor.py:coprocessor","src/peregrinepy/multiBlock/topology.py:getBlock")
p("C123","The boundary-layer and channel grid has the heights, growth and resolution asked for",
  "The wall-normal points rise strictly from 0 to the height asked for (a channel symmetrically to 2 delta); the viscous sublayer is uniform up to y+ = 5 and the buffer layer ends at y+ = 30; spacings grow by the given rates and nowhere exceed the core spacing; the horizontal spacings do not exceed the requested ones; the loops end for every growth rate above one.",
  "all Reynolds numbers, growth rates, spacings and domain sizes",
  "ranges over all inputs; the loops and int() truncations depend on them",
  "utilities/boundaryLayerGrid.py:ptsWithGR","utilities/boundaryLayerGrid.py:growToDy")
p("C124","Kinetic-theory transport with unity Lewis number follows the fitted tables",
  "Each cell's viscosity and conductivity are the mixing rules applied to the species values of the fitted tables at the cell's own temperature and composition, whatever cells were computed before; all species diffuse with the heat diffusivity; all values are positive.",
  "all tables, species counts, cells, compositions and orders of cells",
  "ranges over all states and over the history of cells per thread",
  "src/compute/transport/kineticTheoryUnityLewis.cpp:kineticTheoryUnityLewis","src/peregrinepy/thermoTransport/kineticTheoryPoly.py:kineticTheoryPoly")
p("C125","Dense-gas transport is the correlation of Chung et al.",
  "For one species the kernel stores the viscosity and conductivity of the published correlation with its published constants; in a mixture the conductivity lies between the species values, the viscosity is positive, and all species diffuse with the heat diffusivity.",
  "all species data, temperatures, densities, heat capacities and compositions",
  "an identity between formulas over a continuum of states",
  "src/compute/transport/chungDenseGasUnityLewis.cpp:chungDenseGasUnityLewis","src/peregrinepy/thermoTransport/chungDenseGas.py:chungDenseGas","src/peregrinepy/thermoTransport/chungConstants.py")
p("C126","Species properties come from the user, failing that from the library",
  "For every property, the solver's array has one entry per species in the order given, equal to the user's value where one is given and to the library's otherwise; a species with neither stops the set-up; a species named without data takes everything from the library.",
  "all species lists, user files, libraries and properties",
  "ranges over all inputs and libraries",
  "src/peregrinepy/thermoTransport/completeSpecies.py:completeSpecies","src/peregrinepy/thermoTransport/thtrdat.py:thtrdat","src/peregrinepy/misc/createViewMirrorArray.py:createViewMirrorArray")
p("C127","The species file is the first found of input directory, working directory, database, given path",
  "The species file read is the first existing of inputDir/name, ./name, the package database's name and name itself; none existing is an error; a list of names needs no file.",
  "all file systems, configurations and names",
  "ranges over all file-system contents",
  "src/peregrinepy/thermoTransport/findUserSpData.py:findUserSpData")
p("C128","Every species array a selected kernel reads has been set up",
  "For every accepted configuration, each compute function the solver calls (equation of state, transport, chemistry) reads only species arrays that were created, and the mechanism has as many species as the run.",
  "all accepted combinations of equation of state, transport, chemistry and species",
  "ranges over all combinations of settings",
  "src/peregrinepy/thermoTransport/thtrdat.py:thtrdat","src/peregrinepy/multiBlock/__init__.py:setConsistify","src/peregrinepy/multiBlock/__init__.py:setRHS","src/compute/transport/chungDenseGasUnityLewis.cpp","src/compute/chemistry")
p("C129","Labels and connectivity of a GridPro grid carry over",
  "Every face of the converted grid has the neighbour and orientation of the GridPro connectivity file (none where GridPro writes 0), and the family and boundary type its surface's label names.",
  "all property and connectivity files, family dictionaries, blocks and faces",
  "ranges over all files and labels",
  "utilities/gridPro2pg.py","src/peregrinepy/multiBlock/topologyFace.py:bcType")
p("C130","The two sides of a GridPro periodicity are told apart",
  "Of the two faces joined by a periodicity, the one whose image under the positive shift (or rotation) is the other becomes Low and the other High, with the span and axis of their own family; faces that do not match stop the conversion.",
  "all grids, spans, axes, families and face orientations",
  "ranges over all geometries",
  "utilities/gridPro2pg.py","src/peregrinepy/multiBlock/topologyFace.py:periodicAxis","utilities/verifyGrid.py:extractFace")
p("C131","Connectivity of an ICEM grid carries over",
  "Every interior face of the converted grid names the adjacent domain (numbered from 0) and the true orientation of the joint, whatever signs and order ICEM lists the directions in; the two blocks of a joint name each other's faces with inverse orientations; lines out of order stop the conversion.",
  "all blocks, faces, orientations, direction listings and point ranges",
  "48 orientations x all listings x all section contents; a wrong sign only shows for some of them",
  "utilities/icem2pg.py","src/peregrinepy/multiBlock/topologyFace.py:neighborNface","src/peregrinepy/multiBlock/topologyFace.py:neighborOrientation")
p("C132","Boundary labels of an ICEM grid carry over",
  "Every labelled face of an ICEM block gets the family of its label and the family's boundary type, for every boundary type the solver offers; differently labelled parts of one face are not merged silently.",
  "all boundary sections, labels, ranges and boundary types",
  "ranges over all files and family dictionaries",
  "utilities/icem2pg.py","src/peregrinepy/multiBlock/topologyFace.py:bcType")
p("C133","Periodic ICEM grids and both coordinate formats can be converted",
  "A periodic pair in the topology file becomes a periodic joint of the grid, and the domain files of the Multi-Block-Info format are read in the topology file's numbering.",
  "all topology files with a periodic section; all directories",
  "a statement about every input of a kind",
  "utilities/icem2pg.py","src/peregrinepy/multiBlock/topologyFace.py:bcType")
p("C134","Grid statistics are the statistics of the grid",
"The grid analysis reports the total number of cells of the grid; the number, the cells and the point counts of a largest and of a smallest block, the one with the lowest number among equals; the mean number of cells per block and the standard deviation, which is zero exactly when all blocks have the same number of cells. A grid with a block without cells is refused.",
"every grid whose blocks carry the numbers 0..n-1 in any list order, with any point counts",
"A test checks a few grids; the claim is about every assignment of sizes and every order of the blocks, including ties.",
"utilities/analyzeGrid.py:analyzeGrid","src/peregrinepy/multiBlock/topology.py:getBlock")
p("C135","Automatic cutting makes as few blocks as possible",
"Given a maximum block size, the cutting utility cuts the largest block the smallest number of times for which its points divided by the number of pieces fit the limit, along an axis for which the propagation of the cut meets the fewest blocks, and gives up only when the block cannot be cut that finely.",
"every grid, every limit below the largest block's size",
"The decision depends on the connectivity of the whole grid and on arithmetic of the limit; unit tests only see chosen grids.",
"utilities/cutGrid.py:__main__ (415-463)","utilities/cutGrid.py:cutPath","utilities/analyzeGrid.py:analyzeGrid")
p("C136","A configuration file written by the code reads back as the same configuration",
"The file written from a configuration holds every section and every setting exactly once with its value; reading that file yields the same value for every setting; and if the configuration had been validated, the file is accepted again by validation and validation changes nothing.",
"every configuration reachable from the default one by setting values",
"The set of configurations is infinite; a test writes a handful.",
"src/peregrinepy/writers/writeConfigFile.py:writeConfigFile","src/peregrinepy/readers/readConfigFile.py:readConfigFile","src/peregrinepy/files/configFile.py:validateConfig")
p("C137","Cutting a connected grid gives a connected grid",
"Cutting a block of a connected grid, whose joined faces coincide (directly or after a periodic translation), cuts every block the cut surface runs through at the corresponding index, keeps all points and all boundary conditions, and joins every piece to exactly the pieces it touches, with the right orientation; so the result is again a connected grid whose joined faces coincide, and cuts can be repeated. Rotational periodicity is treated like translational.",
"every connected grid, block, axis and index inside the block, and every sequence of cutting operations, for which the surface does not pass through one block in two different ways and distinct pieces have face centres further apart than the tolerance",
"The connectivity, the orientations and the order in which the search meets the faces range over all grids; a test can only try a few.",
"utilities/cutGrid.py:performCutOperations","utilities/cutGrid.py:findInteriorNeighbor","utilities/cutGrid.py:cutBlock","utilities/cutGrid.py:cutPath","utilities/cutGrid.py:extractCorners")
p("C138","The quasi-steady species of the reduced ethylene mechanism are in steady state",
"Whenever the reduced mechanism's rates are computed, each of the ten eliminated species (CH, CH2, CH2s, HCO, CH3O, H2CC, C2H3, C2H5, CH2CHO, nC3H7) is made exactly as fast as it is used over all 206 reactions. With oxygen present the computation always succeeds: no rate and no pivot of the elimination divides by zero or takes the logarithm of a non-positive number, and the eliminated species get non-negative concentrations.",
"every pressure, temperature and composition (for success: every positive pressure, temperature of at least 1 K, non-negative composition with some oxygen)",
"The elimination is a hand-unrolled sparse 10 by 10 solve of 130 statements; agreement at sample states cannot exclude a zero pivot or an unbalanced species elsewhere.",
"src/compute/chemistry/chem_C2H4_Air_Red22.cpp:chem_C2H4_Air_Red22")
p("C139","The reduced ethylene mechanism conserves elements and mass",
"The sources of the 22 transported species carry no net atoms of any element and no net mass (with molecular weights that are sums of atomic weights), although ten intermediate species are eliminated; so does a sub-step, and so does the kernel's change of the partial densities for any number of sub-steps, as long as no intermediate composition has to be clipped.",
"every state, time step and number of sub-steps",
"Conservation must hold at every state; it depends on the elimination being exact.",
"src/compute/chemistry/chem_C2H4_Air_Red22.cpp:chem_C2H4_Air_Red22")
p("C140","The reduced ethylene mechanism does not consume what is not there",
"With oxygen present, a transported species with zero mass fraction has a non-negative source.",
"every pressure, temperature of at least 1 K, and composition with oxygen",
"The sign must hold for every composition on every face of the simplex.",
"src/compute/chemistry/chem_C2H4_Air_Red22.cpp:chem_C2H4_Air_Red22")
p("C141","Reactions of the reduced ethylene mechanism run down their Gibbs energy",
"If all transported species are present then so are the steady ones, and every reaction kept in both directions has a positive, zero or negative net rate exactly when its change of Gibbs energy, computed from the kernel's own thermodynamic fits, is negative, zero or positive.",
"every positive pressure, temperature of at least 1 K and strictly positive composition; every reaction not made one-way",
"Thermodynamic consistency of 200 reactions at every state.",
"src/compute/chemistry/chem_C2H4_Air_Red22.cpp:chem_C2H4_Air_Red22")
p("C142","Local pseudo-time steps respect every direction",
"In the dual-time scheme each cell's local pseudo-time step is positive and is the largest one for which, in every direction that has more than one cell, the step times the spectral radius is at most one half and (for viscous runs) the step times the kinematic viscosity is at most a tenth of the squared cell width; it is infinite exactly when there is no such direction; cells outside the interior keep the old value; the step does not depend on the units. The spectral radius meant is the convective one, |u.n|+c over the cell width.",
"every block, metrics, state with positive sound speed and widths, viscous or not",
"The bound must hold for every cell geometry and velocity direction.",
"src/compute/timeIntegration/dualTime.cpp:localDtau")
p("C143","The preconditioning velocity is the local speed between two limits",
"The reference velocity of the low-Mach preconditioner is the local speed, but at least a hundred-thousandth of the sound speed and at most the sound speed, and is a velocity: in other units of length and time it is the same velocity, with and without viscosity.",
"every state with positive sound speed, every cell geometry",
"The piecewise definition has to be right for every speed, also at the switches between its branches, and for every unit system.",
"src/compute/timeIntegration/dualTime.cpp:invertDQ")
p("C144","Output files sort in time order",
"Sorted by name, the result files of a run come in the order of their step numbers (and, for one file per block, then of their block numbers), as do the files holding the previous time level of the dual-time scheme. The number in the name is the step number with leading zeros.",
"every pair of step numbers below 10^8 and block numbers below 10^6, lumped or not, with or without step numbers",
"A test lists a few names; the claim is about the order of every two.",
"src/peregrinepy/writers/writeMetaData.py:restartMetaData","src/peregrinepy/writers/parallelWriter.py:parallelWriteRestart")
p("C145","Nothing diffuses through walls",
"After a wall's boundary condition has been applied to the cells and to the gradients, neither diffusive flux carries mass or species through the wall; through an insulating wall that does not move it carries no energy, and through one that moves only the power of the friction (whose sign is C72's subject); a slip wall feels no friction along it, and with the plain scheme none at all; at no-slip and moving walls the friction, and at isothermal ones the conducted heat, are those of the first interior cell's gradients. The damped scheme needs halo nodes mirrored about the wall, which is what the code generates.",
"every wall type, face, block, state, field of gradients, transport properties and grid",
"Needs the halo values, the halo gradients and the flux formula to fit together for every state and orientation of the face.",
"src/compute/boundaryConditions/walls.cpp","src/compute/diffFlux/diffusiveFlux.cpp:diffusiveFlux","src/compute/diffFlux/alphaDampingFlux.cpp:alphaDampingFlux","src/peregrinepy/RHS.py:RHS","src/peregrinepy/grid/generateHalo.py:generateHalo")
p("C146","The reduced ethylene mechanism has no jump at 1000 K",
"The thermodynamic functions from which the reduced ethylene mechanism builds its equilibrium constants are continuous in the temperature, except at 1000 K, where their two polynomials meet to within two parts in 100 000; so equilibrium constants do not jump as a cell is heated through 1000 K.",
"all 31 species of the mechanism and every positive temperature",
"A test at sampled temperatures and species can miss the one temperature and the one coefficient that matter.",
"src/compute/chemistry/chem_C2H4_Air_Red22.cpp:chem_C2H4_Air_Red22")
p("C147","Transport tables from kinetic theory are those of kinetic theory",
"The tables that the kinetic-theory transport models read are built from collision parameters that are the ones of Monchick and Mason for every pair, polar or not, whichever species is listed first; viscosities and diffusivities are positive; at the fitted temperatures the kernels reproduce a property whose scaled values a quartic in ln T can represent; the conductivity uses the species' molar heat capacity over Ru, so that a gas of atoms follows Eucken's law.",
"every list of species with plausible data, both gas models, any positive collision integrals, any least-squares fit",
"The tables come out of a double loop whose order matters, and hold for every species list; a test compares a few properties of one mixture.",
"src/peregrinepy/thermoTransport/kineticTheoryPoly.py:kineticTheoryPoly","src/compute/transport/kineticTheory.cpp:kineticTheory")
p("C148","A block is said to contain the points it contains",
"The test whether points lie in a block, used by the grid-to-grid interpolation and by the trace-point search, finds exactly the points in the region filled by the block's cells; it never reports a point outside the block's bounding box, finds the block's corners and the middles of its edges and faces, and does not depend on the position, units, or index directions of the block. So every target point inside some source block is inside a block that the interpolation uses.",
"every block with at least one cell, every point, every affine map of space",
"The region of points and the shapes of blocks are continuous families.",
"src/peregrinepy/interpolation/bounds.py:ptsInBlkBounds","src/peregrinepy/interpolation/bounds.py:findBounds","utilities/generateTracePoints.py:generateTracePoints")
p("C149","MUSCL reconstruction makes no new extrema",
"In both second-order upwind schemes the density, velocity, internal energy, pressure, sound speed and composition of the two face states lie between those of the cells on the two sides of the face (so stay positive and admissible), and fields that vary linearly get their exact value at the face from both sides.",
"every four-cell stencil of states with positive density and energy, both schemes, both sides of the face",
"The limiter is piecewise with divisions that can hit zero; the claim is about every stencil.",
"src/compute/advFlux/muscl2hllc.cpp:muscl2hllc","src/compute/advFlux/muscl2rusanov.cpp:muscl2rusanov")

p("C150","The fourth-order scheme is fourth-order accurate",
"On a uniform grid the divergence of the fourth-order fluxes differs from the exact one by an error of fourth order in the spacing; it is exact for the gradient of a pressure, and for the advection of a density or a composition by a uniform flow, that is a polynomial of degree four in the coordinate.",
"every polynomial flow, spacing and position",
"The order of accuracy is a limit over all spacings; a test samples a few grids.",
"src/compute/advFlux/fourthOrderKEEP.cpp:fourthOrderKEEP")

p("C151","Boundary values are the ones given",
"A boundary whose values are in the boundary-condition file is set up exactly when every value its type needs is there; the whole face then has these values, mass fractions not named being 0. With a profile, every interior cell of the face has the value of the face's own file and every edge cell that of the nearest interior cell, and likewise for the spline coefficients of the unsteady inlet. A mass-flux inlet passes the given mass flux on all six faces. The conditions read nothing that was not set, and a value that none of them can use is reported.",
"every type of wall, inlet and exit, every block, face, dictionary of values, directory of files and any number of ghost layers",
"Needs all types, faces, block shapes and dictionaries; the fill of the edges depends on the order of overlapping assignments.",
"src/peregrinepy/bcs/prepInlets.py","src/peregrinepy/bcs/prepExits.py","src/peregrinepy/bcs/prepWalls.py","src/peregrinepy/readers/readBcs.py:readBcs")

p("C152","In-situ visualisation is given the solution",
"The data set handed to the in-situ pipeline has each block of this process at its global number and nothing at the others. After any history of calls, every block's grid has the block's interior nodes as points and exactly the fields density, pressure, velocity, temperature and one mass fraction per species, one value per interior cell in VTK's numbering, equal to the device's solution at the last call for which data was requested; the mass fractions sum to one. No field is lost, whatever the species are called.",
"every number of blocks, block shape, number of ghost layers, species list and history of requested and declined calls",
"Needs every history of calls and every block shape and species list; the replacement of arrays by name depends on all earlier calls.",
"src/peregrinepy/coproc/catalystCoprocessor.py:catalystCoprocessor")

p("C153","The species library gives physical gases",
"Any list of distinct species of the library that comes with the code can be used with constant properties, and any without the two invented species as a thermally perfect gas. For every such mixture, every composition and every temperature from 200 K to 5000 K, the heat capacity is at least 2.47 gas constants, so that the ratio of heat capacities lies between 1 and 1.69 and the speed of sound is real, and the internal energy determines the temperature. Molecular weights are those of the formulas, and constant heat capacities those of the polynomials at 298 K.",
"every list of library species, every composition, every temperature in the range",
"Ranges over all temperatures (a continuum) and all mixtures of 56 species.",
"src/peregrinepy/thermoTransport/database/speciesLibrary.yaml","src/peregrinepy/thermoTransport/completeSpecies.py:completeSpecies","src/compute/thermo/tpg.cpp:tpg")

p("C154","The central schemes are second-order accurate",
"Along any line of evenly spaced cells, through faces of any orientation, what the central schemes (KEEP, KEEPpe, KEPaEC, central differences, fourth-order KEEP) take out of a cell per unit spacing differs from the derivative of the exact Euler flux by at most a constant times the square of the spacing, for mass, momentum, energy and every species.",
"every three times continuously differentiable gas with positive density and internal energy, every area vector, position, component and central scheme",
"A limit over all spacings for every smooth flow; a test samples a few grids and flows.",
"src/compute/advFlux/KEEP.cpp:KEEP","src/compute/advFlux/KEEPpe.cpp:KEEPpe","src/compute/advFlux/KEPaEC.cpp:KEPaEC","src/compute/advFlux/centralDifference.cpp:centralDifference","src/compute/advFlux/fourthOrderKEEP.cpp:fourthOrderKEEP","src/compute/advFlux/rusanov.cpp:rusanov")

p("C155","The first-order upwind schemes make no new extrema of composition",
"In one explicit step of HLLC or AUSM+up in which a cell gives away no more mass than it has, or of Rusanov in which the step times the wave rates of its faces is at most twice its volume, the density of the cell stays non-negative and each mass fraction stays between the smallest and the largest of the cell and its six neighbours.",
"every grid (any cell shapes), state with positive density and sound speed, species and step; the central schemes overshoot for every step, however short",
"Needs all states, grids and steps; overshoots appear only at particular fronts.",
"src/compute/advFlux/hllc.cpp:hllc","src/compute/advFlux/ausmPlusUp.cpp:ausmPlusUp","src/compute/advFlux/rusanov.cpp:rusanov","src/compute/utils/applyFluxes.cpp:applyFlux")

p("C156","Cell gradients of smooth fields are accurate to the order of the scheme",
"On a grid of equal parallelepipeds (of volume at least 1e-16), for a field that varies smoothly along a grid line, the derivative along that line given by the computed cell gradient differs from the exact one by at most M h^2/6 with the second-order scheme (M bounding the third derivative along the line) and M h^4/18 with the fourth-order scheme (M bounding the fifth), so that it converges as the grid is refined.",
"every such grid (any shape, skewness and handedness allowed by the metrics), every cell, spacing and smooth field",
"A bound over all smooth fields and spacings; a test samples a few.",
"src/compute/utils/dq2FD.cpp:dq2FD","src/compute/utils/dq4FD.cpp:dq4FD","src/peregrinepy/grid/metrics.py:metrics")

p("C157","The dual-time residual printed is the size of the last change over the whole run",
"When the iteration count is a multiple of the print interval, a dual-time step prints one heading and twenty numbered lines whose entry for each primitive is the square root of the sum, over every interior cell of every block of every rank, of the squared change of that primitive in the sub-iteration (and prints nothing otherwise); the number does not depend on how the blocks are distributed over the ranks or on how a reduction visits the cells, no cell changed by more than it, and it is zero exactly when no cell changed. The largest change, gathered alongside and not printed, is that of the rank that changes least.",
"every number of ranks and blocks, block size, reduction order, number of species and state",
"Depends on the decomposition and on the order of a parallel reduction, which a test cannot enumerate.",
"src/compute/timeIntegration/dualTime.cpp:residual","src/peregrinepy/integrators/dualTime.py:dualTime.step","src/peregrinepy/integrators/dualTime.py:printResidual")

p("C158","Heat flows from the hotter cell to the colder one",
"In a gas at rest the heat a cell receives through its faces is, face by face, the mean conductivity times area times temperature difference over distance: heat flows from hotter to colder cells, the hottest cell never gains and the coldest never loses any, a short enough step leaves the temperature within those of the cell and its neighbours, and in a binary mixture each species flows from where there is more of it to where there is less.",
"every grid, state, conductivity and stored gradient; holds on evenly spaced boxes along the axes and fails on stretched and on turned grids",
"Needs every temperature field and every grid; the reversal appears only where the gradient changes abruptly.",
"src/compute/diffFlux/alphaDampingFlux.cpp:alphaDampingFlux","src/compute/utils/dq2FD.cpp:dq2FD","src/compute/utils/applyFluxes.cpp:applyFlux")

p("C159","The variable time step keeps the first-order upwind schemes free of new extrema",
"On rectangular grids, with the variable time step and a CFL limit of at most 1/6, the time step the code computes from all its blocks is small enough that one Euler step of HLLC leaves every density non-negative and every mass fraction within the bounds of the cell and its six neighbours; for Rusanov the same holds if the limit is at most 1/(3(1+r)), r the largest ratio of the widths of neighbouring cells. A limit of 1 is not enough.",
"every number of ranks and blocks, reduction order, node spacing in the three directions, state with positive density and sound speed, species, and largest step; blocks at least two cells thick in each direction",
"The step depends on all cells of all ranks; instabilities appear only at particular states.",
"src/compute/utils/cfl.cpp:CFLmax","src/peregrinepy/mpiComm/mpiUtils.py:getDtMaxCFL","src/compute/advFlux/rusanov.cpp:rusanov","src/compute/advFlux/hllc.cpp:hllc","src/peregrinepy/grid/metrics.py","src/compute/utils/applyFluxes.cpp:applyFlux")

p("C160","An array written for viewing shows each cell its own value",
"Writing a cell-centred array - serially or in parallel, lumped or one file per block, animated or not, serially also with halos - succeeds over whatever files exist; the XDMF file then has, for each block, its number, extents and one scalar per component (named after the array, numbered if there are several), and each of them leads to a dataset of the announced extents whose values are those of the component in every cell shown, up to the file's precision. Arrays that live on faces, edges or nodes are refused rather than mislabelled. A parallel output in which some rank holds no block fails.",
"every list of blocks, array, number of components, distribution over ranks, order of writing, halo width and set of existing files",
"Depends on the decomposition, on the order in which ranks write and on every array shape; a test writes one file.",
"src/peregrinepy/writers/writeArbitraryArray.py:writeArbitraryArray","src/peregrinepy/writers/parallelWriter.py:parallelWriteArbitraryArray","src/peregrinepy/writers/parallelWriter.py:registerParallelMetaData","src/peregrinepy/writers/writeMetaData.py:arbitraryMetaData")

p("C161","Writing an array for viewing leaves restarts and grids alone",
"Whatever it is given, an output of the array called name only touches files called name.<...>; so every restart and every grid in the same directory reads as before, unless the array is called q or g. The array q (the primitive variables) has the file names of the restart: written beside it, it replaces the restart, and a program restarted from it reads zero for every variable, without an error.",
"every array name, list of blocks, set of existing files, iteration and choice of lumping and animation",
"Must hold for every set of files and every array; a test tries one array in an empty directory.",
"src/peregrinepy/writers/writeMetaData.py:arbitraryMetaData.getVarFileName","src/peregrinepy/writers/writeMetaData.py:restartMetaData.getVarFileName","src/peregrinepy/writers/writeArbitraryArray.py:writeArbitraryArray","src/peregrinepy/readers/readRestart.py:readRestart")

p("C162","The geometry in XDMF files leads to the nodes of the grid",
"Every coordinate location in an XDMF file - of the grid, of results, of an array - leads to a dataset of the announced extents with that coordinate of every node of its block, at once and after any later output of restarts or arrays, if the grid was written with the same lumping and the same choice about halos; with a different choice the location leads to no dataset, or to one of another size.",
"every list of blocks, halo width, lumping, halo choice and sequence of later outputs",
"Ranges over all histories of output into one directory; viewers are not part of the tests.",
"src/peregrinepy/writers/writeMetaData.py:gridMetaData.getGridFileH5Location","src/peregrinepy/writers/writeMetaData.py:gridMetaData.addBlockElem","src/peregrinepy/writers/writeGrid.py:writeGrid","src/peregrinepy/writers/writeRestart.py:writeRestart")

p("C163","A restarted run continues as the uninterrupted one",
"If a run is stopped after an iteration whose restart has been written, and a new run is started from that file - lumped or not, animated or not, written by any number of ranks in any order, with possibly other halo widths - then every interior cell starts with the primitives, conserved variables and thermodynamic quantities the old run had, with its iteration number and time, and the new run prints, steps, writes and checks what the old run would have done had it gone on.",
"every number of ranks and blocks, every composition and state the solver has made consistent, every pair of iteration counts before and after the restart, every output schedule",
"Ranges over all states, run lengths and restart points; bitwise continuation of a long run is never compared in the tests, and the time-dependent boundaries are not restarted at all.",
"src/peregrinepy/bootstrapCase.py:bootstrapCase","src/peregrinepy/readers/readRestart.py:readRestart","src/peregrinepy/runPeregrine.py:simulate","src/peregrinepy/consistify.py:consistify","src/peregrinepy/multiBlock/solver.py:solver","src/peregrinepy/writers/parallelWriter.py:parallelWriteRestart","src/compute/thermo/cpg.cpp:cpg","src/compute/thermo/tpg.cpp:tpg")
p("C164","A uniform mixture stays uniform",
"If in the cells a flux reads every species has the same mass fraction, then every advective flux, the scalar dissipation and the flux differences carry each species in proportion to the mass - its component is its mass fraction times the mass component - there are no gradients and no diffusive fluxes of species, so the rate of change of every partial density is its mass fraction times that of the density; and a time step of any integrator keeps the mass fractions as they were.",
"every advective flux and shock handling, every number of species and mass fractions, every velocity, pressure, temperature and density field, every face geometry and block, every integrator and sequence of step sizes",
"Ranges over all flow fields and compositions; a test can only run single fluxes on single states and compare within a tolerance.",
"src/compute/advFlux/KEEP.cpp:KEEP","src/compute/advFlux/fourthOrderKEEP.cpp:fourthOrderKEEP","src/compute/advFlux/rusanov.cpp:rusanov","src/compute/advFlux/ausmPlusUp.cpp:ausmPlusUp","src/compute/advFlux/hllc.cpp:hllc","src/compute/advFlux/muscl2hllc.cpp:muscl2hllc","src/compute/advFlux/scalarDissipation.cpp:scalarDissipation","src/compute/diffFlux/diffusiveFlux.cpp:diffusiveFlux","src/compute/diffFlux/alphaDampingFlux.cpp:alphaDampingFlux","src/compute/utils/applyFluxes.cpp:applyFlux","src/peregrinepy/RHS.py:RHS")
p("C165","It makes no difference which species is implied",
"The last species of a mixture is not transported: its flux is the mass flux less the fluxes of the others. Whichever species is left out, this is the flux the scheme would have computed for it, had it been transported, in the same flow - for every advective flux and for the scalar dissipation.",
"every advective flux, every number of species and every composition of the cells of the stencil, every velocity, pressure, temperature and density, every face geometry",
"Ranges over all states and compositions and over the choice of the species; tests fix one order of the species and one state.",
"src/compute/advFlux/KEEP.cpp:KEEP","src/compute/advFlux/KEEPpe.cpp:KEEPpe","src/compute/advFlux/KEPaEC.cpp:KEPaEC","src/compute/advFlux/centralDifference.cpp:centralDifference","src/compute/advFlux/fourthOrderKEEP.cpp:fourthOrderKEEP","src/compute/advFlux/rusanov.cpp:rusanov","src/compute/advFlux/ausmPlusUp.cpp:ausmPlusUp","src/compute/advFlux/hllc.cpp:hllc","src/compute/advFlux/muscl2rusanov.cpp:muscl2rusanov","src/compute/advFlux/muscl2hllc.cpp:muscl2hllc","src/compute/advFlux/scalarDissipation.cpp:scalarDissipation")
