# PEREGRINE in Rocq: design

## What is modelled, and how

The code under /repo is numerical Python driving C++/Kokkos kernels.  The model is a set of
shallow Gallina files, one group per part of the code, in `rocq/theories`:

* `M_<topic>.v`  – the model: definitions only, each with a comment citing file and lines;
* `S_<topic>.v`  – where needed, the independent specification used in the statements;
* `L_<topic>.v`  – lemmas and proofs;
* `P_<topic>.v`  – the property theorems: statements closed by `exact`, `Print Assumptions`
  below each, and `Example`s showing that the hypotheses are met by a concrete case.

Representation choices (simplifications are repeated at each definition):

* floating point `double` -> exact real numbers `R` of Coq's standard library. Rounding,
  overflow, NaN and signed zero are NOT modelled; every numerical theorem is about exact
  arithmetic.  `fmax/fmin/fabs/sqrt/pow/exp/log` are `Rmax/Rmin/Rabs/sqrt/…`.
* `int` indices -> `Z` (no wrap-around: indices are far below 2^31 in the code).
* arrays (numpy, Kokkos views) -> total functions from indices; the index range that really
  exists is stated explicitly in each theorem (never relied on by a default value).
* Kokkos `parallel_for` over a range -> pointwise definition of the new array (every loop body
  modelled writes only its own (i,j,k) entry and reads arrays it does not write, or is
  modelled sequentially where it does not).
* Python exceptions / `assert` / `throw` -> `option`/result values.
* MPI -> an explicit small-step semantics of ranks, posted receives, (synchronous or buffered)
  sends, waits and barriers, with every interleaving.
* object mutation -> functions returning the new value.

## Properties: what is modelled and how each is proved

| id | model | proof method |
|----|-------|--------------|
| C01 C02 | `neighborOrientation`, `neighborNface` on digit lists | the domain (48 signed permutations x 6 faces) is finite: computation lifted by `forallb_forall`; spec = signed permutations acting on Z^3 |
| C03 | setters as partial functions, face objects as reachable states | case analysis + induction on setter sequences |
| C04 C05 | block lists, `getBlock`, `appendBlock` | induction on the number of appends; C05 refuted by witness if the early `IndexError` hits |
| C06-C10 | slice lists, orient functions (transpose/flip), extract/place as index maps | case split on orientation and face, `lia` for symbolic sizes/layers/ghost counts |
| C11 | tags | arithmetic |
| C12 C13 | small-step MPI semantics of `communicate` over arbitrary rank programs | progress + confluence argument: invariants over reachable states |
| C14-C17 | `cubicConnectivity`, `cube`, `multiBlockCube`, `annulus` | nonlinear integer arithmetic; real arithmetic; refutations by witness |
| C18 | `generateHalo` index formulas | real algebra, invariants on write sets |
| C19-C22 | `metrics` formulas cell by cell; `dq2FD` | ring/field |
| C23-C25 | `applyFlux`, `applyHybridFlux`, `applyDissipationFlux` over symbolic block sizes | induction on sums (telescoping) |
| C26-C32 | each flux kernel as a function of the stencil states | ring/field, case analysis |
| C33-C36 | switches, `CFLmax`, `getDtMaxCFL`, `viscousSponge` | real inequalities; max over lists |
| C37-C41 | `cpg`, `tpg`, `cubic` per-cell kernels, species as lists/functions | field, induction on species; trigonometric identity for the cubic |
| C42-C47 | integrators over an abstract state space (functions to R) and arbitrary RHS | algebra, induction on steps |
| C48 | LU kernel over n x n matrices as functions | loop invariants by induction on columns |
| C49 C50 | `getRange3`, `getFaceSliceIdxs`, the `firstHaloIdx -= plus*g` loops | `lia`; refutation for ng >= 3 |
| C51-C57 | per-cell BC kernels | ring/field/real inequalities |
| C58-C64 | `frozenDict`, `validateConfig`, `howManyNG`, parsers, bootstrap check, load balancer | induction, finite case analysis, refutations |
| C65-C68 | (de)serialisation to abstract file contents | list/array round-trip by induction |
| C69 C70 | stoichiometric tables extracted from the generated kernels | kernel computation on integer tables + linear algebra lemma |
| C71-C75 | diffusive flux, transport, subgrid kernels | induction over species, real inequalities |
| C76 C77 | `cutBlock`, `cutPath`, the cut loop of `cutGrid.py` on block lists | invariants of the work list, induction on the number of cuts, `lia`; refutation of the `maxSize` mode |
| C78 | `copyRotateSectorGrid.py` as list programs | induction on copies and blocks, arithmetic modulo the number of sectors; rotation algebra |
| C79 C112 | `verify`, `extractFace`, string reorientation of faces | finite case analysis over faces x orientations lifted to symbolic sizes; refutations |
| C80 C113 | `simulate` as a loop over an abstract step function; output directory as a finite map | loop invariant by induction on the iterations |
| C81 C114 C115 | `blocksToBlock`, `bounds`, `interpolate.py`; the scipy interpolant is a parameter with its convexity as hypothesis | induction on the search, convex-combination bounds |
| C82 | `readBcs` on parsed YAML values | characterisation of the accepted files, refutations |
| C83 | upwind kernels under exchange of sides and normal | field, case analysis on the wave-speed branches |
| C84 | halo exchange + flux kernel + `applyFlux` composed over any set of blocks | sums over blocks re-indexed by the face involution of C01/C02 |
| C85 C86 | `checkNan`, `getNumCells`, `getLoadEfficiency` on lists of ranks | induction on ranks, refutation |
| C87 C88 | per-cell thermo kernels | field; Newton fixed point is a hypothesis where the loop is not shown to converge |
| C89 C90 | integrators over abstract state and RHS, time-stamped boundary calls | convexity, induction on steps; traces of calls |
| C91 C92 | `invertDQ` matrix as the derivative of the conserved map; `initializeDualTime` | `derivable_pt_lim`, determinant by elimination |
| C93 | wall kernels composed with the flux kernels | ring/field |
| C94 | rotational periodic gradient kernels | ring with the rotation identities |
| C95 C96 | `validateConfig` composed with `setRHS`/`setIntegrator`/`howManyNG` | case analysis of the configuration strings |
| C97 | load balancer loop | invariant on the per-processor lists |
| C98-C100 | writers as sequences of file operations on an abstract disk, crash after any prefix | induction on operation prefixes; refutations |
| C101-C103 | generated chemistry kernels as tables + one evaluator | sum of (a-b)(ln a - ln b) terms; positivity; division by zero tracked |
| C104-C109 | diffusive kernels per face | ring/field, sum of squares |
| C110 C111 | `kineticTheory` kernel with its scratch arrays | invariant on scratch, algebra |
| C116 | `unifySolverGrid` as rounds of exchange over a block structure | induction on rounds; rigid-motion algebra |
| C117 | the hybrid switch and blended fluxes as per-face functions (M_FluxKernels, M_Control) | equality of the two sides' face values; counterexample when the switch differs |
| C118 | the whole flow right-hand side: exchange, boundary conditions, gradients, both fluxes, divergence (M_Rhs) | composition of the conservation theorems of the stages |
| C119 | `ct2pgChem.py` as a compiler from mechanism to straight-line code with an evaluator (M_Ct2pg) | correctness of the compiler, by induction on reactions |
| C120 C121 C122 | `generateTracePoints.py`, `tracePointCoprocessor.py`; files as lists of lines (M_Trace) | lists and folds; minimum of distances |
| C123 | the boundary-layer/channel grid generator (M_BlGrid) | geometric sums; monotonicity of layer heights |
| C124 C125 | `kineticTheoryUnityLewis.cpp`, `chungDenseGas.cpp` (M_Transport3) | unfolding against the published formulas written independently in the specification |
| C126 C127 C128 | `findUserSpData`, `completeSpecies`, `thtrdat` set-up; files as a partial map (M_Species) | case analysis on sources; lookup lemmas |
| C129 C130 | `gridpro2pg.py` parsers on text lines (M_GridPro) | list lemmas on the parsed tables |
| C131 C132 C133 | `icem2pg.py` (M_Icem) | as above, plus the orientation table |
| C134 C135 | `analyzeGrid.py`, automatic cutting (M_Analyze) | sums and extrema of lists; counterexamples |
| C136 | writing and reading the configuration (M_Config, M_ConfigWrite) | induction on sections and keys |
| C137 | cutting with coordinates (M_CutGrid) | geometry of slices; induction on the cuts |
| C138–C141, C146 | `chem_C2H4_Air_Red22.cpp` with its tables copied by `tools/` scripts (M_Red22*) | elimination proved correct in general (L_Elim) and instantiated; exact decimal arithmetic on tables by `vm_compute`, lifted to reals |
| C142 C143 | local pseudo time step and preconditioning velocity (M_Pseudo) | min/max bounds |
| C144 | file names with zero-padded numbers (M_Io) | lexicographic order of padded decimals |
| C145 | wall boundary conditions, gradient halos and both diffusive fluxes together (M_Bc, M_Diff) | mirror symmetry of the stencil |
| C147 | `kineticTheoryPoly.py`; polynomial fit and collision integrals as parameters (M_KtFit) | loop invariants of the double loop |
| C148 | `bounds.py`; the hull test as convex combination of the eight block corners (M_Hull) | convexity; counterexamples for curved blocks |
| C149 | the MUSCL reconstruction and limiter, with IEEE behaviour at zero denominators (M_FluxKernels) | bounds on the limiter |
| C150 | the fourth-order flux on polynomial data (M_FluxKernels) | exact algebra (`field`), error term computed in closed form |
| C151 | `prepInlets.py`, `prepExits.py`, `prepWalls.py` on dictionaries and saved arrays (M_Prep), composed with `readBcs` and the boundary kernels | induction on layers for the edge fill; list lemmas; composition with C53, C82 |
| C152 | `catalystCoprocessor.py` with VTK's grids as dimensions, points and named cell arrays (M_Catalyst) | invariant over the history of calls; the arrays as an association list without repetitions |
| C153 | the whole of `database/speciesLibrary.yaml` as rationals (M_SpLib, generated by tools/gen_splib.py), composed with `completeSpecies` and `tpg.cpp` | Bernstein coefficients of the quartics evaluated by the kernel on rationals, mean value theorem, sums over mixtures; intermediate value theorem for the refutation |
| C154 | the central flux kernels of M_FluxKernels on a line of cells (smooth gas in S_Order2) | closure of smooth functions, symmetric flux = even reflection, third-order mean value estimate; derivatives by Coquelicot's auto_derive (no axioms beyond the standard library's) |
| C155 | hllc, ausmPlusUp, rusanov (M_FluxKernels) through applyFlux (M_Flux) | each face passes non-negative amounts with their own compositions (donor form); convex combination over the six faces; closure of the cell's faces (C19) for Rusanov |
| C156 | dq2FD, dq4FD, metrics (M_Metrics) | on grids of equal parallelepipeds of volume at least the clip 1e-16: Taylor's theorem with Lagrange remainder (Coquelicot) along the grid line, then the metric identity of C22; what the clip does to smaller cells is stated exactly (C20_volume_clipped, C22_linear_scaled) |
| C157 | residual, printResidual and their use in dualTime.step (M_Residual; the reduction trees of M_Control) | a reduction over any tree is the sum over its leaves, a duplicate-free list of the interior cells is a permutation of the canonical one; the rounding of the printed digits is not modelled |
| C158 | alphaDampingFlux over a block (M_Diff, M_DiffBlock), metrics, dq2FD, applyFlux | with alpha = 1 the damping term cancels the averaged cell gradients on an axis-aligned face midway between its cells; sums over six neighbours; reversals exhibited with the gradients the code itself computes on a stretched and on a turned grid |
| C159 | getDtMaxCFL and CFLmax (M_Control) reading the metrics and states of every block, then rusanov/hllc blockFlux and one Euler step (M_FluxKernels, M_Flux) | C34 bounds step times (speed + sound speed)/width of every cell; on a rectangular grid the rate of a face is at most the sum of those of its two cells (Rusanov pairs each speed with the other side's sound speed), and the mass HLLC takes from a cell through a face is bounded by the cell's own rate; C155 concludes |
| C160 | writeArbitraryArray, parallelWriteArbitraryArray, registerParallelMetaData with an array name, arbitraryMetaData (M_Arbitrary over M_Io: numpy slices, F-order ravel, h5py assignment with its one-value broadcast) | induction over blocks and ranks that each block's group holds the ravelled parts; locations decompose into file, group and name; sizes of face and node arrays cannot fit. Refuted for idle ranks |
| C161 | file names of arbitraryMetaData against those of restartMetaData and readRestart/readGrid (M_Arbitrary, M_Io) | every assignment to the directory has the array's prefix; prefixes without a dot determine the name. Refuted for the array q |
| C162 | getGridFileH5Location and the geometry items of addBlockElem (M_GridLoc) against writeGrid (M_Io) | location = file ++ :/ ++ group ++ / ++ coordinate of the grid just written; later outputs keep files g.*. Refuted when lumping or halo choices differ |
| C163 | simulate (M_Run), parallelWriteRestart/readRestart (M_Io), the branches of the equation of state (M_Thermo), bootstrap in M_Restarted | simulation of the two event histories by induction; C29/C30 round trip composed with C37 per cell. For tpg everything but the energy, and that within the Newton tolerance (C40). Refuted for the exact tpg energy and for time-dependent boundary data (titme) |
| C164 | the ten advective kernels, scalarDissipation, dq2FD/dq4FD, diffusiveFlux/alphaDampingFlux species parts, applyFlux and its hybrid form | every kernel but muscl2hllc is a fixed weighting of the four cells' Q and q whose weights depend on the flow only (`weighted`), muscl2hllc reconstructs a constant as itself; composition through applyFlux; induction over the tableau rows |
| C165 | the same kernels, for two stencils of the same flow that show different species | the weights are those of the mass flux, so linearity gives the implied species; lifted through applyFlux and its two variants, which are linear with coefficients free of the component; muscl2hllc refuted by a supersonic three-species stencil |

Properties that the unchanged code violates are kept in the list; the model then carries a
theorem with suffix `_refuted` (a concrete witness), together with the strongest positive part
that does hold, and the MANIFEST status is "partial" with a note saying which part.

## Trusted base

1. Coq 8.16.1: its kernel (and `coqchk`, which re-checks the compiled files), `vm_compute` where a finite
   domain is computed.
2. The axioms of the standard library that `Print Assumptions` reports.  `ASSUMPTIONS.md` lists them theorem by
   theorem (generated by `tools/mkassump.py`).  Only these four occur, all from `Coq.Reals` / `Coq.Logic`:
   `ClassicalDedekindReals.sig_forall_dec`, `ClassicalDedekindReals.sig_not_dec`,
   `FunctionalExtensionality.functional_extensionality_dep`, `Classical_Prop.classic`.
   They come in with the construction of the real numbers; integer, list, string, MPI and file theorems are closed
   under the global context.  Coquelicot (derivatives, integrals in C154 and C156) and mathcomp contribute lemmas, no axioms.  No axiom, parameter or admitted statement is added; `Variable`/`Hypothesis` occur only
   inside sections and are discharged into the statements.
3. The transcription: that each definition of an `M_` file says what the cited lines of /repo do, under the
   simplifications below.  Nothing was run or compiled from /repo.  The j and k copies
   of fourthOrderKEEP, muscl2hllc and muscl2rusanov, modelled by one direction-parametric definition, are compared with the i copy by a
   script (`tools/directions.py`: no differences).  The chemistry
   tables `M_Chem_*.v` are transcribed by a script (`tools/chemtables.py`) from the C++ text.

## What is modelled, what is not

Modelled (file -> model file):

* topology, faces, blocks, orientation strings, `communicate`, buffers, send/recv kernels: `M_Topology`, `M_Halo`, `M_Mpi`.
* `grid/create.py` (cube, multiBlockCube, annulus, connectivity), `generateHalo`, `metrics`, `unifySolverGrid`,
  `gridFace.periodicAxis`: `M_Grid`, `M_Metrics`, `M_Unify`.
* all advective flux kernels, `applyFluxes`, switches, `cfl`, `viscousSponge`, `dq2FD`, diffusive fluxes, transport,
  subgrid models, thermo (cpg, tpg, cubic), boundary conditions: the corresponding `M_` files, one kernel per definition.
* integrators (explicit RK, Strang, dual time), `invertDQ`, `RHS.py`, `consistify.py` call order.
* `configFile.py`, `frozenDict`, `setRHS`/`howManyNG`, `readBlocksForProcs`, `bootstrapCase` check, `loadBalancer`.
* readers and writers (grid, connectivity, restart, dual-time history, metadata, parallel writer), `runPeregrine.simulate`.
* chemistry kernels C2H4_Air_Skeletal, GRI30, CH4_O2_FFCMY, the reduced C2H4_Air_Red22, the generic table evaluator and the generator `ct2pgChem.py`.
* utilities `cutGrid` (with `findInteriorNeighbor`), `copyRotateSectorGrid`, `verifyGrid`, `interpolate`, `loadBalancer`, `gridPro2pg`, `icem2pg`, `analyzeGrid`,
  `boundaryLayerGrid`, `generateTracePoints`; `tracePointCoprocessor`, `kineticTheoryPoly`, `thtrdat`, `completeSpecies`, `findUserSpData`; `readBcs` and the `prep_` functions.

Simplifications (each repeated at its definition):

* doubles are exact reals; `M_PI`-like literals are `PI`; a NaN is `None` where the code looks for NaNs (C85), otherwise absent;
  integers do not overflow; `int(float)` of an exact quotient is the integer quotient (cut index, load balancer).
* Coq's `/ 0` and `sqrt` of a negative number are total: theorems about kernels that divide carry the non-zero hypothesis
  (volumes, areas, densities, `magEdotN`), and where the claim is that no division by zero happens it is stated separately (C103).
* HDF5, npy, YAML and XML encodings are not modelled: a file is its tree of named arrays/strings; text files are ASCII.
* Kokkos execution spaces, mirrors and memory are not modelled (`createViewMirrorArray`, deep copies are identities).
  A `parallel_for` whose body uses per-thread scratch (kineticTheory) has one scratch per cell and C110 is about that sharing.
* `getattr`-style attribute forwarding ignores attributes not named in the model.
* `argmin`/`min` ties: any minimal choice, not only the first one.
* MPI: reliable, per-pair ordered, tag-matched; collective calls are functions of all ranks' values.
* verify: broadcasting of size-1 dimensions is an error; x, y, z are one array of triples.
* run loop: the step is total (does not raise) and the state abstract.
* interpolation: scipy's interpolant and Delaunay hull are parameters with their defining property as hypothesis.
* prep functions: an array assigned to a slice must have its shape (no broadcasting).
* unify: x, y, z travel together; rotation matrices come from the current span and axis.

Not modelled: plotting and post-processing utilities, the generated-by-hand tables of `MM_Tables.py`,
dead code (`communicateWholeView.py`, `myKEEP.cpp`), performance/timing code, the pybind11 layer, `setup.py`/CMake.
