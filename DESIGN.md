# Formal model of NATriuM (lettucecfd/NATriuM) in Coq 8.16.1

## Trusted base

* The Coq kernel (8.16.1) and `vm_compute`.
* Standard-library axioms only, as printed by `Print Assumptions` under every
  theorem in the `Prop*.v` files: for theorems about real numbers
  `ClassicalDedekindReals.sig_forall_dec`, `ClassicalDedekindReals.sig_not_dec`
  and `FunctionalExtensionality.functional_extensionality_dep` (through
  `Coq.Reals`; `Classical_Prop.classic` where lemmas about `sqrt`/`exp` or Flocq
  pull it in); theorems about state machines, configuration, command line and
  integers are closed under the global context.  The exact list per theorem is
  in section "Assumptions per theorem" below.
* The reading of the C++ sources: the theorems are about the Gallina model; each
  definition cites file and lines of `/repo`.
* `tools/gen_stencils.py` (and the other generators in `tools/`) which transcribe
  numeric tables from the sources; generated modules are committed.

## Global modelling decisions

* `double` is modelled by the real numbers `R` (exact arithmetic); numeric
  literals are exact decimals.  NaN/Inf do not exist: every division is guarded
  in the statement (`<> 0`) or is a distinct outcome.  Theorems are therefore about
  the algorithm, not about rounding.  Where rounding or formatting is the point
  (checkpoint time stamp, time accumulation) a dedicated model is used.
* Fixed-size arrays are functions `nat -> R` together with the loop bound of the
  C++ code; loops `for (i<n) acc += f(i)` are `sumf n f`.
* Exceptions, `natrium_errorexit`, failed assertions and undefined behaviour are
  distinct outcomes (`Throw`, `UB`), never totalised away.
* MPI is modelled by the list of node/dof sets owned by each rank; deal.II objects
  (triangulation, dof handler, sparse matrices, solvers) are modelled by the
  mathematical object they denote (cells, linear maps), or by section variables
  whose assumed behaviour is a hypothesis of the theorem.

## File layout (`rocq/theories`)

* `Prelude.v` - outcome type, finite sums, vectors.
* `Model*.v` / `StencilData.v` - model only, no proofs.
* `Spec*.v` - the small independent specifications used in theorem statements.
* `Proof*.v` - proofs.
* `Prop*.v` - only the property theorems (`exact lemma.`), the non-vacuity
  examples and `Print Assumptions`.

## Code modelled and not modelled

Paths below `src/library/natrium`.

| modelled | where | left out |
|---|---|---|
| `stencils/*` | `StencilData`, `ModelStencils` (generated tables) | nothing but virtual dispatch |
| `collision_advanced/*` (Equilibria, CollisionSchemes, CollisionOperator, CollisionSelection, AuxiliaryCollisionFunctions, Forces) | `ModelEquilibria`, `ModelCollision`, `ModelSelection`, `MRTData` | multistep and pseudopotential branches that always throw are outcomes only |
| `solver/CFDSolver.cpp` run loop, collide, iterative initialisation, residuals, output decisions, restart constructor; `CompressibleCFDSolver.h` run loop | `ModelRun`, `ModelCheckpoint` | assembling the problem, VTU output, statistics values |
| `solver/Checkpoint.cpp` | `ModelCheckpoint` | interpolation to a refined mesh, file system errors |
| `solver/SolverConfiguration.{h,cpp}` setters, getters, constructors, file reading | `ConfigTypes`, `ConfigData` (generated), `ModelConfig` | prepareOutputDirectory; text syntax of files |
| `utilities/CommandLineParser.{h,cpp}`; get_integrator_by_id, get_integrator_name, calculateTimestep of `utilities/CFDSolverUtilities.cpp` | `EnumData` (generated), `ModelCommandLine` | boost::program_options (a parameter); help output; getMinimumVertexDistance |
| `timeintegration/{RungeKutta5LowStorage,ThetaMethod,ExponentialTimeIntegrator,TimeIntegrator}`, `smoothing/VmultLimiter.cpp`, Galerkin branch of CFDSolver::stream, integrator construction | `ModelTimeIntegration` | block structure of the distributed vectors (one index range); linear solver, Pade approximation and matrix inversion (parameters); deal.II's own integrators |
| `smoothing/ExponentialFilter.{h,cpp}`, `smoothing/NewFilter.{h,cpp}` | `ModelFilter` | Legendre polynomials, shape functions, quadrature and FullMatrix::invert (parameters with contracts in `SpecFilter`) |
| `problemdescription/BoundaryCollection.h`, `ProblemDescription::checkBoundaryConditions`, `PeriodicBoundary::{getOppositeCell…,coordinatesAcross…}`, `make_periodicity_map_dg` | `ModelBoundary` | order of map keys, recursion to child cells, artificial cells, the deal.II collection of face pairs (input of the model), FullMatrix::invert (contract: right on the unit matrix) |
| `advection/SemiLagrangian.cpp` (`faceCrossedFirst`, `faceCrossedFirstWithoutMapping`, `fillSparseObject`, `reassemble`, `updateSparsityPattern`), `SemiLagrangianTools.cpp: shapeFunctionValue` | `ModelSemiLagrangian` | mapping, neighbours, finite element values and `child_cell_from_point` are inputs of the model; several processes; sorting of found points by cell; `getNeighborhood`, `recursivelySearchInNeighborhood` |
| `boundaries/BoundaryHit.h`, `SemiLagrangianBoundaryHandler::{addHit,operate,n_hits}`, `VelocityNeqBounceBack::calculateBoundaryValues`, `SLFirstOrderBounceBack`, `FEBoundaryValues::getPoint`, `CFDSolver::stream` (semi-Lagrangian branch) | `ModelWalls` | std::map is a binary tree with libstdc++'s find and insert; rebalancing is any order-keeping function; populations other than point values (`FEBoundaryValues::reinit`, gradients), multistep and limiter branches of stream, `applyToG` |
| decimal text of numbers | `ModelText` | ties, rounding of the decimal to the nearest double |
| `solver/DistributionFunctions.{h,cpp}` | `ModelDistribution.v`: layouts (owned and ghosted indices of each process), `at`, `atGhosted`, `reinit` (both), `compress`, `operator=`, `setF0`, `setFStream`, `updateGhosted`, `scaleF`, `transferFromOtherScaling`, `equals` | pending (not yet compressed) entries of Trilinos vectors; the messages behind `updateGhosted` (the ghosted view takes the value of the owner); `abs` is the real absolute value |
| ThermalWalls | boundaries/SLEquilibriumBoundary.h:67-183, boundaries/ThermalBounceBack.cpp:49-109, SemiLagrangianBoundaryHandler.cpp:112-164 applyToG, BoundaryTools.h:235-294, CompressibleCFDSolver.h stream/gStream (semi-Lagrangian) | velocities and temperatures prescribed at walls as functions of time and point; no limiter, no multistep scheme |
| SEDG | advection/SEDGMinLee.cpp:39-66, 76-79, 92-184, 320-536, 538-630, boundaries/VelocityNeqBounceBack.cpp:46-131 | deal.II finite element values, normals, weights, numbering and neighbours are parameters (record space); matrix and vector are lists of added entries; one process; no hanging nodes (not implemented in the code either); sparsity pattern not modelled |
| OldCollision | collision/CollisionModel.{h,cpp}, BGK.{h,cpp}, BGKStandard.cpp, BGKSteadyState.{h,cpp}, BGKStandardTransformed.cpp, BGKIncompressible.{h,cpp}, BGKRegularized.cpp, MRT.{h,cpp}, MRTStandard.cpp, MRTEntropic.{h,cpp}, ExternalForceFunctions.h:19-197, solver/CFDSolver.cpp:258-359, 1103-1328, 1417-1430 | one process; streaming is a parameter of the iterative initialisation; not modelled: KBCStandard, KBCCentral, EntropicStabilized, BGKMultistep, BGKPseudopotential, the order of degrees of freedom against quadrature points for FE_Q in the gradient initialisation; the D3Q19 forcing functions have no effect (they change a local copy) and are left out |
| Benchmarks | benchmarks/TaylorGreenVortex2D.{h,cpp}, TaylorGreenVortex3D.cpp, CouetteFlow2D.{h,cpp}, CouetteFlow3D.{h,cpp}, PoiseuilleFlow2D.cpp, PoiseuilleFlow3D.cpp, BackwardFacingStep2D.{h,cpp}, ShearLayer2D.{h,cpp}, Droplet2D.cpp, Riemann2D.h, SinusoidalShear2D.h, LubricationSine.h, AdvectionBenchmark.cpp:91-119, 216-268 | analytic functions, forces, grid transformations, inflow; not modelled: meshes beyond their boxes, other benchmark classes, error computation and output of AdvectionBenchmark |
| Errors | solver/BenchmarkCFDSolver.cpp:45-55, BenchmarkCompressibleCFDSolver.cpp, ErrorStats.{h,cpp} (CompressibleErrorStats.{h,cpp}: same code), utilities/Math.h:77-106, Math.cpp:28-74 | what ErrorStats reads from the solver is a record; quadrature points and weights of the cells are given; format of the table left out |
| Entropic | collision/KBCStandard.cpp, KBCCentral.cpp, EntropicStabilized.cpp, dataprocessors/PseudoEntropicStabilizer.cpp, CFDSolver.cpp:316-332, 606-621 | doubles are reals; infinity and NaN are UB; statistics written to files left out; matrices generated from the source by tools/gen_stabilizer.py |
| Multistep | collision/BGKMultistep.cpp, collision/MultistepCollisionData.h, CFDSolver.cpp:331-347, 686-744 | doubles are reals; reading the unset velocity variables is UB; streaming is any map of the populations applied alike to both histories |
| Statistics | solver/PhysicalProperties.cpp, solver/SolverStats.h (not calculateResiduals, see Run), solver/TurbulenceStats.cpp, dataprocessors/GlobalTurbulenceStats.cpp, dataprocessors/CompressibleTurbulenceStats.cpp | doubles are reals, NaN is None; FEValues given by tables per cell; files are lists of columns, names are constructors; caching of TurbulenceStats by iteration number left out |
| Multiphase | collision/BGKPseudopotential.cpp, .h, CFDSolver.cpp:354-362 | cells are lists of degrees of freedom; the exact difference and Guo terms as in OldCollision; log file output left out |
| Grads | boundaries/GradsFunction.h | GradsBoundary.{h,cpp} are commented out in the source |
| Prescribed | boundaries/BoundaryFlags.h, the function classes of BoundaryTools.h, FEBoundaryValues.h | time is part of the function object; one boundary point of one cell, shape functions by their values and derivatives |
| Lines | BoundaryTools.cpp:20-160, Math::is_angle_small, own_double_less | std::map as sorted list with search from the left; doubles are reals |
| Sparsity | SEDGMinLee::updateSparsityPattern, make_sparser_flux_sparsity_pattern, couplings of periodic boundaries and walls | one process, no local refinement, debug AssertDimension left out, pattern as list of added positions |
| MeshTools | make_periodicity_map_dg, extract_dofs_with_support_on_boundary, set_boundary_ids_at_hyperplane | one process; component masks left out; deal.II's child_cell_on_face is a parameter; the dof queries of the faces of unequal cells left out |
| Simulation | CFDSolver::run with the SEDG streaming: f_stream as one block vector, system matrix, system vector, RungeKutta5LowStorage::step, collision on all nodes | population 0 is not streamed (CFDSolver.cpp:402-411, 723-749); ghost exchange left out |
| SimulationSL | CFDSolver::run with the semi-Lagrangian streaming (CFDSolver.cpp:669-679) on domains without boundaries | matrix of ModelSemiLagrangian; no boundary hits, limiter or multistep data |
| `solver/CompressibleCFDSolver.h` (constructor, applyCheckpointToG, stream/gStream with the Galerkin scheme, calcQuarticEquilibrium, initializeDistributions) | `ModelCompressible` | shock sensor mask, ghost exchange and iterative initialisation left out; a degree of freedom that the process does not know makes the read throw |
| `examples/step-12/ShockVortexInteraction`, `examples/step-10/SodShockTube`, `examples/step-13/SmoothDensityPropagation`, `benchmarks/Riemann2D` (initial and analytic fields) | `ModelShocks` | real arithmetic; NaN (0/0 at the vortex centre, root or power of a negative number) is UB; grids and boundaries as text only |
| `examples/step-turbulentChannel/AdaptiveForcing` (apply, calculateRhoU, calculateForce, rescaleDensity), `FinalChannelStatistics::updateYValues` | `ModelForcing` | the visited support points of each process are the input; updateCompressibleAverages, setBoundaryTemperature (not called) and output formatting left out |
| `examples/step-turbulentChannel/TurbulentChannelFlow3D` and the set-up part of its main program | `ModelTurbChannel` | method 2 of the mean profile (cannot be chosen), running maxima and scaling of the perturbation left out; doubles real |
| `examples/step-decayingTurbulence2D`, `examples/step-mixingLayer3D` (initial fields) | `ModelFlowStart` | the generator of dealii is an arbitrary sequence not influenced by srand |
| `advection/AdvectionTools`, `advection/AdvectionOperator` (constructor), deal.II: Lagrange polynomials, tensor products, mappings | `ModelElements` | Gauss-Lobatto points are a parameter (ordered, both ends); lexicographic numbering also for FE_Q |
| deal.II's FEValues, FEFaceValues of FE_DGQArbitraryNodes on boxes | `ModelBoxes` | two and three dimensions; faces without hanging nodes |
| examples/step-9/Cylinder2D.{h,cpp}, step-9.cpp; examples/step-sphere/Sphere.cpp, step-sphere.cpp | `ModelObstacles` | initial fields, radius and cells around the cylinder, blocks of the sphere mesh, velocity / scaling / viscosity of the programs; grid generation and merging of deal.II, manifolds and output not modelled |
| analysis/cavity-convergence/CompareToGhia.{h,cpp}, CompareToBotella.cpp | `ModelCavity`, generated `CavityData` (tools/gen_cavity.py) | evaluation of the finite element field by a process is a partial function; file writing by several processes at once, header lines and printFinalVelocities not modelled |
| examples/step-6/ComplexWall1.h: UnstructuredGridFunc | `ModelComplexWall` | grid function only (ComplexWall1::transform passes a name L that is not declared; the member m_L is taken) |
| postprocessing/FFT.cpp: main | `ModelFourier` | FFTW by its documented transform; lines that are no numbers, more than three dimensions and file handling not modelled |
| utilities/SemiParallelMatrix.{h,cpp} | `ModelSemiParallel` | vectors as lists of parts (blocks or ranges of processes); distributed_block_vector and references from column() not modelled |
| utilities/ContinuousBoundaryGradient.{h,cpp} | `ModelBoundaryGradient` | branch compiled (NO_SUPPORT_HP_PARALLEL); a solution is given by its face gradients; one process |
| analysis/matrix-analysis/matrixAnalysis.{h,cpp} | `ModelSpectrum` | LAPACK and the random generator of the C library are parameters; copying of the sparse matrix and file names not modelled |
| examples/step-shearLayer2D/EnstrophySubdomain.h | `ModelSubdomain` | one process; sum over processes not modelled |
| examples/static-droplet/static_droplet.cpp, Droplet2D::refine, getMinimumVertexDistance | `ModelDroplet` | arguments are the values of atoi and atof; a mesh is the list of its cell sizes; integrator argument left out |

Not modelled: logging and output files other than tables and checkpoints (`utilities/Logging`,
`HtmlTrace`, `Timing`, VTU output), MPI start-up and ghost exchange (`MPIGuard`), deal.II itself
(finite elements, quadrature, linear algebra and mesh generation enter as parameters or as the
specifications in the Spec files), the
factories in `AdvectionTools`, the iterative initialisation of the compressible solver, and the
programs in `src/examples` and `src/analysis`.

## Plan per property

| id | model | proof idea |
|----|-------|-----------|
| C01 | stencil tables generated from source, `st_opp` as the switch | computation in Q over all indices, lifted to every real scaling |
| C02 | same | moments computed in Q (closed-form ones by field in R), scaled by s^k |
| C03 | same, `st_maxvel` | per-stencil bound by computation, refutation by witness for the others |
| C04,C05 | `calc` of each equilibrium over a generic stencil | algebra with the moment conditions as hypotheses, discharged for each stencil by C02; stencils with decimal literals: comparison with an exactly isotropic product stencil, error of each polynomial bounded by its coefficients (`ProofNear*`) |
| C06 | specialised code transcribed literally | ring on 9/19 variables |
| C07,C08,C10 | relax functions over generic stencil | linearity of sums, moment conditions |
| C09 | matrices generated from source | Q matrix product by vm_compute, lifted to R |
| C11 | make_diag | witness distribution |
| C12 | force functions | algebra |
| C13 | relaxWithG, fStar/gStar | moment conditions up to order 4..6, exact or up to the tolerance of the literals |
| C14 | dispatch tables as decision function over enums | exhaustive case analysis (finite domain), refutation witnesses |
| C15 | collideAll as fold over locally owned dofs | induction over node list, permutation |
| C16-C19 | `ModelRun`: run loop producing a trace of events, physics as a record of operations | invariant over the loop (`loop_inv`), trace compared with `expected_steps`, `checkpoint_due` |
| C20,C21 | run loop + `ModelCheckpoint` (status printed as text, restored fields) | refinement of the loop to `evolve`; refutation by a two-node D2Q9 BGK run |
| C22,C23 | checkpoint directory as list of files | induction over histories of requests; refutation + partial for n <> 1 |
| C24,C25 | loops with abstract residual oracle | induction |
| C26-C28,C46 | generated tables of entries, setters and getters run on a handler with subsection path (`ModelConfig`) | invariant over all histories; per-option conditions computed over the tables |
| C29-C33 | CommandLineParser on the configuration model (`ModelCommandLine`), boost's parser as a function parameter | applyToSolverConfiguration shown equal to a list of settings with an outcome; last setting per option; case analysis over option names and documented values |
| C34,C35,C47 | low storage RK with arbitrary matrix and vectors (`ModelTimeIntegration`) | induction over stages; the step is a polynomial in dt A whose coefficients are computed in Q; Taylor's theorem |
| C36,C37 | theta step with solver parameter; exponential step over numbers with not-a-number | algebra, Cauchy-Schwarz; not-a-number propagated through the Arnoldi loop |
| C38 | projection matrices, degree vectors, damping, loop over cells (`ModelFilter`) | linear algebra with an abstract correct inversion; division arithmetic over all orders; induction over cells; witnesses with trilinear elements and the trapezoidal rule; discrete orthogonality and regularity of the Legendre matrices at every order from exactness to degree 2p-1 (top mode: discrete norm not the exact one, only positive), Parseval for the discrete norm (`ProofFilterOrders`, `ProofFilterOrders2`) |
| C39,C40 | maps as association lists (`ModelBoundary`) | induction over all registration histories; the check loop accepts exactly permutations; witnesses for silent duplicates, half registration and truncation |
| C41 | periodic cell map and transport (`ModelBoundary`) | induction over the face pairs, then algebra; refutation for one-cell-wide meshes |
| C42 | face search on the unit cell and by planes (`ModelSemiLagrangian`) | induction over directions and faces with an invariant; witness for start points on a face |
| C43 | path loop with one event per pass | termination by a measure (51 passes per path); on periodic Cartesian meshes each pass comes one face closer to the target cell; witnesses for refined neighbours and do-nothing boundaries |
| C48,C49 | whole assembly as a list of entries | every path is independent of the others in the queue; each destination is handled once, so its row is the row of its path; the pattern passes are sub-sequences of the assembly pass; C48 for every mesh without boundaries with invertible mappings (ProofStream, ProofStream2) |
| C50 | hits as events of the path loop (`ModelWalls`) | invariant of the path: remaining distance + travelled length = dt times speed, up to the accumulated deviation; triangle inequality |
| C51,C54 | hit list as tree; operate | permutation invariant over all insertions; witnesses in a channel of one cell with D2Q9 |
| C52,C53,C55 | streaming step = matrix + hits | shape of the event list of one path; row of a destination = row of its path; witnesses in a channel and in a cavity corner |
| C44 | ghost/owned pair | induction over operations, refutation for setF0 |
| C45 | no-op bodies | refutation |
| C56 | comparison loop over owned entries | case analysis; witness with different layouts |
| C57 | equilibrium boundary | value by rewriting to the quartic equilibrium (ProofThermal), fields by induction over the hits (ProofThermalFields); g refuted |
| C58 | thermal wall | moments of the quartic equilibrium up to tolerance (ProofThermalNode*), witnesses in ProofThermalNode3, ProofThermalWitness |
| C59 | discontinuous Galerkin: conservation | assembly succeeds and local formula for the rate (ProofSEDG, ProofSEDGRate), faces paired by an involution (ProofSEDGSums, ProofSEDGMain), flat system under Runge-Kutta (ProofSEDGRun); central fluxes refuted |
| C60 | discontinuous Galerkin: consistency | local formula without jumps (ProofSEDGMain.no_jump); central fluxes refuted |
| C61 | discontinuous Galerkin: decay | energy of a pair of faces (ProofSEDGMain.energy_pairs) |
| C62 | discontinuous Galerkin: walls | pairs of opposite directions, second moment of the stencil (ProofSEDGMain.mass_walls), ProofSEDGFlow; density and time dependence refuted |
| C63 | discontinuous Galerkin: reassembly | refuted; every call adds (ProofSEDGStencil.repeated) |
| C64 | discontinuous Galerkin: short constructor | refuted; exact condition |
| C65 | equilibrium initialisation | moments of the per-class equilibria (ProofOldCollision), loop (ProofOldLoop, ProofOldState); Transformed refuted |
| C66 | collision classes conserve | written-out collisions reduced to the class equilibrium (ProofOldNode, ProofOldNode2, ProofOldForce), lifted to fields (ProofOldState.all_conserve); three classes refuted (ProofOldRefuted) |
| C67 | collision classes: fixed points | ProofOldState.all_fixed; refuted cases ProofOldRefuted2 |
| C68 | regularized stress | second moments of the Hermite part (ProofOldNode2); scaling and D3Q19 refuted |
| C69 | forces of the collision classes | moments of the sources (ProofOldForce), ProofOldState.made_force; refuted cases ProofOldRefuted2 |
| C70 | iterative initialisation | measure N+1-k, invariants over iterations (ProofOldLoop); refuted cases ProofOldRefuted3 |
| C71 | setTimeStep | induction over the sequence (ProofOldLoop.set_steps_make) |
| C72 | refinement between the two collision implementations | ProofOldMore.old_is_new, new_is_old |
| C73 | initialisation from gradients | moments of the Hermite part, induction over visits (ProofOldState.gradient_flux); refuted cases ProofOldExamples |
| C74 | Taylor-Green vortex 2D | partial derivatives computed (ProofDeriv), equations reduced to a trigonometric identity (ProofBenchTGV.taylor_green_iff) |
| C75 | Couette flow | term by term differentiation of a dominated series (ProofSeries), remainder after the stopping test (ProofBenchCouette), Dirichlet kernel and summation by parts for the start from rest (ProofCouetteInit) |
| C76 | Poiseuille flow | uniqueness by the mean value theorem (ProofBenchChannel) |
| C77 | Taylor-Green vortex 3D | derivatives computed (ProofBenchTGV) |
| C78 | grid transformations, wavy wall of step-6 | positive derivatives, bounds of tanh and sin (ProofBenchGrid, ProofComplexWall) |
| C79 | advection benchmark | termination of the loops by the archimedean property, derivative of s*abs(s) (ProofBenchAdvection) |
| C80 | backward facing step | ProofBenchChannel; constructor order modelled by optional members |
| C81 | benchmark runs | refinement between the two loops, induction over fuel (ProofErrors, ProofErrorsEx) |
| C82 | error statistics | ProofErrorStats |
| C83 | shear layer, droplet | ProofBenchInitial |
| C84 | conservation of the entropic classes | kinematic part and moments of the shear parts (ProofKBC, ProofKBC9, ProofKBCNode), loop by induction (ProofEntropicAll) |
| C85 | viscosity of the KBC classes | the higher part carries no flux (ProofKBC), flux of the product form (ProofKBCEq) |
| C86 | contraction and optimality | quadratic form of the relaxation (ProofKBC) |
| C87 | equilibria of the entropic classes | ProofKBCEq, ProofKBCFix, ProofEntropicEq |
| C88 | unsupported stencils, fixed points | ProofEntropicRefuted2, ProofEst |
| C89 | viscosity of EntropicStabilized | ProofEst; witness with bounds on logarithms (ProofEntropicRefuted2) |
| C90 | derivative of the entropy | calculus (ProofEntropicRefuted2) |
| C91 | pseudo-entropic regularisation | the matrices are w_i times a reproducing kernel (checked entrywise), Pythagoras (ProofStabilizer1-3), field level (ProofEntropicSummary) |
| C92 | totals over all runs | induction over operations with the totals of the histories as invariant (ProofMultistep2, ProofMultistep5) |
| C93 | moments of a node | amplitude recursion per node (ProofMultistep2); two node witness (ProofMultistepEx) |
| C94 | the method | closed recursion of the deviation and change of variables (ProofMultistep3, ProofMultistep4) |
| C95 | relaxation | two-term recursion, roots inside or outside the unit circle (ProofMultistep3) |
| C96 | first collision | ProofMultistep4 |
| C97 | forces | momentum of sources, recursion with 1/3 (ProofMultistep5) |
| C98 | stencils | ProofMultistep5 |
| C99 | initialisation | ProofMultistep5 |
| C100 | mass | sums over processes and cells flattened (ProofStatistics) |
| C101 | kinetic energy | ProofStatistics; bilinear element with Gauss points (ProofStatisticsEx) |
| C102 | enstrophy | ProofStatistics; rotation on a trilinear element (ProofStatisticsEx) |
| C103 | pressures | induction over the degrees of freedom (ProofStatistics2) |
| C104 | mean velocity | ProofStatistics2; biquadratic element (ProofStatisticsEx) |
| C105 | entropy | ProofStatistics2 |
| C106 | results table | induction over the lines, invariant on the cached object (ProofStatistics2) |
| C107 | global averages | ProofStatistics3, ProofStatisticsEx |
| C108 | legend of the global statistics | row as image of the legend (ProofStatistics3) |
| C109 | compressible statistics | ProofStatistics3, ProofStatisticsEx |
| C110 | planes | permutation of the selected points, variance identity (ProofStatistics3) |
| C111 | Reynolds averages | induction over the calls; C16 for runs (ProofStatistics3, ProofStatistics4) |
| C112 | Grad's function | isotropy of the weights to order 4 (ProofGrads) |
| C113 | prescribed values | ProofPrescribed2 |
| C114 | interaction force | derivatives of psi (ProofMultiphase3); independence of the collision of the parameters (ProofMultiphase2) |
| C115 | external force | induction over cells and nodes (ProofMultiphase, ProofMultiphase2) |
| C116 | one collision per node | induction with count_occ (ProofMultiphase3) |
| C117 | initialisation | ProofMultiphase3 |
| C118 | parallel lines | ProofLines |
| C119 | lines of interfaces | sorted insertion with separated keys (ProofLines) |
| C120 | flow variables at a boundary | derivatives of finite element functions (ProofPrescribed) |
| C121 | delivery | ProofPrescribed |
| C122 | threshold of angles | ProofLines |
| C123 | sparsity pattern | membership of each written position in the list of added positions, opposite directions (ProofSparsity, ProofSparsity2); witnesses (ProofSparsity3) |
| C124 | periodic pairs of refined cells | induction over the refinement tree (ProofMeshTools) |
| C125 | number of boundary points | ProofMeshTools |
| C126 | ids in a plane | induction over the faces (ProofMeshTools) |
| C127 | run = books of collision and streaming | the time loop adds the same amount per iteration (run_books); streaming: content of the rate is minus the wall flux, RK5 multiplies a constant rate by its first coefficient (ProofSimulation); collision: moments of one node summed over the dofs (ProofSimulation2) |
| C128 | the same for momentum | no walls: rates have zero content; one witness run (ProofSimulationEx) |
| C129 | uniform populations | zero rates are kept by RK5, equilibria by the collision; invariant of the loop (ProofSimulation2) |
| C130 | refinement: finite element vectors hold lattice fields | departure points are lattice points: the unit coordinates found are multiples of 1/p, the snapping keeps them, nodal shapes leave one entry 1 in the row (ProofLattice); invariant through the loop (ProofLattice2) |
| C131 | sums over sites | shift invariance of sums over a periodic box by induction over the dimension (ProofLattice2), moments of the collision as in C127/C128 (ProofLattice3) |
| C132 | outcome relation between the collision in the original and in the turned frame | scalar products are invariant; equilibria and the regularised collision are written in scalar products (ProofSymmetry); the multiple-relaxation-time matrix commutes with every permutation found by enumerating the images of the axes (ProofSymmetry2); group of the stencil tables by verified search (ProofSymmetry4) |
| C133 | same | witness: populations whose ghost flux points along the first axis (ProofSymmetry5); other modes from C132 |
| C134 | simulation relation between two lattices | collision from C132, jumps of turned directions are turned jumps (ProofSymmetry6), C130 |
| C135 | assembled streaming matrix of C46-C48 with the d-linear shape functions of SpecExtremes | the shape functions are nonnegative and sum to one in the reference cell; rows are convex combinations, found departure points lie in the reference cell (ProofExtremes); aligned: one entry per row (ProofExtremes2); witness: parabola through 0, 1, 0 beyond its zero |
| C136 | `restored_g`, `restored_temperature`, `restored_fields_g` on populations of any stencil; runs from `restarted` states | second moments of f against restored velocity (ProofCompressibleRestart); totals of continued runs from C137; witnesses: uniform gas on D2Q25H with gamma 7/5 |
| C137 | `dg_ops_g` in the time loop of C04 | invariants of evolve: mass, momentum, energy under collision (C13) and streaming of f and g (C119, C127) (ProofCompressibleRun, ProofCompressibleRun3) |
| C138 | `initialize`, `collide_node_g`, `dg_ops_g` | calcQuarticEquilibrium equals the equilibrium of the collision; moments by isotropy (ProofCompressibleRun2), fixed point of the collision and uniform runs (ProofCompressibleUniform), tolerance (ProofCompressibleEx) |
| C139 | `old_node` with the D2Q9 tables of MRTStandard and MRTEntropic | moments before and after by linear lemmas for the inverse transformation (ProofOldMRT); witness: populations in one corner at density 2 |
| C140 | `sdp_density`, `sdp_velocity`, `sdp_temperature` | derivatives (ProofDeriv), defect of the mass balance in closed form, other balances are multiples of it (ProofShocks2) |
| C141 | `ramp`, `vortex_*`, `svi_*` | rational arithmetic with tanh bounds (ProofShocks), chain rule for Rpower (ProofShocks2), witnesses by evaluation with bounds of exp |
| C142 | `sod_*`, `riemann_*` | rational arithmetic, tanh bounds (ProofShocks2) |
| C143 | `applies`, `calculateForce` | invariant: the integral is the sum of the errors of the table (ProofForcing2.table_law); witnesses with uniform channels for any sequence of fluxes |
| C144 | `calculateRhoU`, `apply`, `scaleF`, `calculateTemperature` | ordered sets with exact and tolerant order agree on separated keys (ProofForcing), homogeneity of the measurement, linearity of the temperature (ProofForcing2) |
| C145 | `main_channel`, `body_force`, `transform`, `rms_coords` | mean value theorem for the stress, sum-to-product formula for the order of the mesh (ProofTurbChannel) |
| C146 | `randf_1`, `randf_2`, `angles` | Schrage decomposition exact (ia*iq+ir = im), multiplication invertible modulo im, invariant of the table (ProofRandf) |
| C147 | `synthetic`, `mode_sum`, `incompressible_u`, `mean_profile`, `temperature0` | derivative of the sum of modes by induction, commuting differences |
| C148 | `waves`, `sample`, `mixing_velocity` | derivative of the sum by induction; generator with a single wave as witness |
| C149 | `support_points`, `make_fe_by_name`, `operator_element`, `mapping` | polynomials with more roots than their degree vanish; sums over lexicographic numbers factorise (ProofElements) |
| C150 | `box_space` with `ModelSEDG` | sums over a box along lines (bijection of numbers); derivative of the product of two interpolants integrated exactly (ProofBoxes, ProofBoxes2) |
| C151 | `ModelTimeIntegration` (rk5_step, theta_step, stream_times), flattened operator of `ModelSEDG` | local Taylor error plus growth bounded by the exponential series (Runge-Kutta); exact balance of energy, Cauchy-Schwarz, trapezoidal truncation error (theta); C61 through the flat matrix (transport) |
| C152 | initial fields of the cylinder, numbers of step-9 | closed forms of the fields, derivatives of quotients, local equality of functions; chords by cos of the half angle (ProofObstacles) |
| C153 | blocks and numbers of the sphere | pairwise separation computed, lifted to real points (ProofObstacles) |
| C154 | comparison of the cavity | maximum over processes, sums of squares (ProofCavity); tables by computation over all rows |
| C155 | Fourier tool | row-major index arithmetic, orthogonality of waves (ProofFourier) |
| C156 | matrix with distributed columns | induction over columns and parts (ProofSemiParallel) |
| C157 | boundary gradients | induction over cells and unknowns, debug and release builds (ProofBoundaryGradient) |
| C158 | spectra | maximum over a list, scaling of eigenvalues, bounds of the perturbation (ProofSpectrum) |
| C159 | enstrophy of a quarter | induction over cells (ProofSubdomain) |
| C160 | relaxation time and velocity of the static droplet | induction over refinements and degrees of freedom (ProofDroplet) |

## Assumptions per theorem

As printed by `Print Assumptions` (generated by `tools/manifest.py -a`).

* `ClassicalDedekindReals.sig_forall_dec`:
  C157_destroy_refuted, C113_vector_partial, C113_vector_accepted, C44_consistent_partial, C44_scaled, C44_assigned, C44_streamed, C44_dg, C44_setF0_refuted, C21_density_partial, C24_compressible_partial, C156_entries, C156_access, C156_new_partial, C156_new_refuted

* `ClassicalDedekindReals.sig_forall_dec`, `ClassicalDedekindReals.sig_not_dec`, `Classical_Prop.classic`, `FunctionalExtensionality.functional_extensionality_dep`:
  C74_side_length_refuted, C75_couette_partial, C75_early_refuted, C76_bulk_velocity, C76_mean_unique, C76_analytic_refuted, C78_shear, C78_couette, C78_sinusoidal, C78_lubrication, C78_refuted, C83_droplet, C150_rule, C29_documented, C29_documented_only, C29_rejected_partial, C29_mrt_relax_accepts, C29_mrt_relax_refuted, C29_stencil_refuted, C30_applied, C30_succeeds, C30_idempotent, C30_conflict_rejected, C30_conflict_unchanged_partial, C30_atomic_refuted, C30_usable, C31_hops_partial, C31_d3q15_refuted, C31_order_refuted, C32_read_before, C32_read_after, C33_number, C33_other_undefined, C33_other_refuted, C78_complex_wall, C136_continued, C136_early, C136_early_refuted, C137_fresh, C137_consistent, C138_first_collision, C138_uniform, C26_round_trip_partial, C26_last_set_partial, C26_domain_accepted, C26_domain_only, C26_double_accuracy, C26_double_refuted, C26_filter_nc_refuted, C26_coordinates_refuted, C27_independent, C27_default_kept, C28_rejected_unchanged_partial, C28_getters_work, C28_setters_defined, C28_embedded_refuted, C28_embedded_unusable, C46_file_round_trip, C46_file_untouched, C46_file_rejected, C46_constructor_refuted, C84_conserves_partial, C84_init_partial, C84_scaled_refuted, C85_flux_partial, C85_normal_partial, C85_shear_refuted, C86_contracts, C86_contracts_D3Q15, C86_optimal, C87_holds_partial, C87_fixed, C87_domain, C87_D3Q15_refuted, C88_stencils, C88_stabilized_fixed, C88_dispatch_refuted, C89_factor_partial, C89_growth_refuted, C90_derivative_partial, C90_entropy, C90_derivative_refuted, C38_modes, C38_modes_3d_partial, C38_3d_max_refuted, C38_3d_sum_refuted, C38_factors, C38_mean, C38_shared_refuted, C38_new_modes, C38_new_mean, C38_new_3d_refuted, C38_resolved, C38_orders, C38_coefficients, C38_square, C13_compressible_conserves, C13_compressible_runs, C13_bgk_energy_drift, C13_bgk_energy_refuted, C114_interaction_refuted, C13_compressible_conserves_tolerance, C152_defined, C20_restart_refuted, C20_time_refuted, C20_time_kept, C20_restart_partial, C20_restart_exact, C22_overwritten_refuted, C22_first_refuted, C22_compressible_latest_throws, C22_read_back_partial, C23_restartable_partial, C140_default_refuted, C141_isentropic, C141_equilibrium, C141_equilibrium_refuted, C141_defined_partial, C141_strong_refuted, C141_periodic_refuted, C128_restarted, C105_entropy_counted_per_dof, C105_entropy_refuted, C106_results_table, C109_compressible_columns, C109_compressible_legend_refuted, C109_total_energy_refuted, C35_local_error, C151_runge_kutta, C151_theta_converges, C145_force, C145_mesh, C145_monitor_refuted, C146_angles, C146_sphere, C147_overrun_refuted, C147_synthetic_partial, C147_mean_partial, C147_mean_refuted, C147_slip_refuted, C147_temperature, C148_mixing_refuted

* `ClassicalDedekindReals.sig_forall_dec`, `ClassicalDedekindReals.sig_not_dec`, `FunctionalExtensionality.functional_extensionality_dep`:
  C74_navier_stokes_partial, C74_divergence, C74_periodic, C74_constant_density, C75_walls, C75_three_dimensions_refuted, C77_divergence, C77_pressure, C77_pressure_compressible, C77_periodic, C79_analytic, C83_shear_layer, C112_moments, C112_succeeds, C118_accepts, C118_decides_partial, C118_orients, C118_reason, C118_parallel_refuted, C119_lines_partial, C119_missing_refuted, C119_key_refuted, C119_straight_refuted, C120_values, C121_delivered_partial, C121_other_requests, C121_velocity_refuted, C121_varying_density_refuted, C122_default_partial, C122_refuses_refuted, C122_accepts_refuted, C150_exact, C150_run, C154_values, C154_zero, C154_skips, C154_early_refuted, C07_bgk_conserves, C08_regularized_conserves, C10_mrt_conserves, C10_collision_runs, C07_equilibria_are_fixed, C08_stress_relaxation, C08_depends_on_low_moments, C07_incompressible_momentum_drift, C11_only_N_refuted, C11_only_N_actual, C11_full_relaxation, C11_dhumieres, C136_energy, C136_exact, C136_equilibrium, C136_density_refuted, C136_internal_refuted, C136_fields, C136_fields_refuted, C136_ranks, C136_small_refuted, C136_parallel_refuted, C138_initial, C138_tolerance, C160_tau_refuted, C160_tau_partial, C160_accepted, C160_arguments_refuted, C160_velocity, C149_points, C149_shape, C149_accepted, C149_chebyshev_refuted, C149_stream, C149_lattice, C149_mapping, C149_cavity, C85_fourth_order, C91_minimal_partial, C91_idempotent, C91_equilibrium, C91_with_e_refuted, C91_no_effect_refuted, C04_bgk_equilibrium_moments, C05_incompressible_moments, C05_steady_state_moments, C05_quartic_moments, C05_quartic_energy, C06_equilibrium_specialisation, C06_velocity_specialisation, C81_same_run, C81_checkpoints_partial, C81_solutions_partial, C81_final_refuted, C81_compressible, C81_compressible_refuted, C82_values, C82_line, C82_again, C82_maxVelocityNorm, C82_velocity2Norm, C82_documented_refuted, C135_linear, C135_closed, C135_aligned, C135_quadratic_refuted, C12_exact_difference, C12_shifting_velocity, C12_forces_run, C12_regularized_shifting_refuted, C12_dhumieres_shifting_refuted, C14_selection, C14_selection_refuted, C144_temperature_refuted, C155_coefficients, C155_recovers, C155_opposite, C155_defined_refuted, C130_shift, C130_run, C131_totals, C114_formula_partial, C114_carnahan_starling_refuted, C114_refused, C114_no_interaction, C115_force_partial, C115_succeeds, C115_guo_refuted, C115_scaled_refuted, C115_other_stencils_partial, C115_other_stencils_refuted, C116_visits_partial, C116_shared_refuted, C117_other_stencils_partial, C117_undefined, C117_initialisation_refuted, C92_totals, C93_collisions_partial, C93_moved_refuted, C94_method_partial, C95_bdf2_partial, C95_am4_partial, C95_am4_refuted, C95_fixed_partial, C96_first_partial, C96_first_refuted, C97_am4_exact, C97_bdf2_exact_partial, C97_bdf2_refuted, C97_other_schemes, C98_only_D2Q9, C98_D3Q19_refuted, C94_D3Q19_refuted, C98_silent_refuted, C99_init_refuted, C99_init_always, C02_high_order_moments, C04_bgk_equilibrium_moments_tolerance, C05_incompressible_moments_tolerance, C05_steady_state_moments_tolerance, C05_quartic_moments_tolerance, C07_bgk_conserves_tolerance, C08_regularized_conserves_tolerance, C152_potential, C152_values, C152_inside, C152_obstacle_refuted, C152_no_circle, C152_pressure_partial, C152_pressure_refuted, C152_mach, C152_printed_refuted, C152_reynolds_partial, C152_reynolds_refuted, C153_numbers_partial, C153_default_refuted, C65_equilibrium_partial, C65_transformed_refuted, C66_conserves_partial, C66_incompressible_refuted, C66_transformed_refuted, C66_entropic_refuted, C67_fixed_partial, C67_mrt_refuted, C67_incompressible_refuted, C67_regularized_refuted, C68_stress_partial, C68_scaled, C68_scaled_refuted, C68_three_dimensions, C69_force_partial, C69_mass_refuted, C69_three_dimensions_partial, C69_three_dimensions_refuted, C69_ignored, C70_terminates, C70_velocity, C70_density_partial, C70_step_partial, C70_count_refuted, C70_mrt_ignores_velocity, C70_mrt_refuted, C70_regularized_undefined, C70_forces, C71_time_steps, C72_agrees, C72_converse, C73_flux_partial, C73_general, C73_time_step_refuted, C73_shared_node_refuted, C73_scheme_refuted, C139_viscosity_partial, C139_density_refuted, C139_flux, C139_trace, C139_magic, C139_third, C16_every_iteration_reported_once, C17_stop_conditions, C17_stops_at_first, C17_runs_end, C17_runs_succeed, C18_time, C19_checkpoint_schedule, C20_run_is_evolution, C21_velocity_refuted, C21_fields_after_collision, C23_never_loads, C25_residual, C25_fields, C59_assembles, C59_other_boundaries, C59_mass, C59_run, C59_central_refuted, C60_derivative, C60_uniform, C60_central_refuted, C61_energy, C61_walls, C62_mass, C62_carried, C62_density_refuted, C62_frozen_refuted, C63_again_refuted, C63_adds, C43_terminates, C43_once, C43_found, C43_torus_partial, C43_dropped, C43_refined_refuted, C43_do_nothing_refuted, C43_closed, C48_stream, C48_uniform, C48_torus, C48_torus_uniform, C49_pattern, C140_euler_partial, C140_pressure, C141_shock, C141_states, C141_vortex, C141_centre_refuted, C142_sod, C127_mass, C127_closed, C128_momentum, C128_elapsed_refuted, C129_uniform, C123_pattern_partial, C123_missing_refuted, C123_outside_refuted, C158_spectrum, C158_file_partial, C158_file_refuted, C158_pseudospectrum, C158_perturbation, C158_cycles_refuted, C101_kinetic_energy_gauss_refuted, C110_plane_statistics_partial, C110_turbulence_table, C110_empty_plane_refuted, C110_plane_mean_refuted, C111_reynolds_average_of_run, C01_opposites, C02_weights_positive, C02_moments, C02_moments_exact, C02_odd_moments_vanish, C02_speed_of_sound, C03_max_velocity_bound_refuted, C03_max_velocity_characterisation, C132_collision, C132_cubic, C132_cubic_all_refuted, C132_oblong, C133_only_N_refuted, C133_modes_partial, C134_turned, C134_symmetric, C57_equilibrium_value, C57_stream, C57_temperature_refuted, C58_thermal_wall, C58_stencil, C58_rest, C58_temperature_refuted, C58_gamma_refuted, C58_isothermal, C58_isothermal_refuted, C58_late, C36_scheme, C36_tolerance, C36_conserved, C36_conserved_tolerance, C37_not_a_number, C37_steady_refuted, C37_conserved, C151_theta_energy, C151_theta_stable, C151_theta_below, C151_transport, C151_transport_walls, C145_tangled_refuted, C145_density_refuted, C145_monitor_partial, C147_modes, C148_waves, C148_periodic_refuted, C148_function_refuted, C148_mixing, C50_hit_time, C51_hits_kept, C51_first_point, C51_place_refuted, C52_rest, C52_moving_partial, C52_two_hits_refuted, C53_rest_partial, C53_corner_refuted, C54_time_used, C54_time_refuted, C55_unchanged_partial, C55_moving_refuted

* `ClassicalDedekindReals.sig_forall_dec`, `FunctionalExtensionality.functional_extensionality_dep`:
  C79_time_loop_partial, C79_output_refuted, C80_inflow, C80_density_refuted, C41_return_partial, C41_faces_partial, C41_one_cell_refuted, C157_gradient_refuted, C157_gradient_partial, C112_equilibrium, C113_temperature_refuted, C150_mesh, C150_slope, C154_reynolds_refuted, C154_tables_partial, C154_tables_refuted, C154_entry_refuted, C09_mrt_inverse, C15_node_by_node, C15_partition_independent, C15_ranks_run, C15_empty_rank_refuted, C46_constructor_throws, C46_constructor_empty_refuted, C56_equals_decides, C56_equals_symmetric_partial, C56_equals_symmetric_refuted, C91_others, C91_ignored_schemes, C12_force_needs_scheme, C143_law, C143_bounds, C143_steady_partial, C143_monotone, C143_direction_refuted, C143_reversed, C143_windup_refuted, C143_restart_refuted, C144_measure_partial, C144_linear, C144_height_refuted, C144_rounding_refuted, C144_idle_refuted, C144_density, C144_temperature_partial, C144_temperature_change, C125_periodic_refuted, C126_plane_partial, C126_interior_refuted, C114_pressure_derivative, C153_cover, C153_disjoint, C153_obstacle_refuted, C65_succeeds, C24_budget_refuted, C24_compressible_refuted, C24_initialization_partial, C24_initialization_ends, C64_short_constructor_refuted, C64_short_constructor, C42_unit, C42_planes_partial, C42_planes_refuted, C156_product, C142_contacts, C142_symmetric, C142_shock_partial, C142_shock_refuted, C142_pressure_refuted, C100_mass_is_integral, C101_kinetic_energy, C102_enstrophy_2d, C102_enstrophy_3d_gradient, C102_enstrophy_3d_refuted, C103_extreme_pressures, C104_mean_velocity_partial, C104_mean_velocity_refuted, C107_global_averages_partial, C107_global_averages_refuted, C108_global_legend_partial, C108_legend_time_refuted, C110_single_plane, C111_reynolds_average, C159_defined_refuted, C159_elsewhere_partial, C34_runs, C34_time, C34_steady, C34_conserved, C34_stream, C35_taylor, C35_derivative, C36_time, C36_steady, C45_integrator_refuted, C45_limiter_refuted, C47_fifth_order_refuted, C146_randf, C146_seed_refuted, C147_curl

* closed under the global context:
  C80_construct_refuted, C39_lookup, C39_error_partial, C39_distinct, C39_duplicate_refuted, C39_unchanged_refuted, C40_check_partial, C40_truncated_refuted, C41_cells_partial, C113_pressure_partial, C113_velocity_partial, C113_gradient_partial, C113_function_partial, C113_function_accepted, C113_pUT_partial, C154_rows, C32_define_before, C32_define_after, C32_default_undefined, C33_title, C38_elsewhere, C124_pairs_partial, C124_tables, C124_unequal_refuted, C125_count_partial, C23_stencil_refuted, C156_columns
