{"id": "C01", "title": "Opposite directions of a stencil really are opposite", "statement": "For every stencil NATriuM ships and every scaling, asking the stencil for the opposite of direction i gives a direction index j < Q whose vector is exactly minus vector i and whose weight equals weight i, and asking for the opposite of j gives i back.", "quantifier": "all shipped stencils, all direction indices below Q, all real scalings", "why_tests_cant": "The scaling is a real parameter and bounce-back/outflow code uses the map for every index of every stencil; the unit tests check a few stencils at a few scalings.", "anchors": ["src/library/natrium/stencils/*.cpp: getIndexOfOppositeDirection, getDirection, getWeight"]}
{"id": "C02", "title": "Lattice moment conditions hold for every stencil and scaling", "statement": "For every stencil with closed-form data the weights are positive and sum to one, all odd moments up to order five vanish, the second moment is cs^2 times the identity and the fourth moment is cs^4 times the isotropic tensor, where cs is the speed of sound the stencil reports, whatever the scaling. For the stencils whose data are decimal literals the same holds up to an explicit tolerance.", "quantifier": "all shipped stencils, all real scalings, all index tuples", "why_tests_cant": "Scaling is continuous; hydrodynamics of the scheme relies on the identities holding for all of them and for all tensor components.", "anchors": ["src/library/natrium/stencils/*.cpp", "src/library/natrium/stencils/*.h: getSpeedOfSoundSquare"]}
{"id": "C03", "title": "Reported maximum particle speed bounds every discrete velocity", "statement": "getMaxParticleVelocityMagnitude() of a stencil is at least the Euclidean norm of every direction of that stencil, so a time step computed from the CFL number never lets a population travel farther than CFL * dx / p^2.", "quantifier": "all shipped stencils, all directions, all positive scalings", "why_tests_cant": "The bound is used as a divisor in every time step; tests only compare the value with a constant.", "anchors": ["src/library/natrium/stencils/*.h: getMaxParticleVelocityMagnitude", "src/library/natrium/utilities/CFDSolverUtilities.cpp: calculateTimestep"]}
{"id": "C04", "title": "Standard BGK equilibrium carries the prescribed density and momentum", "statement": "The BGK equilibrium computed for density rho and velocity u has zeroth moment rho, first moment rho u and second moment rho (cs^2 delta + u u), on every stencil that satisfies the lattice moment conditions.", "quantifier": "all densities, velocities, stencils with the moment conditions (all closed-form ones), all scalings", "why_tests_cant": "Continuum of inputs; conservation of the whole solver rests on it.", "anchors": ["src/library/natrium/collision_advanced/Equilibria.h: BGKEquilibrium::calc"]}
{"id": "C05", "title": "Incompressible, steady-state and quartic equilibria carry density and momentum", "statement": "The incompressible equilibrium has moments rho and u (reference density one), the steady-state equilibrium has moments rho and rho u for every preconditioning parameter gamma, and the quartic equilibrium has moments rho, rho u and the correct energy for every temperature.", "quantifier": "all densities, velocities, temperatures, gamma, stencils with the required isotropy order", "why_tests_cant": "Continuum of inputs and of gamma.", "anchors": ["src/library/natrium/collision_advanced/Equilibria.h: IncompressibleEquilibrium, SteadyStateEquilibrium, QuarticEquilibrium"]}
{"id": "C06", "title": "Optimised equilibrium and velocity code agrees with the generic code", "statement": "The hand-optimised D2Q9 equilibrium and the hand-optimised D2Q9 and D3Q19 velocity computations return the same values as the generic loops for every population vector, density, velocity and scaling.", "quantifier": "all distributions, all densities/velocities, all scalings", "why_tests_cant": "Two implementations over a continuous domain; sampling cannot show agreement everywhere.", "anchors": ["src/library/natrium/collision_advanced/Equilibria.h: BGKEquilibrium<2,9>::calc", "src/library/natrium/collision_advanced/AuxiliaryCollisionFunctions.h: calculateVelocity<2,9>, calculateVelocity<3,19>"]}
{"id": "C07", "title": "BGK collision conserves mass and momentum and fixes equilibria", "statement": "One BGK relaxation of any node with non-zero density leaves sum f and sum f e unchanged for every relaxation time, and leaves an equilibrium distribution unchanged.", "quantifier": "all distributions with non-zero density, all tau != 0, all stencils with moment conditions", "why_tests_cant": "Continuum of states.", "anchors": ["src/library/natrium/collision_advanced/CollisionSchemes.h: BGKCollision::relax"]}
{"id": "C08", "title": "Regularized collision conserves mass and momentum and keeps the stress", "statement": "The regularized collision preserves mass and momentum of every distribution and its result depends on the distribution only through density, momentum and second moment; the non-equilibrium stress is scaled by exactly 1 - 1/tau.", "quantifier": "all distributions, tau, stencils with fourth-order isotropy", "why_tests_cant": "Continuum of states.", "anchors": ["src/library/natrium/collision_advanced/CollisionSchemes.h: Regularized::relax"]}
{"id": "C09", "title": "MRT transforms are mutually inverse", "statement": "For every moment basis (Dellar and Lallemand on D2Q9, D'Humieres on D3Q19) the inverse transform applied after the moment transform is the identity on distributions, and vice versa.", "quantifier": "all distributions, all three bases", "why_tests_cant": "Linear map over a continuous space; the existing test checks one product numerically.", "anchors": ["src/library/natrium/collision_advanced/AuxiliaryMRTFunctions.cpp"]}
{"id": "C10", "title": "MRT collision conserves mass and momentum", "statement": "MRT collision conserves density and momentum of every distribution, for every basis, every relaxation mode accepted for that basis and every tau, provided the equilibrium has the same density and momentum.", "quantifier": "all distributions, bases, relaxation modes, tau", "why_tests_cant": "Continuum of states times configuration space.", "anchors": ["src/library/natrium/collision_advanced/CollisionSchemes.h: MultipleRelaxationTime::relax", "src/library/natrium/collision_advanced/AuxiliaryMRTFunctions.cpp: make_diag"]}
{"id": "C11", "title": "MRT full relaxation equals BGK where it should, and selective relaxation touches only the named mode", "statement": "With the Dellar basis and the mode that relaxes only the ghost variable N, exactly the N moment (weight-2 checkerboard mode g) is set to its equilibrium and all other non-conserved moments relax with 1/tau, so on distributions whose N moment is already in equilibrium the result equals BGK. With the full mode the ghost moments of the Dellar (D2Q9) and d'Humieres (D3Q19) bases are set to their equilibria and the stress relaxes with 1/tau; with the rates of the d'Humieres paper the deviatoric stress relaxes with 1/tau and every other moment with its rate given there.", "quantifier": "all distributions and tau", "why_tests_cant": "Ranges over all distributions; an index slip in the diagonal is invisible on near-equilibrium tests.", "anchors": ["src/library/natrium/collision_advanced/AuxiliaryMRTFunctions.cpp: make_diag<9>, make_diag<19>"]}
{"id": "C12", "title": "External force adds exactly F dt of momentum and no mass", "statement": "With a constant external force F the collision step changes momentum by exactly dt F (for the shifting-velocity and exact-difference schemes) and leaves mass unchanged.", "quantifier": "all distributions, forces, dt, tau", "why_tests_cant": "Continuum of states.", "anchors": ["src/library/natrium/collision_advanced/AuxiliaryCollisionFunctions.h: applyForces, applyMacroscopicForces", "src/library/natrium/collision_advanced/CollisionOperator.h"]}
{"id": "C13", "title": "Compressible collision conserves mass, momentum and total energy", "statement": "The two-population (f,g) collision conserves mass, momentum and total energy of f and g for every Prandtl number and Sutherland setting.", "quantifier": "all (f,g), tau, Prandtl numbers, temperatures", "why_tests_cant": "Continuum of states and parameters.", "anchors": ["src/library/natrium/collision_advanced/CollisionSchemes.h: BGKCollision::relaxWithG", "src/library/natrium/collision_advanced/AuxiliaryCollisionFunctions.h: calculateFStar, calculateGStar, calculateGeqFromFeq"]}
{"id": "C14", "title": "The collision actually run is the configured one", "statement": "For every combination of dimension, stencil, collision scheme and equilibrium scheme, either the collision step runs with exactly the configured scheme and equilibrium, or an error is raised.", "quantifier": "the full cross product of configuration enums, for the incompressible and the compressible driver", "why_tests_cant": "The dispatch tables cover a few dozen of several hundred combinations; tests exercise a handful.", "anchors": ["src/library/natrium/collision_advanced/CollisionSelection.h: selectCollision"]}
{"id": "C15", "title": "Collision acts node by node", "statement": "Collision of all local nodes equals the single-node collision applied independently to every locally owned node, independent of the order of nodes and of how the nodes are partitioned over MPI ranks; a rank that owns no node does nothing.", "quantifier": "all node sets, partitions, distributions", "why_tests_cant": "All partitions and orders.", "anchors": ["src/library/natrium/collision_advanced/CollisionOperator.h: collideAll"]}
{"id": "C16", "title": "Every iteration is reported exactly once and the last one as final", "statement": "A run started at iteration a that stops at iteration b reports iterations a, a+1, ..., b once each in this order and additionally a final report for b only, and performs exactly b-a streaming steps and b-a+1 collision steps.", "quantifier": "all start iterations, stop conditions, configurations", "why_tests_cant": "Unbounded number of iterations; all stopping times.", "anchors": ["src/library/natrium/solver/CFDSolver.cpp: run, output, stopConditionMet"]}
{"id": "C17", "title": "Stop conditions are honoured", "statement": "A run with maximal iteration number n never performs a streaming step at or beyond iteration n, and a run with end time T stops at the first iteration whose time is at least T.", "quantifier": "all n, T, time steps", "why_tests_cant": "Unbounded histories.", "anchors": ["src/library/natrium/solver/CFDSolver.cpp: stopConditionMet"]}
{"id": "C18", "title": "Simulated time equals number of steps times step size", "statement": "After k streaming steps of a semi-Lagrangian run the simulation time is the initial time plus k dt (in exact arithmetic).", "quantifier": "all k, dt, restart times", "why_tests_cant": "All histories.", "anchors": ["src/library/natrium/solver/CFDSolver.cpp: stream, getTime"]}
{"id": "C19", "title": "Checkpoint schedule", "statement": "A checkpoint file is written at iteration i of a run exactly if i is a multiple of the checkpoint interval or i is the last iteration, checkpointing is switched on (interval below 10^8) and i is not the start iteration.", "quantifier": "all intervals, start and stop iterations", "why_tests_cant": "All schedules.", "anchors": ["src/library/natrium/solver/CFDSolver.cpp: output"]}
{"id": "C20", "title": "Restarting from a checkpoint continues the interrupted run", "statement": "Running n iterations, checkpointing and restarting for m more iterations ends in the same populations as an uninterrupted run of n+m iterations.", "quantifier": "all n, m, initial distributions, crash points at checkpoint iterations", "why_tests_cant": "All crash points.", "anchors": ["src/library/natrium/solver/CFDSolver.cpp: constructor, run", "src/library/natrium/solver/Checkpoint.cpp: load, write"]}
{"id": "C21", "title": "Restart restores macroscopic fields", "statement": "After a restart the density and velocity fields are the moments of the restored distribution functions.", "quantifier": "all distributions", "why_tests_cant": "All states; a wrong buffer is invisible when the velocity is zero.", "anchors": ["src/library/natrium/solver/CFDSolver.cpp: calculateDensitiesAndVelocities"]}
{"id": "C22", "title": "A checkpoint written for iteration n is the one read back for iteration n", "statement": "Reading the checkpoint of iteration n returns the data most recently written for iteration n, whatever other checkpoints exist in the directory and in whatever order they were written.", "quantifier": "all iterations n, all histories of writes", "why_tests_cant": "All write histories.", "anchors": ["src/library/natrium/solver/Checkpoint.cpp: constructor, write, load"]}
{"id": "C23", "title": "Every stencil that can be simulated can be restarted", "statement": "If a configuration can write a checkpoint then a later run with the same configuration can load it.", "quantifier": "all stencils, scalings and drivers", "why_tests_cant": "Cross product of configurations.", "anchors": ["src/library/natrium/solver/Checkpoint.cpp: load", "src/library/natrium/utilities/CFDSolverUtilities.cpp: make_stencil"]}
{"id": "C24", "title": "Iterative initialisation terminates within its budget", "statement": "The iterative initialisation performs at most the configured maximal number of iterations, stops as soon as the residual is below the threshold, and leaves iteration counter and time unchanged.", "quantifier": "all residual histories, all budgets", "why_tests_cant": "All residual histories.", "anchors": ["src/library/natrium/solver/CFDSolver.cpp: initializeDistributions"]}
{"id": "C25", "title": "Steady-state residual compares fields a fixed number of iterations apart", "statement": "Whenever the convergence criterion is evaluated the residual is the distance between the current velocity field and the field at the previous evaluation of the residual.", "quantifier": "all histories of field updates and queries", "why_tests_cant": "All call histories.", "anchors": ["src/library/natrium/solver/SolverStats.h: calculateResiduals", "src/library/natrium/solver/CFDSolver.cpp: stopConditionMet"]}
{"id": "C26", "title": "Configuration setters and getters round-trip", "statement": "For every configuration option, a get after a successful set returns the value that was set.", "quantifier": "all options, all values in the option's domain, all prior histories of successful sets", "why_tests_cant": "All histories.", "anchors": ["src/library/natrium/solver/SolverConfiguration.h"]}
{"id": "C27", "title": "Configuration options are independent", "statement": "Setting one option never changes the value of another option (except the documented coupling of the Prandtl number with its flag).", "quantifier": "all pairs of options, all histories", "why_tests_cant": "Quadratic number of pairs, all histories.", "anchors": ["src/library/natrium/solver/SolverConfiguration.h", "src/library/natrium/solver/SolverConfiguration.cpp"]}
{"id": "C28", "title": "A rejected configuration value leaves the configuration usable", "statement": "If a setter rejects a value, the configuration is unchanged and every getter still works.", "quantifier": "all setters, all rejected values", "why_tests_cant": "All histories with failures.", "anchors": ["src/library/natrium/solver/SolverConfiguration.h: set*"]}
{"id": "C29", "title": "Command line: unknown values are rejected and known ones reach the configuration", "statement": "For each enumerated command line option, a value out of the documented list raises an error, and a value from the list sets exactly the corresponding configuration option.", "quantifier": "all strings for all enumerated options", "why_tests_cant": "Infinite set of strings.", "anchors": ["src/library/natrium/utilities/CommandLineParser.cpp: applyToSolverConfiguration"]}
{"id": "C30", "title": "Command line: later arguments override defaults consistently", "statement": "Applying the parsed command line sets every explicitly given option to the given value, leaves every option that was not given untouched, and is idempotent; conflicting combinations raise an error without modifying the configuration.", "quantifier": "all argument combinations, all prior configurations", "why_tests_cant": "Exponentially many combinations.", "anchors": ["src/library/natrium/utilities/CommandLineParser.cpp: applyToSolverConfiguration"]}
{"id": "C31", "title": "--standard-lbm makes populations hop exactly from node to node", "statement": "With --standard-lbm on a uniform grid the time step is such that every population moves exactly between neighbouring support points in one step.", "quantifier": "all stencils usable with the option, all cell sizes, all scalings", "why_tests_cant": "All stencils and mesh widths.", "anchors": ["src/library/natrium/utilities/CommandLineParser.cpp: standard-lbm", "src/library/natrium/utilities/CFDSolverUtilities.cpp: calculateTimestep"]}
{"id": "C32", "title": "Command line parser protocol", "statement": "Arguments can be defined only before import, read only after import; violations raise an error and change nothing.", "quantifier": "all call sequences", "why_tests_cant": "All call sequences.", "anchors": ["src/library/natrium/utilities/CommandLineParser.h: assert_clean, assert_imported"]}
{"id": "C33", "title": "Selecting a time integrator by number", "statement": "Every documented integrator number selects the integrator with the documented name and every other number raises an error.", "quantifier": "all integers", "why_tests_cant": "All integers.", "anchors": ["src/library/natrium/utilities/CFDSolverUtilities.cpp: get_integrator_by_id, get_integrator_name"]}
{"id": "C34", "title": "Runge-Kutta integrator preserves invariants and steady states", "statement": "The 5-stage Runge-Kutta integrator maps a steady state to itself and preserves every linear functional that the right-hand side annihilates (such as total mass), for every system matrix, right-hand side and step size.", "quantifier": "all matrices, vectors, step sizes", "why_tests_cant": "Continuum of systems of every size.", "anchors": ["src/library/natrium/timeintegration/RungeKutta5LowStorage.cpp: step"]}
{"id": "C35", "title": "Runge-Kutta integrator has the documented order", "statement": "For linear systems one step equals the Taylor polynomial of the exact solution up to order four with coefficients accurate to 10^-12.", "quantifier": "all matrices and vectors of every size", "why_tests_cant": "A consistency order is a statement about all systems.", "anchors": ["src/library/natrium/timeintegration/RungeKutta5LowStorage.h/.cpp"]}
{"id": "C36", "title": "Theta method solves the theta scheme", "statement": "If the linear solver returns the exact solution the theta method's result satisfies f1 - f0 = dt((1-theta) A f0 + theta A f1 + b), it fixes steady states and preserves linear invariants.", "quantifier": "all theta, A, b, f, dt", "why_tests_cant": "Continuum.", "anchors": ["src/library/natrium/timeintegration/ThetaMethod.cpp: step"]}
{"id": "C37", "title": "Exponential integrator is defined on steady states", "statement": "One step of the exponential integrator applied to a steady state returns the steady state.", "quantifier": "all systems with a steady state", "why_tests_cant": "All systems; division by the residual norm only shows at exact steady states.", "anchors": ["src/library/natrium/timeintegration/ExponentialTimeIntegrator.cpp: step"]}
{"id": "C38", "title": "Spectral filter damps by polynomial degree and preserves cell means", "statement": "The exponential filter multiplies each Legendre mode by a factor in (0,1], leaves all modes of degree below the cut-off (in particular the cell mean) unchanged and damps each mode according to its polynomial degree, in two and three dimensions.", "quantifier": "all polynomial orders, filter parameters, cell values", "why_tests_cant": "All orders and parameters.", "anchors": ["src/library/natrium/smoothing/ExponentialFilter.h/.cpp", "src/library/natrium/smoothing/NewFilter.h/.cpp"]}
{"id": "C39", "title": "Boundary identifiers are unique", "statement": "A boundary collection maps every boundary indicator to the boundary it was registered with; registering a second boundary under a used indicator raises an error and leaves the collection unchanged.", "quantifier": "all sequences of registrations", "why_tests_cant": "All call sequences.", "anchors": ["src/library/natrium/problemdescription/BoundaryCollection.h: addBoundary"]}
{"id": "C40", "title": "Boundary check accepts exactly matching meshes", "statement": "The boundary check succeeds if and only if the set of boundary indicators of the mesh equals the set of registered indicators.", "quantifier": "all meshes and collections", "why_tests_cant": "All sets.", "anchors": ["src/library/natrium/problemdescription/ProblemDescription.h: checkBoundaryConditions"]}
{"id": "C41", "title": "Crossing a periodic boundary and returning is the identity", "statement": "Transporting a point across a periodic boundary maps the boundary face to the opposite face, and crossing back returns the original point and cell.", "quantifier": "all points, cells and periodic boundaries, including meshes that are one cell wide", "why_tests_cant": "All points and meshes.", "anchors": ["src/library/natrium/boundaries/PeriodicBoundary.cpp: coordinatesAcrossPeriodicBoundary, getOppositeCellAtPeriodicBoundary"]}
{"id": "C42", "title": "The first crossed face is found correctly", "statement": "Following a straight path from a point inside a cell, the search reports 'inside' if and only if the end point lies in the closed cell, up to the round-off tolerance 1e-10 of the code; otherwise the end point lies beyond the reported face, the reported exit point lies on that face and on the path, and the path up to it stays inside the cell.", "quantifier": "all start and end points, two and three dimensions, both implementations", "why_tests_cant": "Continuum of paths, ties at edges and corners.", "anchors": ["src/library/natrium/advection/SemiLagrangian.cpp: faceCrossedFirst, faceCrossedFirstWithoutMapping"]}
{"id": "C43", "title": "Lagrangian path following terminates", "statement": "Following the characteristics of all support points always terminates, and a path that does not leave the domain and crosses fewer than 50 faces ends in the cell containing the departure point.", "quantifier": "all meshes and paths", "why_tests_cant": "All paths including those hitting corners and periodic images.", "anchors": ["src/library/natrium/advection/SemiLagrangian.cpp: fillSparseObject"]}
{"id": "C44", "title": "Ghosted and owned distribution data stay consistent", "statement": "Reading a population through the ghosted view returns the same value as through the owned view after every public mutation.", "quantifier": "all sequences of operations", "why_tests_cant": "All call histories.", "anchors": ["src/library/natrium/solver/DistributionFunctions.cpp"]}
{"id": "C45", "title": "Positivity-preserving limiter and configured integrators take effect", "statement": "Switching on the advection limiter, or selecting one of the deal.II time integrators, changes the state according to the selected method.", "quantifier": "all states and integrators", "why_tests_cant": "All states.", "anchors": ["src/library/natrium/smoothing/VmultLimiter.cpp: apply", "src/library/natrium/timeintegration/DealIIWrapper.cpp: step"]}
{"id": "C46", "title": "Configurations survive parameter files", "statement": "A configuration written to a parameter file and read back, into any configuration or by the constructor taking a file name, returns the same values from every getter; options that a file does not mention keep their values.", "quantifier": "all reachable configurations, all files, all getters", "why_tests_cant": "All configurations and files.", "anchors": ["src/library/natrium/solver/SolverConfiguration.cpp: SolverConfiguration(const std::string&), readFromXMLFile"]}
{"id": "C47", "title": "Runge-Kutta integrator is of fifth order", "statement": "One step of RungeKutta5LowStorage agrees with the exact solution up to and including the term of order five in the step size, as its class comment (fifth-order) says.", "quantifier": "all linear systems and step sizes", "why_tests_cant": "A consistency order is a statement about all systems and step sizes.", "anchors": ["src/library/natrium/timeintegration/RungeKutta5LowStorage.h: class comment", "src/library/natrium/timeintegration/RungeKutta5LowStorage.cpp: step"]}
{"id": "C48", "title": "Semi-Lagrangian streaming reproduces fields of the finite element space", "statement": "One streaming step on a mesh without boundaries replaces a population given by a field of the finite element space by the values of that field at the departure points (x - dt e); in particular uniform populations stay uniform. The error is bounded by the skipped matrix entries (below 1e-10 each).", "quantifier": "all meshes periodic in all directions, orders, stencils, fields and time steps within the limit of 50 faces per path", "why_tests_cant": "All fields, meshes and time steps; the assembled matrix depends on every path.", "anchors": ["src/library/natrium/advection/SemiLagrangian.cpp: reassemble, fillSparseObject", "src/library/natrium/advection/SemiLagrangianTools.cpp: shapeFunctionValue"]}
{"id": "C49", "title": "The sparsity pattern contains every assembled entry", "statement": "Every matrix position the semi-Lagrangian assembly adds to is contained in the sparsity pattern computed by updateSparsityPattern for the same time step.", "quantifier": "all meshes, stencils, finite elements and time steps", "why_tests_cant": "All meshes and time steps; pattern and matrix are computed by separate passes, one block row at a time.", "anchors": ["src/library/natrium/advection/SemiLagrangian.cpp: updateSparsityPattern, fillSparseObject"]}
{"id": "C50", "title": "The time stored with a boundary hit is the time of flight from the wall", "statement": "Every boundary hit recorded during the semi-Lagrangian assembly carries the time a population needs from the wall to its destination: the length of its path back from the destination support point to the hit point, over its speed, also after several reflections and periodic crossings (up to the round-off removal of the code).", "quantifier": "all meshes, stencils, time steps and paths", "why_tests_cant": "All paths; the value feeds the boundary conditions but cannot be observed directly.", "anchors": ["src/library/natrium/boundaries/BoundaryHit.h: BoundaryHit", "src/library/natrium/advection/SemiLagrangian.cpp: fillSparseObject"]}
{"id": "C51", "title": "Wall velocities are evaluated where the wall is hit", "statement": "Every hit acts exactly once, with the prescribed velocity at the point of the wall where the path hits it.", "quantifier": "all meshes, all velocity functions, all sets of hits", "why_tests_cant": "All point sets; the hit list is a std::map over real-valued points.", "anchors": ["src/library/natrium/boundaries/BoundaryHit.h: PointComp, HitListAtCell", "src/library/natrium/boundaries/SemiLagrangianBoundaryHandler.cpp: operate", "src/library/natrium/boundaries/VelocityNeqBounceBack.cpp: calculateBoundaryValues", "src/library/natrium/boundaries/FEBoundaryValues.h: getPoint"]}
{"id": "C52", "title": "A fluid moving with its walls is steady", "statement": "If all walls are velocity bounce-back walls with one common velocity and all populations are uniform with the values of that velocity (rest included), a streaming step leaves all populations unchanged up to the skipped matrix entries.", "quantifier": "all meshes, stencils, time steps, common velocities", "why_tests_cant": "All meshes and velocities.", "anchors": ["src/library/natrium/boundaries/VelocityNeqBounceBack.cpp: calculateBoundaryValues", "src/library/natrium/solver/CFDSolver.cpp: stream"]}
{"id": "C53", "title": "First-order bounce-back keeps a fluid at rest", "statement": "With first-order bounce-back walls a fluid at rest stays at rest.", "quantifier": "all meshes and time steps", "why_tests_cant": "All meshes including corners.", "anchors": ["src/library/natrium/boundaries/SLFirstOrderBounceBack.h: calculateBoundaryValues"]}
{"id": "C54", "title": "Time-dependent wall velocities are evaluated at the time of the hit", "statement": "In a step from t to t + dt, a population that needs the time s from the wall to its destination is changed with the wall velocity at time t + dt - s.", "quantifier": "all velocity functions, times and step sizes", "why_tests_cant": "All functions of time.", "anchors": ["src/library/natrium/boundaries/BoundaryHit.h: class comment (the point in time of the boundary hit is (t - dt))", "src/library/natrium/solver/CFDSolver.cpp: stream, run", "src/library/natrium/boundaries/SemiLagrangianBoundaryHandler.cpp: operate"]}
{"id": "C55", "title": "Paths at the limit of crossings leave their population unchanged", "statement": "A population whose path reaches the limit of 50 crossed faces is not changed by the streaming step, as the comment in the assembly says.", "quantifier": "all meshes, stencils, time steps and wall velocities", "why_tests_cant": "All meshes; happens at domain corners only.", "anchors": ["src/library/natrium/advection/SemiLagrangian.cpp: fillSparseObject (do not change this distribution function during streaming step)"]}
{"id": "C56", "title": "Comparing populations is symmetric and looks at every entry", "statement": "DistributionFunctions::equals(other, threshold) answers true exactly if both objects have the same number of directions and all their entries differ by at most the threshold; f.equals(g) and g.equals(f) give the same answer.", "quantifier": "all pairs of distribution functions, all layouts, all thresholds", "why_tests_cant": "All pairs of objects and all distributions of the entries among processes.", "anchors": ["src/library/natrium/solver/DistributionFunctions.cpp: equals"]}
{"id": "C57", "title": "A boundary with prescribed velocity and temperature delivers the equilibrium of that velocity and temperature", "statement": "Populations that enter through a boundary of type SLEquilibriumBoundary (prescribed velocity u and temperature T) are, after the streaming step, those of the quartic equilibrium with density 1, velocity u at the time the path crossed the boundary, and temperature T; the second population g is that of the same equilibrium: g = T (2 C_v - D) f.", "quantifier": "all stencils and scalings, all velocities and temperatures, all meshes and hit lists, all heat capacity ratios", "why_tests_cant": "The unit tests only run whole simulations with temperature 1; the expanded polynomial in the boundary class duplicates the equilibrium class and nothing compares the two", "anchors": ["src/library/natrium/boundaries/SLEquilibriumBoundary.h:67-183", "src/library/natrium/boundaries/SemiLagrangianBoundaryHandler.cpp:112-164", "src/library/natrium/solver/CompressibleCFDSolver.h:180-314"]}
{"id": "C58", "title": "A thermal wall imposes its temperature and conserves mass and momentum", "statement": "After ThermalBounceBack acted on a node, the node has the wall temperature, and its density and momentum are unchanged; fluid at rest at wall temperature is left alone; this holds for the heat capacity ratio of the simulation, with and without a second population, and the effect is still present after the streaming step.", "quantifier": "all stencils, scalings, populations f and g with positive density, all wall temperatures", "why_tests_cant": "The condition has no unit test; its effect depends on continuous populations, on the polynomial equilibrium of a 45-point stencil with truncated literals and on the order in which f and g are streamed", "anchors": ["src/library/natrium/boundaries/ThermalBounceBack.cpp:49-109", "src/library/natrium/boundaries/BoundaryTools.h:235-294", "src/library/natrium/solver/AuxiliaryCollisionFunctions.h:309-326", "src/library/natrium/solver/AuxiliaryCollisionFunctions.h:433-443", "src/library/natrium/solver/CompressibleCFDSolver.h:1007-1045"]}
{"id": "C59", "title": "The discontinuous Galerkin operator conserves every population in a periodic domain", "statement": "On any mesh with Gauss-Lobatto elements whose boundaries are periodic or velocity walls, the spectral element discontinuous Galerkin operator can be assembled; in a periodic domain the integral of every population over the domain has derivative zero, and any number of Runge-Kutta streaming steps keeps it.", "quantifier": "all stencils and scalings, all meshes (conforming, with quadrature satisfying integration by parts), all orders, all populations, all step numbers, both flux types", "why_tests_cant": "Tests run one vortex on one mesh and compare with a tolerance; conservation needs a sum over all pairs of faces for arbitrary discontinuous populations", "anchors": ["src/library/natrium/advection/SEDGMinLee.cpp:92-184", "src/library/natrium/advection/SEDGMinLee.cpp:320-536", "src/library/natrium/advection/SEDGMinLee.cpp:538-630"]}
{"id": "C60", "title": "The discontinuous Galerkin operator differentiates and leaves uniform populations alone", "statement": "For populations that are continuous across faces, the assembled right-hand side at every node is exactly minus the directional derivative of the interpolated population along the particle velocity; uniform populations are steady, between walls whenever opposite populations differ by the amount prescribed by the wall velocity.", "quantifier": "all stencils and scalings, all meshes and orders, all continuous populations, both flux types", "why_tests_cant": "Convergence tests see an error that decreases but cannot show exactness, and they never use central fluxes", "anchors": ["src/library/natrium/advection/SEDGMinLee.cpp:92-184", "src/library/natrium/advection/SEDGMinLee.cpp:320-536", "src/library/natrium/advection/SEDGMinLee.cpp:538-630"]}
{"id": "C61", "title": "Transport with the discontinuous Galerkin operator does not amplify", "statement": "The L2 norm of every population does not grow under the assembled operator in a periodic domain: its derivative is minus the weighted sum of the squared jumps at the faces; with resting walls the same holds for the sum over the directions with any weights equal on opposite directions.", "quantifier": "all stencils and scalings, all meshes and orders, all discontinuous populations, all symmetric weights", "why_tests_cant": "Stability for all data cannot be seen from a few runs; instabilities show up after many steps only", "anchors": ["src/library/natrium/advection/SEDGMinLee.cpp:92-184", "src/library/natrium/advection/SEDGMinLee.cpp:320-536", "src/library/natrium/advection/SEDGMinLee.cpp:538-630", "src/library/natrium/boundaries/VelocityNeqBounceBack.cpp:46-131"]}
{"id": "C62", "title": "Velocity walls of the discontinuous Galerkin scheme balance mass and carry along a fluid that moves with them", "statement": "With velocity bounce-back walls the total mass changes by the volume flux of the walls only; a uniform fluid in equilibrium moving with the velocity of its walls is steady, for any density; for walls with time-dependent velocity the operator uses the current velocity.", "quantifier": "all stencils and scalings, all meshes, all wall velocities, densities and times", "why_tests_cant": "The unit test has one static wall velocity and density near 1", "anchors": ["src/library/natrium/boundaries/VelocityNeqBounceBack.cpp:46-131", "src/library/natrium/advection/SEDGMinLee.cpp:360-412", "src/library/natrium/solver/CFDSolver.cpp:725-755"]}
{"id": "C63", "title": "Assembling the discontinuous Galerkin operator again gives the same operator", "statement": "Calling reassemble on an assembled SEDG operator (CFDSolver::reassemble) yields the same right-hand side as the first assembly.", "quantifier": "all meshes, stencils, populations, numbers of calls", "why_tests_cant": "Tests assemble once per object", "anchors": ["src/library/natrium/advection/SEDGMinLee.cpp:92-184", "src/library/natrium/solver/CFDSolver.cpp:846-852"]}
{"id": "C64", "title": "The short constructor of the discontinuous Galerkin operator uses upwind fluxes and the given time step", "statement": "SEDGMinLee(problem, order, stencil, delta_t) builds the same operator as the long constructor with Gauss-Lobatto points, no central fluxes and delta_t.", "quantifier": "all time steps", "why_tests_cant": "Tests only call it without a time step", "anchors": ["src/library/natrium/advection/SEDGMinLee.cpp:39-66", "src/library/natrium/advection/SEDGMinLee.h:205-215"]}
{"id": "C65", "title": "The equilibrium initialisation puts the given density and velocity into the populations", "statement": "After CFDSolver::initializeDistributions with the equilibrium option, the populations of every owned degree of freedom sum to the prescribed density and their first moment is density times prescribed velocity, whatever collision scheme is configured; prescribed fields and other nodes are unchanged, and it succeeds for every positive density.", "quantifier": "all collision schemes, stencils, scalings, densities, velocities, numbers of nodes", "why_tests_cant": "Tests initialise two or three flows on D2Q9 with one scheme; the shifted variables of BGKStandardTransformed and the per-class equilibria are not covered", "anchors": ["src/library/natrium/solver/CFDSolver.cpp:1103-1129", "src/library/natrium/collision/CollisionModel.cpp:14-20", "src/library/natrium/collision/BGKStandard.cpp:23-42", "src/library/natrium/collision/BGKStandardTransformed.cpp:23-43"]}
{"id": "C66", "title": "collideAll of every collision class conserves mass and momentum", "statement": "collideAll of BGKStandard, BGKSteadyState, BGKStandardTransformed, BGKIncompressible, BGKRegularized, MRTStandard and MRTEntropic without forces keeps mass and momentum of the populations at every node, stores their density and velocity, and touches no other node.", "quantifier": "all classes, stencils they accept, scalings, viscosities, time steps, populations, node lists", "why_tests_cant": "The hand-written D2Q9, D3Q15 and D3Q19 collisions are tested on single random nodes against the generic one; several classes have no test at all", "anchors": ["src/library/natrium/collision/BGK.cpp:47-117", "src/library/natrium/collision/BGKStandard.cpp:44-652", "src/library/natrium/collision/BGKSteadyState.cpp:50-157", "src/library/natrium/collision/BGKStandardTransformed.cpp:46-162", "src/library/natrium/collision/BGKIncompressible.cpp:40-190", "src/library/natrium/collision/BGKRegularized.cpp:41-519", "src/library/natrium/collision/MRTStandard.cpp:43-163", "src/library/natrium/collision/MRTEntropic.cpp:24-305"]}
{"id": "C67", "title": "Equilibrium populations are fixed points of the collision classes", "statement": "Populations set by getEquilibriumDistributions for any density and velocity are returned unchanged by collideAll of the same class, with the same density and velocity stored.", "quantifier": "all classes, accepted stencils, scalings, relaxation times, densities, velocities", "why_tests_cant": "Tests start from random populations or density 1", "anchors": ["src/library/natrium/collision/CollisionModel.cpp:14-20", "src/library/natrium/collision/MRTStandard.cpp:121-139", "src/library/natrium/collision/MRTEntropic.cpp:100-138", "src/library/natrium/collision/BGKIncompressible.cpp:129-175", "src/library/natrium/collision/BGKRegularized.cpp:161-228"]}
{"id": "C68", "title": "The regularized collision relaxes the stress with the rate of the viscosity", "statement": "One collision of BGKRegularized multiplies the non-equilibrium momentum flux by 1 - 1/(tau + 1/2), for every population and in every scaling of the stencil.", "quantifier": "all populations, scalings, relaxation times, D2Q9 and D3Q19", "why_tests_cant": "No test compares moments; with scaling 1 in 2D the code happens to be right", "anchors": ["src/library/natrium/collision/BGKRegularized.cpp:161-228", "src/library/natrium/collision/BGKRegularized.cpp:428-519"]}
{"id": "C69", "title": "A constant force adds exactly force times time step to the momentum", "statement": "collideAll of a collision object with an external force changes the momentum of every node by time step times force, keeps its mass, and stores the velocity (momentum + dt F / 2) / density, for each of the three force types and every class and stencil that accepts one.", "quantifier": "all classes, stencils, scalings, forces, populations, force types", "why_tests_cant": "Tests look at Poiseuille profiles on D2Q9 with scaling close to 1 and a tolerance", "anchors": ["src/library/natrium/collision/BGKStandard.cpp:152-239", "src/library/natrium/collision/BGKStandard.cpp:357-477", "src/library/natrium/collision/ExternalForceFunctions.h:19-197", "src/library/natrium/solver/CFDSolver.cpp:350-359"]}
{"id": "C70", "title": "The iterative initialisation terminates after the configured number of iterations with the prescribed velocity", "statement": "The iterative initialisation stops after at most the configured number of iterations; the velocity field is the prescribed one at the end, every stored density is the sum of the populations, and every collision brings the velocity of the populations closer to the prescribed velocity.", "quantifier": "all classes, stencils, streaming operators, targets, iteration limits, initial fields", "why_tests_cant": "Tests run one vortex for a fixed number of iterations and check the pressure error", "anchors": ["src/library/natrium/solver/CFDSolver.cpp:1268-1328", "src/library/natrium/solver/SolverConfiguration.cpp:221-227", "src/library/natrium/collision/BGKRegularized.cpp:304-332"]}
{"id": "C71", "title": "Changing the time step of a collision object keeps the viscosity", "statement": "After any sequence of setTimeStep calls the collision object is identical to the one constructed with the last time step: relaxation parameter, prefactor and viscosity agree.", "quantifier": "all classes, stencils, viscosities, sequences of time steps", "why_tests_cant": "A test checks one change at most; sequences accumulate errors if one member is not updated", "anchors": ["src/library/natrium/collision/BGK.h:105-112", "src/library/natrium/collision/MRT.h:40-47", "src/library/natrium/collision/CollisionModel.h:152-157"]}
{"id": "C72", "title": "The collision objects of the initialisation compute what the collision step of the time loop computes", "statement": "BGKStandard::collideAll and BGKSteadyState::collideAll give the same populations, densities and velocities as the BGK collision selected in the time loop, for the same configuration, both inside and outside the initialisation; they succeed on the same inputs up to the velocity limit of their assertions.", "quantifier": "all stencils in closed form, scalings, viscosities, time steps, populations", "why_tests_cant": "Two implementations, one unrolled per stencil and one generic, can only be compared on samples by tests", "anchors": ["src/library/natrium/collision/BGKStandard.cpp:44-652", "src/library/natrium/collision/BGKSteadyState.cpp:50-157", "src/library/natrium/collision_advanced/CollisionSelection.h:20-120", "src/library/natrium/collision_advanced/CollisionSchemes.h:20-60"]}
{"id": "C73", "title": "The initialisation from gradients adds exactly the viscous momentum flux", "statement": "The initialisation from velocity gradients keeps density and velocity of every node and changes its momentum flux by that of a Newtonian fluid with the configured viscosity, once per degree of freedom, for every time step and collision scheme.", "quantifier": "all stencils in closed form, scalings, viscosities, time steps, gradients, numbers of cells sharing a node, schemes", "why_tests_cant": "Tests check that the run does not crash; with time step 1 and discontinuous elements the code is right", "anchors": ["src/library/natrium/solver/CFDSolver.cpp:1143-1266", "src/library/natrium/solver/CFDSolver.cpp:1417-1430"]}
{"id": "C74", "title": "The analytic Taylor-Green vortex in the plane solves the Navier-Stokes equations", "statement": "Velocity and pressure (density times squared speed of sound) of the analytic solution of TaylorGreenVortex2D satisfy the incompressible Navier-Stokes equations with the given viscosity at every point and time, and are periodic with the side length, for every side length accepted by the constructor.", "quantifier": "all viscosities, side lengths, speeds of sound, mean velocities, points, times, both density initialisations", "why_tests_cant": "Convergence tests use side length 2 PI and a tolerance, a wrong decay rate or pressure scaling for other lengths shows up as an error that does not converge", "anchors": ["src/library/natrium/benchmarks/TaylorGreenVortex2D.cpp:20-60", "src/library/natrium/benchmarks/TaylorGreenVortex2D.h:54-92"]}
{"id": "C75", "title": "The analytic Couette flow is the flow started by the moving plate", "statement": "The analytic velocity of CouetteFlow2D and CouetteFlow3D satisfies the diffusion equation with the configured viscosity up to rounding, equals the plate velocities at the plates at all times, and starts from rest.", "quantifier": "all viscosities, plate velocities, heights, points, times", "why_tests_cant": "The series is truncated by a data dependent test; tests look at single points at large times", "anchors": ["src/library/natrium/benchmarks/CouetteFlow2D.cpp:46-151", "src/library/natrium/benchmarks/CouetteFlow3D.cpp:53-156"]}
{"id": "C76", "title": "The Poiseuille force drives the requested bulk velocity", "statement": "The steady flow between the walls of PoiseuilleFlow2D and PoiseuilleFlow3D under the force set by the constructor has mean velocity u_bulk over the height, and is the analytic velocity of the benchmark.", "quantifier": "all viscosities, bulk velocities, heights, all steady profiles", "why_tests_cant": "Tests simulate one channel and compare maximum velocities with a tolerance", "anchors": ["src/library/natrium/benchmarks/PoiseuilleFlow2D.cpp:22-42", "src/library/natrium/benchmarks/PoiseuilleFlow2D.cpp:113-123", "src/library/natrium/benchmarks/PoiseuilleFlow3D.cpp:24-46", "src/library/natrium/benchmarks/PoiseuilleFlow3D.cpp:131-141"]}
{"id": "C77", "title": "The initial state of the three-dimensional Taylor-Green vortex is divergence free with matching pressure", "statement": "The initial velocity of TaylorGreenVortex3D has divergence zero and is periodic on the cube; its initial density corresponds to a pressure that solves the pressure Poisson equation of this velocity, in the incompressible and the compressible scaling.", "quantifier": "all points, speeds of sound, density numerators", "why_tests_cant": "Tests run a few steps and check that nothing explodes", "anchors": ["src/library/natrium/benchmarks/TaylorGreenVortex3D.cpp:38-62", "src/library/natrium/benchmarks/TaylorGreenVortex3D.cpp:78-125"]}
{"id": "C78", "title": "The grid transformations of the benchmarks keep the cells intact", "statement": "The transformations applied to the grids of ShearLayer2D, Riemann2D, CouetteFlow2D, CouetteFlow3D, SinusoidalShear2D and LubricationSine map the domain one-to-one onto the intended domain, keep the order of coordinates and map walls to walls, for every parameter accepted by the code.", "quantifier": "all parameters, all points of the domain", "why_tests_cant": "Inverted cells only appear for some parameters and positions between the vertices that tests look at", "anchors": ["src/library/natrium/benchmarks/ShearLayer2D.h:71-84", "src/library/natrium/benchmarks/Riemann2D.h:95-108", "src/library/natrium/benchmarks/CouetteFlow2D.h:86-93", "src/library/natrium/benchmarks/CouetteFlow3D.h:90-101", "src/library/natrium/benchmarks/SinusoidalShear2D.h:80-108", "src/library/natrium/benchmarks/LubricationSine.h:85-128"]}
{"id": "C79", "title": "The advection benchmark compares with the exact solution at the right time", "statement": "The analytic solution of AdvectionBenchmark is the periodic solution of the advection equation with velocity 1 and the documented initial profile, its evaluation ends for every point and time, and the time loop makes as many steps as reach the end time, with the simulated time being the number of steps times the step.", "quantifier": "all points, times, step sizes, end times, operators, both profiles, with and without output", "why_tests_cant": "Tests run without output; the loop that maps points back to the unit interval is only run a few times", "anchors": ["src/library/natrium/benchmarks/AdvectionBenchmark.cpp:91-119", "src/library/natrium/benchmarks/AdvectionBenchmark.cpp:216-268"]}
{"id": "C80", "title": "The backward facing step has the requested inflow", "statement": "The constructor of BackwardFacingStep2D builds the grid for the given lengths and sets a positive initial density; the inflow velocity vanishes at the walls, has the requested mean and is at most 3/2 of it.", "quantifier": "all lengths, heights, velocities", "why_tests_cant": "Reading members before their initialisation may give the right values by accident", "anchors": ["src/library/natrium/benchmarks/BackwardFacingStep2D.cpp:21-68", "src/library/natrium/benchmarks/BackwardFacingStep2D.cpp:139-161", "src/library/natrium/benchmarks/BackwardFacingStep2D.h:36-74"]}
{"id": "C81", "title": "A benchmark run is a run with an error table", "statement": "BenchmarkCFDSolver and BenchmarkCompressibleCFDSolver do exactly what the base class does, write the same files, and in addition one line of the error table in each iteration of the run divisible by the table interval.", "quantifier": "all configurations, operators, initial states, lengths of runs", "why_tests_cant": "Tests check that the table exists after a run whose length is a multiple of all intervals", "anchors": ["src/library/natrium/solver/BenchmarkCFDSolver.cpp:45-55", "src/library/natrium/solver/BenchmarkCompressibleCFDSolver.cpp:45-60", "src/library/natrium/solver/CFDSolver.cpp:876-902", "src/library/natrium/solver/CompressibleCFDSolver.h:1006-1051"]}
{"id": "C82", "title": "The error table contains the maximum and L2 errors", "statement": "After ErrorStats::update the maximum errors are the largest deviations over all degrees of freedom of all processes, the L2 errors are the norms given in the documentation, and a second update in the same iteration changes nothing.", "quantifier": "all fields, distributions of degrees of freedom over processes, cells, quadratures, dimensions 2 and 3", "why_tests_cant": "Tests compare with tolerance on one process and one mesh", "anchors": ["src/library/natrium/solver/ErrorStats.cpp:18-216", "src/library/natrium/solver/ErrorStats.h:38-130", "src/library/natrium/utilities/Math.h:77-106", "src/library/natrium/utilities/Math.cpp:28-74"]}
{"id": "C83", "title": "The initial states of shear layer and droplet fit their boundaries", "statement": "The initial velocity of ShearLayer2D is continuous, divergence free, agrees on opposite sides of the unit square and is bounded by the parameters; the initial density of Droplet2D lies between gas and liquid density, agrees on opposite sides, decreases with the distance from the centre and is the mean density at the nominal radius.", "quantifier": "all parameters, points", "why_tests_cant": "A jump across the periodic boundary or the mid line only shows as noise in a simulation", "anchors": ["src/library/natrium/benchmarks/ShearLayer2D.cpp:39-51", "src/library/natrium/benchmarks/Droplet2D.cpp:95-123"]}
{"id": "C84", "title": "The entropic collision classes conserve mass and momentum", "statement": "A collision with KBCStandard, KBCCentral or EntropicStabilized keeps mass and momentum of every node, stores the density and velocity of the populations and leaves other nodes alone; during initialisation it keeps the mass and the prescribed velocity.", "quantifier": "all populations, nodes, relaxation parameters, scalings, stencils the class handles", "why_tests_cant": "Tests run few flows on unscaled stencils and look at global sums with tolerance", "anchors": ["src/library/natrium/collision/KBCStandard.cpp:92-497", "src/library/natrium/collision/KBCStandard.cpp:499-1026", "src/library/natrium/collision/KBCCentral.cpp:40-484", "src/library/natrium/collision/EntropicStabilized.cpp:62-232"]}
{"id": "C85", "title": "The KBC collisions realise the configured viscosity", "statement": "With KBCStandard and KBCCentral the deviation of the momentum flux from its equilibrium value is multiplied by 1-1/(tau+1/2), tau given by viscosity and time step, whatever the entropic stabilizer does to the higher moments; the equilibrium value agrees with the Navier-Stokes flux up to fourth order of the velocity.", "quantifier": "all populations, viscosities, time steps, scalings, D2Q9 and D3Q15", "why_tests_cant": "The entropic parameter depends on the state; viscosity is only measured in single flows with tolerance", "anchors": ["src/library/natrium/collision/KBCStandard.cpp:139-192", "src/library/natrium/collision/KBCStandard.cpp:593-727", "src/library/natrium/collision/KBCStandard.cpp:887-1023", "src/library/natrium/collision/KBCCentral.cpp:88-204"]}
{"id": "C86", "title": "The KBC collisions do not lead away from equilibrium", "statement": "The distance of the populations to the equilibrium, sum (f-feq)^2/feq, is multiplied by at most (1-1/(tau+1/2))^2 < 1 by a KBC collision, and the higher moments are relaxed to the point nearest to the equilibrium.", "quantifier": "all populations, viscosities, time steps with positive equilibrium", "why_tests_cant": "Statement about optimality over a line for all states", "anchors": ["src/library/natrium/collision/KBCStandard.cpp:391-497", "src/library/natrium/collision/KBCStandard.cpp:936-1023", "src/library/natrium/collision/KBCCentral.cpp:374-474"]}
{"id": "C87", "title": "The equilibria of the entropic classes hold density and velocity and do not change", "statement": "getEquilibriumDistribution of KBCStandard, KBCCentral and EntropicStabilized has the given density and velocity, is positive and defined below the lattice speed (product form), and a collision of the same class leaves it unchanged.", "quantifier": "all densities, velocities, scalings, stencils the class handles", "why_tests_cant": "Tests compare single populations for few velocities", "anchors": ["src/library/natrium/collision/KBCStandard.cpp:26-64", "src/library/natrium/collision/KBCStandard.cpp:247-271", "src/library/natrium/collision/MRT.cpp:24-41"]}
{"id": "C88", "title": "Entropic collisions refuse stencils they cannot handle and keep equilibria on the others", "statement": "Each of the three classes stops with an exception for the stencils it has no collision for; EntropicStabilized leaves the equilibrium unchanged on D2Q9 and D3Q19.", "quantifier": "all stencils, nodes, populations, densities, velocities", "why_tests_cant": "Combinations of stencil and class are not all tested", "anchors": ["src/library/natrium/collision/KBCStandard.cpp:66-90", "src/library/natrium/collision/KBCCentral.cpp:23-38", "src/library/natrium/collision/EntropicStabilized.cpp:30-60", "src/library/natrium/dataprocessors/PseudoEntropicStabilizer.cpp:286-317"]}
{"id": "C89", "title": "EntropicStabilized realises the configured viscosity", "statement": "A collision with EntropicStabilized multiplies the stress by 1-1/(tau+1/2) and so never increases it.", "quantifier": "all populations, viscosities, D2Q9 and D3Q19", "why_tests_cant": "The factor depends on logarithms of the state; tests only run one flow", "anchors": ["src/library/natrium/collision/EntropicStabilized.cpp:140-232"]}
{"id": "C90", "title": "entropyDerivative is the derivative of entropy", "statement": "entropy(f) is - sum f ln(f/w), asserted to be called for positive populations, and entropyDerivative(f, d) is its derivative in the direction d.", "quantifier": "all positive populations, directions", "why_tests_cant": "Limit over all step sizes and directions", "anchors": ["src/library/natrium/collision/EntropicStabilized.cpp:262-290"]}
{"id": "C91", "title": "The pseudo-entropic regularisation minimises sum f^2/w under fixed moments", "statement": "With the scheme PSEUDO_ENTROPY_MAXIMIZATION the populations of every node are replaced by the unique minimiser of sum f^2/w among all populations with the same mass, momentum and momentum flux (with e: trace-free part of the flux); repeating it changes nothing, equilibria are left alone, other nodes are untouched.", "quantifier": "all populations, nodes, scalings, stencils", "why_tests_cant": "Minimality over all populations; tests only check some matrix entries", "anchors": ["src/library/natrium/dataprocessors/PseudoEntropicStabilizer.cpp:24-317", "src/library/natrium/solver/CFDSolver.cpp:606-621"]}
{"id": "C92", "title": "The multistep collision conserves total mass and momentum in every run", "statement": "With BGKMultistep (Adams-Moulton or BDF2) the total mass and the total momentum stay what they were through any sequence of collisions and of streaming steps which keep the totals of populations and histories.", "quantifier": "all sequences of collisions and moves, populations, nodes, viscosities, time steps, stencils, both schemes", "why_tests_cant": "The history of former populations and equilibria couples all collisions of a run; the test checks the densities of some collisions only", "anchors": ["src/library/natrium/collision/BGKMultistep.cpp:52-86", "src/library/natrium/collision/BGKMultistep.cpp:88-390", "src/library/natrium/solver/CFDSolver.cpp:686-744"]}
{"id": "C93", "title": "The multistep collision conserves mass and momentum of every node", "statement": "A collision with BGKMultistep changes neither the density nor the momentum of a node.", "quantifier": "all populations, nodes, runs", "why_tests_cant": "Needs all histories; after streaming the history has other moments than the populations", "anchors": ["src/library/natrium/collision/BGKMultistep.cpp:88-390"]}
{"id": "C94", "title": "The multistep collisions are the Adams-Moulton and BDF2 methods for the BGK equation", "statement": "The populations after k collisions are the transformed variables of k steps of the third order Adams-Moulton method, resp. BDF2, for y' = -(y-e)/lambda with lambda the viscosity divided by the squared speed of sound and e the equilibrium.", "quantifier": "all populations, viscosities, time steps, number of collisions", "why_tests_cant": "Equality with a method over all steps; tests do not look at the order", "anchors": ["src/library/natrium/collision/BGKMultistep.cpp:88-390", "src/library/natrium/solver/CFDSolver.cpp:331-347"]}
{"id": "C95", "title": "Repeated multistep collisions lead to the equilibrium", "statement": "Collisions with BGKMultistep bring the populations of every node to the equilibrium of their density and velocity, for every viscosity and time step; equilibria do not change.", "quantifier": "all populations, viscosities, time steps", "why_tests_cant": "Limit of infinitely many collisions, all viscosities", "anchors": ["src/library/natrium/collision/BGKMultistep.cpp:88-390", "src/library/natrium/solver/CFDSolver.cpp:331-347"]}
{"id": "C96", "title": "The first multistep collision is a BGK collision", "statement": "The first collision of BGKMultistep, which has no history yet, gives the populations that BGKStandard gives for the same viscosity and time step.", "quantifier": "all populations, viscosities, time steps", "why_tests_cant": "Tests only compare densities", "anchors": ["src/library/natrium/collision/BGKMultistep.cpp:56-63", "src/library/natrium/collision/BGKMultistep.cpp:300-390"]}
{"id": "C97", "title": "External forces add the right momentum in multistep collisions", "statement": "Every collision with BGKMultistep and one of the force schemes adds time step times force to the momentum of each node.", "quantifier": "all populations, forces, force schemes, runs", "why_tests_cant": "Tests run the multistep collision without forces", "anchors": ["src/library/natrium/collision/BGKMultistep.cpp:88-390", "src/library/natrium/collision/ExternalForceFunctions.h"]}
{"id": "C98", "title": "Multistep collisions work on every stencil or refuse it", "statement": "BGKMultistep relaxes the populations on D2Q9 and D3Q19 and stops with an exception on other stencils.", "quantifier": "all stencils, populations, runs", "why_tests_cant": "The tests use D2Q9 and look at the density only, which a missing collision keeps too", "anchors": ["src/library/natrium/collision/BGKMultistep.cpp:74-83", "src/library/natrium/collision/BGKMultistep.cpp:394-777"]}
{"id": "C99", "title": "Multistep collisions can be used in the initialisation", "statement": "With inInitializationProcedure set, BGKMultistep collides with the prescribed velocities, as the iterative initialisation of the solver expects.", "quantifier": "all populations, velocities, stencils", "why_tests_cant": "The reading of uninitialised memory usually goes unnoticed", "anchors": ["src/library/natrium/collision/BGKMultistep.cpp:88-390", "src/library/natrium/collision/BGKMultistep.cpp:394-777", "src/library/natrium/solver/CFDSolver.cpp:1268-1328"]}
{"id": "C100", "title": "The reported mass is the integral of the density", "statement": "The mass in results_table.txt is the integral over the domain of the density as a finite element function: linear in the density, density times volume for a uniform density, and independent of how the mesh is distributed over processes.", "quantifier": "all meshes, elements, quadrature rules, densities, distributions over processes", "why_tests_cant": "Quantifies over all partitions of the mesh and all fields", "anchors": ["src/library/natrium/solver/PhysicalProperties.cpp:269-310"]}
{"id": "C101", "title": "The reported kinetic energy is the integral of rho u^2 / 2", "statement": "The kinetic energy in results_table.txt is the integral of half the density times the squared velocity of the solution, and never negative.", "quantifier": "all meshes, elements, support points, quadrature rules, solutions", "why_tests_cant": "Tests use elements whose quadrature points are the support points; other combinations can be configured", "anchors": ["src/library/natrium/solver/PhysicalProperties.cpp:29-131", "src/library/natrium/advection/AdvectionOperator.cpp:74-79"]}
{"id": "C102", "title": "The reported enstrophy is the integral of the squared vorticity", "statement": "The enstrophy in results_table.txt is the integral of the squared vorticity in two and three dimensions, and agrees with the one in the table of the global turbulence statistics.", "quantifier": "all meshes, elements, velocities", "why_tests_cant": "Equality for all velocity fields; the test compares fields for which different definitions agree", "anchors": ["src/library/natrium/solver/PhysicalProperties.cpp:133-267", "src/library/natrium/dataprocessors/GlobalTurbulenceStats.cpp:302-316"]}
{"id": "C103", "title": "The reported extreme pressures bound the pressure", "statement": "maxP and minP in results_table.txt are pressures cs^2(rho-1) that occur in the solution, and no degree of freedom of any process has a larger or smaller one.", "quantifier": "all densities, distributions over processes", "why_tests_cant": "Bound for all degrees of freedom of all solutions", "anchors": ["src/library/natrium/solver/PhysicalProperties.cpp:312-320"]}
{"id": "C104", "title": "The reported mean velocity is the mean of the velocity", "statement": "mean(ux) in results_table.txt is the integral of the velocity divided by the volume.", "quantifier": "all meshes, elements, velocities", "why_tests_cant": "The test uses a linear profile, for which the arithmetic mean of the nodes is right", "anchors": ["src/library/natrium/solver/PhysicalProperties.cpp:322-363"]}
{"id": "C105", "title": "The reported entropy is the integral of the entropy density", "statement": "The entropy in results_table.txt is the integral over the domain of -sum f log(f/w).", "quantifier": "all meshes, elements, populations", "why_tests_cant": "Independent of the element order for all populations; not tested", "anchors": ["src/library/natrium/solver/PhysicalProperties.cpp:365-411"]}
{"id": "C106", "title": "The lines of the results table match its header and the current state", "statement": "Every line of results_table.txt has one number for each column of the header, and each number belongs to the state of the solver when the line was written.", "quantifier": "all sequences of states, solutions", "why_tests_cant": "The object caches by iteration number; all histories of calls matter", "anchors": ["src/library/natrium/solver/SolverStats.h:53-124", "src/library/natrium/solver/SolverStats.h:168-213"]}
{"id": "C107", "title": "The global turbulence statistics are averages over the domain", "statement": "The columns < x > of the global turbulence table are averages of x over the domain.", "quantifier": "all domains, solutions", "why_tests_cant": "Quantifies over all domains; a unit domain hides the missing division by the volume", "anchors": ["src/library/natrium/dataprocessors/GlobalTurbulenceStats.cpp:158-340"]}
{"id": "C108", "title": "The legend of the global turbulence statistics numbers the columns", "statement": "Every column of the global turbulence table has exactly one entry in the legend, with its number and its contents.", "quantifier": "all columns, dimensions, solutions", "why_tests_cant": "More than a hundred columns; the legend is not read by any test", "anchors": ["src/library/natrium/dataprocessors/GlobalTurbulenceStats.cpp:80-156", "src/library/natrium/dataprocessors/GlobalTurbulenceStats.cpp:238-316"]}
{"id": "C109", "title": "The compressible turbulence table contains what its legend names", "statement": "The legend of the compressible turbulence statistics numbers the columns of the table; maxMach is the largest Mach number of the solution and totalEnergy its total energy.", "quantifier": "all solutions, meshes, distributions over processes", "why_tests_cant": "Quantifies over all solutions; not tested", "anchors": ["src/library/natrium/dataprocessors/CompressibleTurbulenceStats.cpp:49-205"]}
{"id": "C110", "title": "The turbulence table contains mean and rms velocities in the planes", "statement": "For each plane of the configuration turbulence_table.txt contains the mean velocity in the plane and the root mean square of the deviations from it, in the columns named in the header.", "quantifier": "all planes, meshes, elements, velocities, distributions over processes", "why_tests_cant": "All selections of points by a tolerance and all non-uniform point sets; not tested", "anchors": ["src/library/natrium/solver/TurbulenceStats.cpp:16-88", "src/library/natrium/solver/TurbulenceStats.cpp:121-219"]}
{"id": "C111", "title": "The Reynolds averages of the output are time averages", "statement": "ux_average, uy_average, uz_average are the arithmetic means of the velocity over all iterations of the run so far, each counted once.", "quantifier": "all runs, velocities, numbers of iterations", "why_tests_cant": "Induction over the running average in floating form; not tested", "anchors": ["src/library/natrium/solver/TurbulenceStats.cpp:221-245", "src/library/natrium/solver/CFDSolver.cpp:998-999"]}
{"id": "C112", "title": "Grad's function has the prescribed moments", "statement": "The populations GradsFunction computes have the density, momentum and (symmetrised) pressure tensor they were computed from; with the moments of the equilibrium they are the equilibrium.", "quantifier": "all stencils with isotropic weights, scalings, positive densities, momenta, tensors", "why_tests_cant": "Equality of moments for all reals; tests check samples with a tolerance", "anchors": ["src/library/natrium/boundaries/GradsFunction.h:26-50"]}
{"id": "C113", "title": "A boundary reports the values it was constructed with", "statement": "getBoundaryValues of a boundary constructed with a pressure, velocity, velocity gradient, function, or (p,u,T) returns exactly these values, flags the quantities that are prescribed, and nothing else; sizes that do not match the dimension are refused.", "quantifier": "all constructors, values, functions, dimensions", "why_tests_cant": "All constructors and values at all points; not tested", "anchors": ["src/library/natrium/boundaries/BoundaryFlags.h:60-201", "src/library/natrium/boundaries/BoundaryTools.h:63-140", "src/library/natrium/boundaries/Boundary.h:87-111"]}
{"id": "C114", "title": "Particles of a multiphase fluid interact with the force of the pseudo-potential", "statement": "In the multiphase collision neighbouring particles interact with the force -G psi grad psi of the configured pseudo-potential (Shan-Chen, Sukop, Carnahan-Starling), so that a density gradient in a fluid at rest causes motion.", "quantifier": "all pseudo-potentials, parameters, density fields", "why_tests_cant": "Derivatives of psi for all densities; the unit test of the class is commented out", "anchors": ["src/library/natrium/collision/BGKPseudopotential.cpp:110-484", "src/library/natrium/collision/BGKPseudopotential.cpp:337-385", "src/library/natrium/collision/BGKPseudopotential.h:26-32"]}
{"id": "C115", "title": "An external force acts on a multiphase fluid", "statement": "In the multiphase collision an external force F changes the momentum of each node by dt F per step, the mass stays, and the velocity is that in the middle of the step, for each forcing scheme and stencil the model can be built with.", "quantifier": "all forces, forcing schemes, stencils, fields", "why_tests_cant": "All stencils and forcing schemes and fields; not tested", "anchors": ["src/library/natrium/collision/BGKPseudopotential.cpp:94-484", "src/library/natrium/solver/CFDSolver.cpp:354-362"]}
{"id": "C116", "title": "The multiphase collision collides each node once", "statement": "One call of collideAll of the multiphase collision collides every node exactly once.", "quantifier": "all meshes (lists of degrees of freedom per cell), fields", "why_tests_cant": "Nodes shared by cells occur only on continuous elements and meshes with several cells", "anchors": ["src/library/natrium/collision/BGKPseudopotential.cpp:110-484"]}
{"id": "C117", "title": "The multiphase collision can be used for the initialisation", "statement": "With inInitializationProcedure the multiphase collision keeps the given velocities and moves the populations towards them.", "quantifier": "all stencils, fields, forcing schemes", "why_tests_cant": "Reading an uninitialised vector may appear to work; all stencils", "anchors": ["src/library/natrium/collision/BGKPseudopotential.cpp:205-484"]}
{"id": "C118", "title": "checkParallelLines accepts exactly pairs of parallel lines and orients them", "statement": "checkParallelLines returns true for two parallel or antiparallel lines with different end points and the same length, with the second line oriented like the first, and for no others; a refusal names the reason and leaves the points as they are.", "quantifier": "all pairs of lines in the plane", "why_tests_cant": "Uncountably many lines; tests check some", "anchors": ["src/library/natrium/boundaries/BoundaryTools.cpp:20-68", "src/library/natrium/utilities/Math.h:58-69"]}
{"id": "C119", "title": "getInterfacialLinesByBoundaryIndicator finds the lines of the interfaces", "statement": "For two boundary indicators the function returns true with the end points of the two interfaces if the vertices of each lie on a line, and false otherwise.", "quantifier": "all meshes, indicators, lines", "why_tests_cant": "All meshes, including steep lines and indicators that do not occur", "anchors": ["src/library/natrium/boundaries/BoundaryTools.cpp:70-160", "src/library/natrium/utilities/Math.h:128-143"]}
{"id": "C120", "title": "The flow variables at a boundary point are those of the solution", "statement": "The density, velocity and their time derivatives in FEBoundaryValues are those of the finite element solution at the boundary point: interpolated values, the continuity equation and the compressible momentum equation.", "quantifier": "all stencils, elements, populations, viscosities, requests that succeed", "why_tests_cant": "Differential equations for all fields; not tested", "anchors": ["src/library/natrium/boundaries/FEBoundaryValues.h:142-164", "src/library/natrium/boundaries/FEBoundaryValues.h:252-382"]}
{"id": "C121", "title": "Every quantity a boundary requests is delivered", "statement": "FEBoundaryValues::reinit with any combination of flags makes the requested quantities available for every solution with positive densities.", "quantifier": "all flags, solutions", "why_tests_cant": "All combinations of flags and all density fields", "anchors": ["src/library/natrium/boundaries/FEBoundaryValues.h:142-164", "src/library/natrium/boundaries/FEBoundaryValues.h:252-382", "src/library/natrium/boundaries/BoundaryFlags.h:20-31"]}
{"id": "C122", "title": "is_angle_small compares angles with a threshold in degrees", "statement": "is_angle_small(v,w,d) is true exactly if the angle between v and w is below d degrees.", "quantifier": "all vectors, thresholds", "why_tests_cant": "All thresholds; the test uses the default only", "anchors": ["src/library/natrium/utilities/Math.h:58-69"]}
{"id": "C123", "title": "The sparsity pattern of the SEDG matrix has a place for every entry of the assembly", "statement": "Every entry the assembly of the SEDG advection operator writes (cell terms, inner fluxes, periodic fluxes, wall fluxes) has a place in the pattern made by updateSparsityPattern, for any numbering of the boundaries.", "quantifier": "all meshes without local refinement, stencils, fluxes, boundary ids", "why_tests_cant": "Trilinos refuses entries without a place only at run time for the given mesh; all shipped domains number the boundaries like the faces of a box", "anchors": ["src/library/natrium/advection/SEDGMinLee.cpp:186-318", "src/library/natrium/utilities/DealiiExtensions.cpp:49-362", "src/library/natrium/boundaries/PeriodicBoundary.cpp:90-178", "src/library/natrium/boundaries/BoundaryTools.cpp:162-231"]}
{"id": "C124", "title": "Opposite cells at periodic boundaries are paired at all refinement levels", "statement": "The periodicity map pairs exactly the active cells that lie opposite to each other on the two boundaries, at every refinement level and for every relative orientation of the faces; cells that are refined differently are refused.", "quantifier": "all refinement trees, orientations, both dimensions", "why_tests_cant": "Unboundedly deep trees of refinements; tests use uniform grids", "anchors": ["src/library/natrium/utilities/DealiiExtensions.cpp:384-556"]}
{"id": "C125", "title": "The solver reports the number of grid points at non-periodic boundaries", "statement": "The number in the log 'Number of non-periodic boundary grid points' is the number of degrees of freedom that lie on a boundary that is not periodic.", "quantifier": "all meshes, boundary collections (walls, periodic, mixed)", "why_tests_cant": "All meshes and numberings of degrees of freedom; not tested", "anchors": ["src/library/natrium/solver/CFDSolver.cpp:536-558", "src/library/natrium/utilities/DealiiExtensions.cpp:616-694"]}
{"id": "C126", "title": "set_boundary_ids_at_hyperplane marks the boundary faces in the plane", "statement": "After the call exactly the boundary faces whose vertices are all closer than tol to the plane carry the id; all other faces are as before.", "quantifier": "all meshes, planes, tolerances, ids", "why_tests_cant": "All meshes, including planes that contain interior faces; not tested", "anchors": ["src/library/natrium/utilities/DealiiExtensions.cpp:775-800"]}
{"id": "C127", "title": "The mass in the domain over a whole simulation", "statement": "In a run with the discontinuous Galerkin scheme and the 5-stage Runge-Kutta integrator the total mass at the end and at every checkpoint is the initial mass less what the walls displaced since; it is exactly the initial mass on periodic domains and between walls at rest, whatever the external force.", "quantifier": "all meshes, stencils with closed-form moments, collision and forcing schemes, initial states, numbers of steps", "why_tests_cant": "Holds for every flow and length of run only if collision, streaming, boundary fluxes, integrator and loop fit together; tests look at one short run with a tolerance", "anchors": ["src/library/natrium/solver/CFDSolver.cpp:402-411", "src/library/natrium/solver/CFDSolver.cpp:647-765", "src/library/natrium/solver/CFDSolver.cpp:806-890", "src/library/natrium/advection/SEDGMinLee.cpp", "src/library/natrium/timeintegration/RungeKutta5LowStorage.cpp", "src/library/natrium/collision_advanced/CollisionOperator.h"]}
{"id": "C128", "title": "The momentum in a periodic domain over a whole simulation", "statement": "Without external force the total momentum stays the initial one; an external force adds force times volume times the elapsed time; interrupting and restarting a run changes nothing about that.", "quantifier": "all meshes without walls, collision and forcing schemes, forces, initial states, numbers of steps, checkpoints", "why_tests_cant": "Off by one collision is invisible within the tolerances of long runs", "anchors": ["src/library/natrium/solver/CFDSolver.cpp:767-843", "src/library/natrium/solver/CFDSolver.cpp:806-890", "src/library/natrium/collision_advanced/Forcing.h", "src/library/natrium/timeintegration/RungeKutta5LowStorage.cpp"]}
{"id": "C129", "title": "Uniform flow stays uniform through a whole simulation", "statement": "A fluid in equilibrium with constant density and velocity, in a periodic domain or between walls that move along with it, is left exactly as it is by any run: the run succeeds and populations, density and velocity are the initial ones at the end and in every checkpoint.", "quantifier": "all meshes, stencils with closed-form moments, collision schemes, equilibria, velocities, filters that keep constants, numbers of steps", "why_tests_cant": "Free-stream preservation of all parts together for every mesh and run length", "anchors": ["src/library/natrium/solver/CFDSolver.cpp:647-890", "src/library/natrium/advection/SEDGMinLee.cpp", "src/library/natrium/boundaries/SEDGBoundary.cpp"]}
{"id": "C130", "title": "A time step aligned with the grid turns the semi-Lagrangian solver into the lattice Boltzmann method", "statement": "If the support points are equidistant and every population travels a whole number of their spacings in a time step (as the standard-LBM options arrange), streaming in a periodic box moves the populations from point to point without interpolation, and a whole run computes exactly what stream-and-collide on the lattice of support points computes, also at points of opposite boundaries that have separate numbers.", "quantifier": "all dimensions, element orders up to 1e10, numbers and widths of cells, numberings of the degrees of freedom, stencils, collision models, initial states, numbers of steps", "why_tests_cant": "Equality of two algorithms for every size, order, numbering and run length", "anchors": ["src/library/natrium/advection/SemiLagrangian.cpp:167-330", "src/library/natrium/advection/SemiLagrangian.cpp:560-640", "src/library/natrium/solver/CFDSolver.cpp:658-722", "src/library/natrium/utilities/CommandLineParser.cpp"]}
{"id": "C131", "title": "Mass and momentum of grid-aligned semi-Lagrangian runs", "statement": "In such a run the sum of the densities over all lattice sites never changes, and the sum of the momenta changes only by the external force: by the same amount per site in every collision.", "quantifier": "the same, with stencils with closed-form moments and the velocity-shift and exact-difference forcing schemes", "why_tests_cant": "Global balance over arbitrarily long runs; the general semi-Lagrangian scheme does not conserve", "anchors": ["src/library/natrium/advection/SemiLagrangian.cpp", "src/library/natrium/solver/CFDSolver.cpp:658-722", "src/library/natrium/solver/CFDSolver.cpp:767-890", "src/library/natrium/collision_advanced/CollisionOperator.h"]}
{"id": "C132", "title": "Collisions have no preferred direction", "statement": "For every rotation or mirror image that maps the directions of a stencil to directions of equal weight, colliding the turned populations with the turned force gives the turned result: the same density, the turned velocity, the turned populations, or the same failure. The axes of a stencil can be exchanged and reversed at will.", "quantifier": "all collision models, equilibria and forcing schemes, all 14 stencils and all their symmetries, all populations, velocities, forces, viscosities and time steps", "why_tests_cant": "Holds for all reals and all symmetries; the optimised D2Q9 and D3Q19 code writes every direction out by hand", "anchors": ["src/library/natrium/collision_advanced/CollisionOperator.h:52-104", "src/library/natrium/collision_advanced/CollisionSchemes.h", "src/library/natrium/collision_advanced/Equilibria.h", "src/library/natrium/collision_advanced/AuxiliaryMRTFunctions.cpp", "src/library/natrium/stencils"]}
{"id": "C133", "title": "Every relaxation mode of the multiple-relaxation-time scheme treats the axes alike", "statement": "Whatever moment basis and relaxation mode is configured, exchanging the axes in the populations exchanges the axes in the result of the collision.", "quantifier": "all bases and modes that can be configured, all populations", "why_tests_cant": "Needs the collision matrix of every mode to commute with every symmetry of the stencil", "anchors": ["src/library/natrium/collision_advanced/AuxiliaryMRTFunctions.cpp:292-405", "src/library/natrium/collision_advanced/CollisionSchemes.h:237-263"]}
{"id": "C134", "title": "Symmetric flows stay symmetric", "statement": "If the initial state, the box and the force of one grid-aligned semi-Lagrangian simulation are those of another one with axes exchanged or reversed, so are the results after any number of iterations; in particular a simulation that starts symmetric stays symmetric.", "quantifier": "all sizes, orders, numberings, collision models, symmetric pairs of initial states, numbers of iterations", "why_tests_cant": "Compares two runs of any length on different meshes with different numberings", "anchors": ["src/library/natrium/advection/SemiLagrangian.cpp:167-330", "src/library/natrium/solver/CFDSolver.cpp:658-722", "src/library/natrium/collision_advanced/CollisionOperator.h:26-111"]}
{"id": "C135", "title": "Streaming creates no new extremes", "statement": "Populations that lie between two bounds before a semi-Lagrangian streaming step lie between them afterwards; nonnegative populations stay nonnegative and the largest absolute value of the populations does not grow.", "quantifier": "all meshes, boundaries, time steps, element orders, populations, numbers of steps", "why_tests_cant": "A maximum principle over all meshes, all departure points and all populations", "anchors": ["src/library/natrium/advection/SemiLagrangian.cpp:144-513", "src/library/natrium/advection/AdvectionTools.cpp:45-95", "src/library/natrium/solver/CFDSolver.cpp:669-679"]}
{"id": "C136", "title": "Compressible restart carries density, velocity, temperature and energy", "statement": "A CompressibleCFDSolver constructed with a restart iteration has the density, velocity, temperature and energy of the simulation that wrote the checkpoint, can be constructed for every mesh and number of processes, and its run continues with the mass, momentum and energy of the checkpoint.", "quantifier": "all stencils, heat capacity ratios, populations f and g, meshes, numbers of degrees of freedom known to a process, restart iterations", "why_tests_cant": "The energy error vanishes at density 1 or at rest, which is where tests start; needs an exact formula over all populations", "anchors": ["src/library/natrium/solver/CompressibleCFDSolver.h:38-179", "src/library/natrium/solver/CompressibleCFDSolver.h:1006-1051", "src/library/natrium/solver/CFDSolver.cpp:1484-1524"]}
{"id": "C137", "title": "Compressible simulations conserve mass, momentum and energy", "statement": "On a periodic domain the total mass, momentum and energy (kinetic and internal) after any number of iterations of a compressible simulation, and in every checkpoint it writes, are those of the initial density, velocity and temperature.", "quantifier": "all periodic meshes, element orders, numbers of iterations, initial fields, heat capacity ratios, Prandtl numbers, viscosities", "why_tests_cant": "Needs induction over the iterations with streaming of both populations on every mesh", "anchors": ["src/library/natrium/solver/CompressibleCFDSolver.h:181-314", "src/library/natrium/solver/CompressibleCFDSolver.h:790-912", "src/library/natrium/solver/CompressibleCFDSolver.h:1006-1051", "src/library/natrium/collision_advanced/CollisionOperator.h:113-225"]}
{"id": "C138", "title": "The compressible initial state has the prescribed fields and is stationary when uniform", "statement": "initializeDistributions of the compressible solver gives populations that carry exactly the prescribed density, velocity and temperature; the first collision leaves them unchanged and returns these fields; a uniform gas stays uniform for the whole simulation.", "quantifier": "all initial fields, stencils, scalings, heat capacity ratios, periodic meshes, numbers of iterations", "why_tests_cant": "An identity of fourth order polynomials summed over 25 to 77 directions for all densities, velocities and temperatures", "anchors": ["src/library/natrium/solver/CompressibleCFDSolver.h:790-912", "src/library/natrium/collision_advanced/CollisionSchemes.h", "src/library/natrium/solver/CompressibleCFDSolver.h:1006-1051"]}
{"id": "C139", "title": "The MRT collision classes relax the stress with the rate of the viscosity", "statement": "After a collision with MRTStandard or MRTEntropic on D2Q9 the shear stress is 1 - 1/(nu/(dt cs^2) + 1/2) times the stress before, at every density; the third moments of MRTStandard relax with the rate whose product with the viscosity is 3/16.", "quantifier": "all populations, densities, viscosities, time step sizes, stencil scalings", "why_tests_cant": "Tests run at density close to 1, where the error is of the order of the density fluctuation times the Mach number squared; needs the exact moments for all populations", "anchors": ["src/library/natrium/collision/MRTStandard.cpp", "src/library/natrium/collision/MRTEntropic.cpp", "src/library/natrium/collision/MRTStandard.h"]}
{"id": "C140", "title": "The smooth density wave is a solution of the Euler equations", "statement": "The fields that SmoothDensityPropagation gives as initial and reference solution satisfy the Euler equations for every domain length and velocity, with constant pressure and positive density.", "quantifier": "all domain lengths, velocities, points and times", "why_tests_cant": "A differential equation over all points, times and parameters; the example only uses one length", "anchors": ["src/examples/step-13/SmoothDensityPropagation.cpp", "src/examples/step-13/SmoothDensityPropagation.h"]}
{"id": "C141", "title": "The shock-vortex interaction starts from a standing shock and a vortex in equilibrium", "statement": "The two states of ShockVortexInteraction satisfy the Rankine-Hugoniot conditions for a standing shock, the profile between them approaches them exponentially, the vortex is isentropic with circular velocity, its pressure gradient balances the centripetal force, all fields are defined everywhere for every vortex Mach number and fit the periodic boundary.", "quantifier": "all points, vortex Mach numbers and densities and temperatures of the surroundings", "why_tests_cant": "Derivative of a power of an exponential for all radii and Mach numbers; the undefined point is hit only when a grid point lies on it", "anchors": ["src/examples/step-12/ShockVortexInteraction.cpp", "src/examples/step-12/ShockVortexInteraction.h"]}
{"id": "C142", "title": "The initial states of the shock tube and of the Riemann problem are those of the literature", "statement": "SodShockTube has density and temperature 8, 5/4 left and 1, 1 right of the middle up to an exponentially small error; the quadrants of Riemann2D are symmetric, separated by contact discontinuities of equal pressure and by shocks satisfying the Rankine-Hugoniot conditions to the digits given.", "quantifier": "all points, tube lengths, shock speeds", "why_tests_cant": "The jump conditions have to fail for every shock speed; the profile is bounded for all points", "anchors": ["src/library/natrium/benchmarks/Riemann2D.cpp", "src/examples/step-10/SodShockTube.cpp", "src/examples/step-10/SodShockTube.h"]}
{"id": "C143", "title": "The adaptive force of the turbulent channel drives the flow to the target flux", "statement": "The force set by AdaptiveForcing and written to its table stays between -2 and 5 times the starting force, points so as to reduce the error, stands still only at the target flux, decreases when the target is exceeded and continues unchanged after a restart.", "quantifier": "all runs, measured fluxes, targets, starting forces and numbers of iterations", "why_tests_cant": "Statements over arbitrarily long histories; the wrong direction needs a negative starting force, the overshoot a long start", "anchors": ["src/examples/step-turbulentChannel/AdaptiveForcing.cpp:71-96", "src/examples/step-turbulentChannel/AdaptiveForcing.cpp:451-483"]}
{"id": "C144", "title": "The flux and density measured in the turbulent channel are those of the flow, and rescaling corrects the density only", "statement": "calculateRhoU gives the bulk momentum and the bulk density of the channel for every height, distribution of the cells over processes and rounding of the coordinates; rescaleDensity makes the bulk density one and leaves velocity and temperature as they are.", "quantifier": "all sets of points, numbers of processes, heights, populations and factors", "why_tests_cant": "Rounding differences between processes and idle processes occur only on certain partitions; the temperature change is proportional to the density drift, tiny in every step", "anchors": ["src/examples/step-turbulentChannel/AdaptiveForcing.cpp:98-195", "src/examples/step-turbulentChannel/FinalChannelStatistics.cpp:67-150", "src/library/natrium/solver/DistributionFunctions.cpp:192-210", "src/library/natrium/utilities/Math.h:132-143"]}
{"id": "C145", "title": "The turbulent channel is driven with the force of its friction Reynolds number on the mesh asked for", "statement": "step-turbulentChannel applies the body force whose balance with the wall friction gives the friction Reynolds number of the command line, between two walls on a mesh that keeps its order and is as dense at the walls as --grid-density says, and its turbulence monitor looks at the centre line and at the images of 1/8 and 1/32 of the height.", "quantifier": "all half widths, Reynolds numbers, velocities, grid densities", "why_tests_cant": "A statement over all parameters; the order of the arguments of a constructor call is not checked by a value", "anchors": ["src/examples/step-turbulentChannel/TurbulentChannelFlow3D.cpp:26-181", "src/examples/step-turbulentChannel/TurbulentChannelFlow3D.h:108-201", "src/examples/step-turbulentChannel/step-turbulent-channel.cpp:114-153"]}
{"id": "C146", "title": "The random numbers of the synthetic turbulence lie strictly inside their interval for every negative seed", "statement": "TurbulentChannelFlow3D::randf_1 and randf_2, started with a negative seed, return numbers strictly between the limits given, drawn from the sequence of Park and Miller, without overflow of ints or access outside of the table, however many are drawn; the angles of the modes are in the ranges of spherical coordinates.", "quantifier": "all seeds and numbers of draws", "why_tests_cant": "2^31 seeds and arbitrarily many draws; an overflow depends on single values of the state", "anchors": ["src/examples/step-turbulentChannel/TurbulentChannelFlow3D.cpp:679-765"]}
{"id": "C147", "title": "The turbulent channel starts from an incompressible perturbation of a mean profile at rest at the walls", "statement": "The synthetic velocity of TurbulentChannelFlow3D is a sum of waves without divergence, its discrete curl has no divergence, the mean profile is symmetric, at rest at the walls and has the centre line velocity in the middle; the initial temperature is that of the walls at the walls.", "quantifier": "all points, channels and parameters", "why_tests_cant": "An access behind the end of a vector usually goes unnoticed; the profile is right for the one half width for which it was written", "anchors": ["src/examples/step-turbulentChannel/TurbulentChannelFlow3D.cpp:184-225", "src/examples/step-turbulentChannel/TurbulentChannelFlow3D.cpp:324-437", "src/examples/step-turbulentChannel/TurbulentChannelFlow3D.cpp:440-659", "src/examples/step-turbulentChannel/step-turbulent-channel.cpp:137-140"]}
{"id": "C148", "title": "Decaying turbulence and the mixing layer start from fields that fit their boundaries", "statement": "The initial velocity of DecayingTurbulence2D is a function of the point, without divergence and periodic like the square; that of MixingLayer3D is antisymmetric and has the velocities imposed at the boundaries.", "quantifier": "all drawn wave numbers and all points", "why_tests_cant": "The field depends on random draws", "anchors": ["src/examples/step-decayingTurbulence2D/DecayingTurbulence2D.cpp:42-127", "src/examples/step-mixingLayer3D/MixingLayer3D.cpp:38-124", "src/library/natrium/solver/CFDSolver.cpp:1383-1420"]}
{"id": "C149", "title": "Every set of support points offered gives finite elements of the order asked for", "statement": "For every order and every choice of support points offered by the configuration, the advection operator gets shape functions that are one at their own support point and zero at all others, sum up to one and reproduce all polynomials of that order, so that semi-Lagrangian streaming moves such fields exactly; the mapping of problems that call themselves Cartesian is that of their transformed vertices.", "quantifier": "all orders, names of support points, dimensions, cells and polynomials", "why_tests_cant": "A statement over all orders and all polynomials; tests use one or two orders", "anchors": ["src/library/natrium/advection/AdvectionTools.cpp:47-97", "src/library/natrium/advection/AdvectionOperator.cpp:43-86", "src/examples/step-0/LidDrivenCavity2D.h:68-97"]}
{"id": "C150", "title": "Discontinuous Galerkin transport with Gauss-Lobatto elements is exact for polynomials of its order, at any order", "statement": "On meshes of boxes of any sizes, in two and three dimensions and for every order, the operator assembled by SEDGMinLee with the Gauss-Lobatto rule differentiates polynomials of the order of the element exactly along each direction, keeps the integral of every population over any number of Runge-Kutta steps, and does not amplify: nothing is assumed of deal.II except the values of Lagrange polynomials and the exactness of the Gauss-Lobatto rule.", "quantifier": "all orders, box sizes, meshes, stencils, fields, numbers of steps", "why_tests_cant": "Exactness at every order is a statement about all polynomials; a test shows convergence for some functions", "anchors": ["src/library/natrium/advection/SEDGMinLee.cpp:38-66", "src/library/natrium/advection/SEDGMinLee.cpp:272-536", "src/library/natrium/advection/AdvectionOperator.cpp:74-82"]}
{"id": "C151", "title": "Whole runs of the time integrators converge and do not amplify", "statement": "For every linear system df/dt = A f + b, any number of streaming steps of length h with the five-stage Runge-Kutta integrator end within a bound of order h^4 (plus the rounding of the published coefficients) of the exact solution, with a constant depending only on row sums, derivatives and the simulated time. With the theta method, linear systems solved exactly and theta between 1/2 and 1, transport that takes energy out of every state is not amplified by any number of steps of any length, and the run converges with order h^2 for theta = 1/2 and h otherwise; so do the matrices of the discontinuous Galerkin operator in periodic domains and between walls at rest: the squared populations never grow. The bound 1/2 is sharp.", "quantifier": "all system sizes, matrices, vectors, starts, step lengths, numbers of steps, theta in [1/2, 1], meshes, orders, stencils", "why_tests_cant": "Order and stability are statements about all step sizes and all run lengths; tests run one equation at a few step sizes.", "anchors": ["src/library/natrium/timeintegration/RungeKutta5LowStorage.cpp: step", "src/library/natrium/timeintegration/ThetaMethod.cpp: step", "src/library/natrium/solver/CFDSolver.cpp: stream", "src/library/natrium/advection/SEDGMinLee.cpp: reassemble"]}
{"id": "C152", "title": "The flow around the cylinder starts from the potential flow around the obstacle in equilibrium with its density", "statement": "The initial velocity of Cylinder2D is free of sources and rotation, tends to the inlet velocity, does not cross the boundary of the obstacle, and together with the initial density (pressure = squared sound speed times density) solves the steady Euler equations; it is defined at all points of the mesh. The program reaches and prints the Mach number asked for, and the Reynolds number asked for is that of the obstacle's diameter.", "quantifier": "all velocities, all points of the domain and of chords between neighbouring circle points, all Mach and Reynolds numbers, both solvers", "why_tests_cant": "The fields are formulas with derivatives at every point; tests would sample a few points, and none exist for the examples.", "anchors": ["src/examples/step-9/Cylinder2D.cpp: makeGrid, InitialU::value, InitialRho::value", "src/examples/step-9/step-9.cpp: main"]}
{"id": "C153", "title": "The flow around the sphere fills its domain, starts from a flow around the sphere and has the numbers asked for", "statement": "The rectangular blocks merged with the shell around the sphere cover the domain without overlap; the initial velocity does not cross the boundary of the sphere; every run has the Mach and Reynolds number asked for.", "quantifier": "all points of the domain, all pairs of blocks, all Mach and Reynolds numbers", "why_tests_cant": "Covering and disjointness concern every point of space; no test covers the example.", "anchors": ["src/examples/step-sphere/Sphere.cpp: makeGrid, InitialU::value", "src/examples/step-sphere/step-sphere.cpp: main"]}
{"id": "C154", "title": "The comparison of the cavity with published velocities reports the difference to the references", "statement": "On any number of processes, at every 1000th iteration the comparison writes the velocities on the two centre lines beside the references of the chosen Reynolds number and reports the root mean square differences, which vanish exactly when all values are the references; Reynolds numbers without references are refused; the references of different authors for the same Reynolds number agree.", "quantifier": "all velocity fields, distributions over processes, iterations, Reynolds numbers, table rows", "why_tests_cant": "The values depend on the distribution over processes; the tables are typed in by hand and no test compares them.", "anchors": ["src/analysis/cavity-convergence/CompareToGhia.cpp: apply, makeReferenceU, makeReferenceV", "src/analysis/cavity-convergence/CompareToBotella.cpp: apply", "src/analysis/cavity-convergence/CompareToErturk.cpp: apply"]}
{"id": "C155", "title": "The Fourier tool writes the coefficients of the field with the right wave vectors", "statement": "For every size in one, two and three dimensions the Fourier tool writes for every wave vector exactly one line with the coefficient of the field in the input file; the coefficients determine the field; opposite waves of the real field have conjugate coefficients; unsuitable calls are refused.", "quantifier": "all sizes, dimensions, input files, wave vectors", "why_tests_cant": "The labels are integer arithmetic on a running index that agrees with wrong formulas on cubes with symmetric fields; short files give whatever lies in memory.", "anchors": ["src/postprocessing/FFT.cpp: main"]}
{"id": "C156", "title": "The matrix with distributed columns behaves like a matrix", "statement": "For all vector types and all distributions over processes: entries and columns set are read back and leave the others unchanged; the product with a vector is the matrix product whatever the result held before; a new matrix is zero and has columns structured like the prototype, so that products into such vectors work.", "quantifier": "all matrices, distributions over processes, block structures, vectors", "why_tests_cant": "A test sees one distribution; columns of other structure than the prototype only show when products with blocks are formed.", "anchors": ["src/library/natrium/utilities/SemiParallelMatrix.cpp: reinitVector, reinit, set, operator(), vmult, getColumn, setColumn"]}
{"id": "C157", "title": "Continuous boundary gradients are the gradients of the solution", "statement": "After reinit and calculateGradients, the component read at a point of a face of the chosen boundaries is the gradient of the solution there (made continuous over cells), in debug and release builds, and objects can be destroyed at any time.", "quantifier": "all meshes, boundary ids, solutions, faces, points, components; debug and release builds", "why_tests_cant": "The test constructs the object for one solution and compares no values at boundary points.", "anchors": ["src/library/natrium/utilities/ContinuousBoundaryGradient.h: face_reinit", "src/library/natrium/utilities/ContinuousBoundaryGradient.cpp: reinit, calculateGradients, get_gradient_component, destructor"]}
{"id": "C158", "title": "The matrix analysis writes spectra and pseudospectra of the streaming matrix", "statement": "For every matrix the spectrum file holds its eigenvalues times the time step as the header says, the value returned is the largest modulus, and the pseudospectrum holds the eigenvalues of as many different matrices as there are cycles, each within the perturbation of the streaming matrix in every entry.", "quantifier": "all matrices, time steps, perturbations, numbers of cycles, starting times", "why_tests_cant": "Random perturbations depend on the clock; a test of the number of lines passes when all cycles are the same.", "anchors": ["src/analysis/matrix-analysis/matrixAnalysis.cpp: computeSpectrum, writeSpectrum, writePseudospectrum"]}
{"id": "C159", "title": "The enstrophy of the quarter domain is the integral of the squared vorticity", "statement": "For every velocity field, mesh and distribution over processes the value printed is defined and is the integral of the squared vorticity over the cells whose centre lies in the lower right quarter.", "quantifier": "all velocity fields, meshes, distributions over processes", "why_tests_cant": "A variable that is never set can hold a plausible index in every test run.", "anchors": ["src/examples/step-shearLayer2D/EnstrophySubdomain.h: calculate"]}
{"id": "C160", "title": "The static droplet runs with the relaxation time given on the command line", "statement": "For every command line accepted by the static droplet program the collision relaxes with the relaxation time given as second argument, whatever the refinement level; command lines with too few arguments are refused; the velocity printed at the end is the largest magnitude of the mean of the velocities before and after collision.", "quantifier": "all command lines, all velocity fields", "why_tests_cant": "The viscosity is computed from the time step on a mesh that is refined only later; the run works and converges, with another viscosity for every refinement level.", "anchors": ["src/examples/static-droplet/static_droplet.cpp: main", "src/library/natrium/benchmarks/Droplet2D.h: refine", "src/library/natrium/solver/CFDSolver.cpp: CFDSolver"]}
