import json
L="src/library/natrium/"
P=[]
def p(title,statement,quant,why,anchors):
    P.append(dict(id="C%02d"%(len(P)+1),title=title,statement=statement,quantifier=quant,why_tests_cant=why,anchors=anchors))

p("Opposite directions of a stencil really are opposite",
  "For every stencil NATriuM ships and every scaling, asking the stencil for the opposite of direction i gives a direction index j < Q whose vector is exactly minus vector i and whose weight equals weight i, and asking for the opposite of j gives i back.",
  "all shipped stencils, all direction indices below Q, all real scalings",
  "The scaling is a real parameter and bounce-back/outflow code uses the map for every index of every stencil; the unit tests check a few stencils at a few scalings.",
  [L+"stencils/*.cpp: getIndexOfOppositeDirection, getDirection, getWeight"])
p("Lattice moment conditions hold for every stencil and scaling",
  "For every stencil with closed-form data the weights are positive and sum to one, all odd moments up to order five vanish, the second moment is cs^2 times the identity and the fourth moment is cs^4 times the isotropic tensor, where cs is the speed of sound the stencil reports, whatever the scaling. For the stencils whose data are decimal literals the same holds up to an explicit tolerance.",
  "all shipped stencils, all real scalings, all index tuples",
  "Scaling is continuous; hydrodynamics of the scheme relies on the identities holding for all of them and for all tensor components.",
  [L+"stencils/*.cpp", L+"stencils/*.h: getSpeedOfSoundSquare"])
p("Reported maximum particle speed bounds every discrete velocity",
  "getMaxParticleVelocityMagnitude() of a stencil is at least the Euclidean norm of every direction of that stencil, so a time step computed from the CFL number never lets a population travel farther than CFL * dx / p^2.",
  "all shipped stencils, all directions, all positive scalings",
  "The bound is used as a divisor in every time step; tests only compare the value with a constant.",
  [L+"stencils/*.h: getMaxParticleVelocityMagnitude", L+"utilities/CFDSolverUtilities.cpp: calculateTimestep"])
p("Standard BGK equilibrium carries the prescribed density and momentum",
  "The BGK equilibrium computed for density rho and velocity u has zeroth moment rho, first moment rho u and second moment rho (cs^2 delta + u u), on every stencil that satisfies the lattice moment conditions.",
  "all densities, velocities, stencils with the moment conditions (all closed-form ones), all scalings",
  "Continuum of inputs; conservation of the whole solver rests on it.",
  [L+"collision_advanced/Equilibria.h: BGKEquilibrium::calc"])
p("Incompressible, steady-state and quartic equilibria carry density and momentum",
  "The incompressible equilibrium has moments rho and u (reference density one), the steady-state equilibrium has moments rho and rho u for every preconditioning parameter gamma, and the quartic equilibrium has moments rho, rho u and the correct energy for every temperature.",
  "all densities, velocities, temperatures, gamma, stencils with the required isotropy order",
  "Continuum of inputs and of gamma.",
  [L+"collision_advanced/Equilibria.h: IncompressibleEquilibrium, SteadyStateEquilibrium, QuarticEquilibrium"])
p("Optimised equilibrium and velocity code agrees with the generic code",
  "The hand-optimised D2Q9 equilibrium and the hand-optimised D2Q9 and D3Q19 velocity computations return the same values as the generic loops for every population vector, density, velocity and scaling.",
  "all distributions, all densities/velocities, all scalings",
  "Two implementations over a continuous domain; sampling cannot show agreement everywhere.",
  [L+"collision_advanced/Equilibria.h: BGKEquilibrium<2,9>::calc", L+"collision_advanced/AuxiliaryCollisionFunctions.h: calculateVelocity<2,9>, calculateVelocity<3,19>"])
p("BGK collision conserves mass and momentum and fixes equilibria",
  "One BGK relaxation of any node with non-zero density leaves sum f and sum f e unchanged for every relaxation time, and leaves an equilibrium distribution unchanged.",
  "all distributions with non-zero density, all tau != 0, all stencils with moment conditions",
  "Continuum of states.",
  [L+"collision_advanced/CollisionSchemes.h: BGKCollision::relax"])
p("Regularized collision conserves mass and momentum and keeps the stress",
  "The regularized collision preserves mass and momentum of every distribution and its result depends on the distribution only through density, momentum and second moment; the non-equilibrium stress is scaled by exactly 1 - 1/tau.",
  "all distributions, tau, stencils with fourth-order isotropy",
  "Continuum of states.",
  [L+"collision_advanced/CollisionSchemes.h: Regularized::relax"])
p("MRT transforms are mutually inverse",
  "For every moment basis (Dellar and Lallemand on D2Q9, D'Humieres on D3Q19) the inverse transform applied after the moment transform is the identity on distributions, and vice versa.",
  "all distributions, all three bases",
  "Linear map over a continuous space; the existing test checks one product numerically.",
  [L+"collision_advanced/AuxiliaryMRTFunctions.cpp"])
p("MRT collision conserves mass and momentum",
  "MRT collision conserves density and momentum of every distribution, for every basis, every relaxation mode accepted for that basis and every tau, provided the equilibrium has the same density and momentum.",
  "all distributions, bases, relaxation modes, tau",
  "Continuum of states times configuration space.",
  [L+"collision_advanced/CollisionSchemes.h: MultipleRelaxationTime::relax", L+"collision_advanced/AuxiliaryMRTFunctions.cpp: make_diag"])
p("MRT full relaxation equals BGK where it should, and selective relaxation touches only the named mode",
  "With the Dellar basis and the mode that relaxes only the ghost variable N, exactly the N moment (weight-2 checkerboard mode g) is set to its equilibrium and all other non-conserved moments relax with 1/tau, so on distributions whose N moment is already in equilibrium the result equals BGK. With the full mode the ghost moments of the Dellar (D2Q9) and d'Humieres (D3Q19) bases are set to their equilibria and the stress relaxes with 1/tau; with the rates of the d'Humieres paper the deviatoric stress relaxes with 1/tau and every other moment with its rate given there.",
  "all distributions and tau",
  "Ranges over all distributions; an index slip in the diagonal is invisible on near-equilibrium tests.",
  [L+"collision_advanced/AuxiliaryMRTFunctions.cpp: make_diag<9>, make_diag<19>"])
p("External force adds exactly F dt of momentum and no mass",
  "With a constant external force F the collision step changes momentum by exactly dt F (for the shifting-velocity and exact-difference schemes) and leaves mass unchanged.",
  "all distributions, forces, dt, tau",
  "Continuum of states.",
  [L+"collision_advanced/AuxiliaryCollisionFunctions.h: applyForces, applyMacroscopicForces", L+"collision_advanced/CollisionOperator.h"])
p("Compressible collision conserves mass, momentum and total energy",
  "The two-population (f,g) collision conserves mass, momentum and total energy of f and g for every Prandtl number and Sutherland setting.",
  "all (f,g), tau, Prandtl numbers, temperatures",
  "Continuum of states and parameters.",
  [L+"collision_advanced/CollisionSchemes.h: BGKCollision::relaxWithG", L+"collision_advanced/AuxiliaryCollisionFunctions.h: calculateFStar, calculateGStar, calculateGeqFromFeq"])
p("The collision actually run is the configured one",
  "For every combination of dimension, stencil, collision scheme and equilibrium scheme, either the collision step runs with exactly the configured scheme and equilibrium, or an error is raised.",
  "the full cross product of configuration enums, for the incompressible and the compressible driver",
  "The dispatch tables cover a few dozen of several hundred combinations; tests exercise a handful.",
  [L+"collision_advanced/CollisionSelection.h: selectCollision"])
p("Collision acts node by node",
  "Collision of all local nodes equals the single-node collision applied independently to every locally owned node, independent of the order of nodes and of how the nodes are partitioned over MPI ranks; a rank that owns no node does nothing.",
  "all node sets, partitions, distributions",
  "All partitions and orders.",
  [L+"collision_advanced/CollisionOperator.h: collideAll"])
p("Every iteration is reported exactly once and the last one as final",
  "A run started at iteration a that stops at iteration b reports iterations a, a+1, ..., b once each in this order and additionally a final report for b only, and performs exactly b-a streaming steps and b-a+1 collision steps.",
  "all start iterations, stop conditions, configurations",
  "Unbounded number of iterations; all stopping times.",
  [L+"solver/CFDSolver.cpp: run, output, stopConditionMet"])
p("Stop conditions are honoured",
  "A run with maximal iteration number n never performs a streaming step at or beyond iteration n, and a run with end time T stops at the first iteration whose time is at least T.",
  "all n, T, time steps",
  "Unbounded histories.",
  [L+"solver/CFDSolver.cpp: stopConditionMet"])
p("Simulated time equals number of steps times step size",
  "After k streaming steps of a semi-Lagrangian run the simulation time is the initial time plus k dt (in exact arithmetic).",
  "all k, dt, restart times",
  "All histories.",
  [L+"solver/CFDSolver.cpp: stream, getTime"])
p("Checkpoint schedule",
  "A checkpoint file is written at iteration i of a run exactly if i is a multiple of the checkpoint interval or i is the last iteration, checkpointing is switched on (interval below 10^8) and i is not the start iteration.",
  "all intervals, start and stop iterations",
  "All schedules.",
  [L+"solver/CFDSolver.cpp: output"])
p("Restarting from a checkpoint continues the interrupted run",
  "Running n iterations, checkpointing and restarting for m more iterations ends in the same populations as an uninterrupted run of n+m iterations.",
  "all n, m, initial distributions, crash points at checkpoint iterations",
  "All crash points.",
  [L+"solver/CFDSolver.cpp: constructor, run", L+"solver/Checkpoint.cpp: load, write"])
p("Restart restores macroscopic fields",
  "After a restart the density and velocity fields are the moments of the restored distribution functions.",
  "all distributions",
  "All states; a wrong buffer is invisible when the velocity is zero.",
  [L+"solver/CFDSolver.cpp: calculateDensitiesAndVelocities"])
p("A checkpoint written for iteration n is the one read back for iteration n",
  "Reading the checkpoint of iteration n returns the data most recently written for iteration n, whatever other checkpoints exist in the directory and in whatever order they were written.",
  "all iterations n, all histories of writes",
  "All write histories.",
  [L+"solver/Checkpoint.cpp: constructor, write, load"])
p("Every stencil that can be simulated can be restarted",
  "If a configuration can write a checkpoint then a later run with the same configuration can load it.",
  "all stencils, scalings and drivers",
  "Cross product of configurations.",
  [L+"solver/Checkpoint.cpp: load", L+"utilities/CFDSolverUtilities.cpp: make_stencil"])
p("Iterative initialisation terminates within its budget",
  "The iterative initialisation performs at most the configured maximal number of iterations, stops as soon as the residual is below the threshold, and leaves iteration counter and time unchanged.",
  "all residual histories, all budgets",
  "All residual histories.",
  [L+"solver/CFDSolver.cpp: initializeDistributions"])
p("Steady-state residual compares fields a fixed number of iterations apart",
  "Whenever the convergence criterion is evaluated the residual is the distance between the current velocity field and the field at the previous evaluation of the residual.",
  "all histories of field updates and queries",
  "All call histories.",
  [L+"solver/SolverStats.h: calculateResiduals", L+"solver/CFDSolver.cpp: stopConditionMet"])
p("Configuration setters and getters round-trip",
  "For every configuration option, a get after a successful set returns the value that was set.",
  "all options, all values in the option's domain, all prior histories of successful sets",
  "All histories.",
  [L+"solver/SolverConfiguration.h"])
p("Configuration options are independent",
  "Setting one option never changes the value of another option (except the documented coupling of the Prandtl number with its flag).",
  "all pairs of options, all histories",
  "Quadratic number of pairs, all histories.",
  [L+"solver/SolverConfiguration.h", L+"solver/SolverConfiguration.cpp"])
p("A rejected configuration value leaves the configuration usable",
  "If a setter rejects a value, the configuration is unchanged and every getter still works.",
  "all setters, all rejected values",
  "All histories with failures.",
  [L+"solver/SolverConfiguration.h: set*"])
p("Command line: unknown values are rejected and known ones reach the configuration",
  "For each enumerated command line option, a value out of the documented list raises an error, and a value from the list sets exactly the corresponding configuration option.",
  "all strings for all enumerated options",
  "Infinite set of strings.",
  [L+"utilities/CommandLineParser.cpp: applyToSolverConfiguration"])
p("Command line: later arguments override defaults consistently",
  "Applying the parsed command line sets every explicitly given option to the given value, leaves every option that was not given untouched, and is idempotent; conflicting combinations raise an error without modifying the configuration.",
  "all argument combinations, all prior configurations",
  "Exponentially many combinations.",
  [L+"utilities/CommandLineParser.cpp: applyToSolverConfiguration"])
p("--standard-lbm makes populations hop exactly from node to node",
  "With --standard-lbm on a uniform grid the time step is such that every population moves exactly between neighbouring support points in one step.",
  "all stencils usable with the option, all cell sizes, all scalings",
  "All stencils and mesh widths.",
  [L+"utilities/CommandLineParser.cpp: standard-lbm", L+"utilities/CFDSolverUtilities.cpp: calculateTimestep"])
p("Command line parser protocol",
  "Arguments can be defined only before import, read only after import; violations raise an error and change nothing.",
  "all call sequences",
  "All call sequences.",
  [L+"utilities/CommandLineParser.h: assert_clean, assert_imported"])
p("Selecting a time integrator by number",
  "Every documented integrator number selects the integrator with the documented name and every other number raises an error.",
  "all integers",
  "All integers.",
  [L+"utilities/CFDSolverUtilities.cpp: get_integrator_by_id, get_integrator_name"])
p("Runge-Kutta integrator preserves invariants and steady states",
  "The 5-stage Runge-Kutta integrator maps a steady state to itself and preserves every linear functional that the right-hand side annihilates (such as total mass), for every system matrix, right-hand side and step size.",
  "all matrices, vectors, step sizes",
  "Continuum of systems of every size.",
  [L+"timeintegration/RungeKutta5LowStorage.cpp: step"])
p("Runge-Kutta integrator has the documented order",
  "For linear systems one step equals the Taylor polynomial of the exact solution up to order four with coefficients accurate to 10^-12.",
  "all matrices and vectors of every size",
  "A consistency order is a statement about all systems.",
  [L+"timeintegration/RungeKutta5LowStorage.h/.cpp"])
p("Theta method solves the theta scheme",
  "If the linear solver returns the exact solution the theta method's result satisfies f1 - f0 = dt((1-theta) A f0 + theta A f1 + b), it fixes steady states and preserves linear invariants.",
  "all theta, A, b, f, dt",
  "Continuum.",
  [L+"timeintegration/ThetaMethod.cpp: step"])
p("Exponential integrator is defined on steady states",
  "One step of the exponential integrator applied to a steady state returns the steady state.",
  "all systems with a steady state",
  "All systems; division by the residual norm only shows at exact steady states.",
  [L+"timeintegration/ExponentialTimeIntegrator.cpp: step"])
p("Spectral filter damps by polynomial degree and preserves cell means",
  "The exponential filter multiplies each Legendre mode by a factor in (0,1], leaves all modes of degree below the cut-off (in particular the cell mean) unchanged and damps each mode according to its polynomial degree, in two and three dimensions.",
  "all polynomial orders, filter parameters, cell values",
  "All orders and parameters.",
  [L+"smoothing/ExponentialFilter.h/.cpp", L+"smoothing/NewFilter.h/.cpp"])
p("Boundary identifiers are unique",
  "A boundary collection maps every boundary indicator to the boundary it was registered with; registering a second boundary under a used indicator raises an error and leaves the collection unchanged.",
  "all sequences of registrations",
  "All call sequences.",
  [L+"problemdescription/BoundaryCollection.h: addBoundary"])
p("Boundary check accepts exactly matching meshes",
  "The boundary check succeeds if and only if the set of boundary indicators of the mesh equals the set of registered indicators.",
  "all meshes and collections",
  "All sets.",
  [L+"problemdescription/ProblemDescription.h: checkBoundaryConditions"])
p("Crossing a periodic boundary and returning is the identity",
  "Transporting a point across a periodic boundary maps the boundary face to the opposite face, and crossing back returns the original point and cell.",
  "all points, cells and periodic boundaries, including meshes that are one cell wide",
  "All points and meshes.",
  [L+"boundaries/PeriodicBoundary.cpp: coordinatesAcrossPeriodicBoundary, getOppositeCellAtPeriodicBoundary"])
p("The first crossed face is found correctly",
  "Following a straight path from a point inside a cell, the search reports 'inside' if and only if the end point lies in the closed cell, up to the round-off tolerance 1e-10 of the code; otherwise the end point lies beyond the reported face, the reported exit point lies on that face and on the path, and the path up to it stays inside the cell.",
  "all start and end points, two and three dimensions, both implementations",
  "Continuum of paths, ties at edges and corners.",
  [L+"advection/SemiLagrangian.cpp: faceCrossedFirst, faceCrossedFirstWithoutMapping"])
p("Lagrangian path following terminates",
  "Following the characteristics of all support points always terminates, and a path that does not leave the domain and crosses fewer than 50 faces ends in the cell containing the departure point.",
  "all meshes and paths",
  "All paths including those hitting corners and periodic images.",
  [L+"advection/SemiLagrangian.cpp: fillSparseObject"])
p("Ghosted and owned distribution data stay consistent",
  "Reading a population through the ghosted view returns the same value as through the owned view after every public mutation.",
  "all sequences of operations",
  "All call histories.",
  [L+"solver/DistributionFunctions.cpp"])
p("Positivity-preserving limiter and configured integrators take effect",
  "Switching on the advection limiter, or selecting one of the deal.II time integrators, changes the state according to the selected method.",
  "all states and integrators",
  "All states.",
  [L+"smoothing/VmultLimiter.cpp: apply", L+"timeintegration/DealIIWrapper.cpp: step"])
p("Configurations survive parameter files",
  "A configuration written to a parameter file and read back, into any configuration or by the constructor taking a file name, returns the same values from every getter; options that a file does not mention keep their values.",
  "all reachable configurations, all files, all getters",
  "All configurations and files.",
  [L+"solver/SolverConfiguration.cpp: SolverConfiguration(const std::string&), readFromXMLFile"])
p("Runge-Kutta integrator is of fifth order",
  "One step of RungeKutta5LowStorage agrees with the exact solution up to and including the term of order five in the step size, as its class comment (fifth-order) says.",
  "all linear systems and step sizes",
  "A consistency order is a statement about all systems and step sizes.",
  [L+"timeintegration/RungeKutta5LowStorage.h: class comment", L+"timeintegration/RungeKutta5LowStorage.cpp: step"])
p("Semi-Lagrangian streaming reproduces fields of the finite element space",
  "One streaming step on a mesh without boundaries replaces a population given by a field of the finite element space by the values of that field at the departure points (x - dt e); in particular uniform populations stay uniform. The error is bounded by the skipped matrix entries (below 1e-10 each).",
  "all meshes periodic in all directions, orders, stencils, fields and time steps within the limit of 50 faces per path",
  "All fields, meshes and time steps; the assembled matrix depends on every path.",
  [L+"advection/SemiLagrangian.cpp: reassemble, fillSparseObject", L+"advection/SemiLagrangianTools.cpp: shapeFunctionValue"])
p("The sparsity pattern contains every assembled entry",
  "Every matrix position the semi-Lagrangian assembly adds to is contained in the sparsity pattern computed by updateSparsityPattern for the same time step.",
  "all meshes, stencils, finite elements and time steps",
  "All meshes and time steps; pattern and matrix are computed by separate passes, one block row at a time.",
  [L+"advection/SemiLagrangian.cpp: updateSparsityPattern, fillSparseObject"])
p("The time stored with a boundary hit is the time of flight from the wall",
  "Every boundary hit recorded during the semi-Lagrangian assembly carries the time a population needs from the wall to its destination: the length of its path back from the destination support point to the hit point, over its speed, also after several reflections and periodic crossings (up to the round-off removal of the code).",
  "all meshes, stencils, time steps and paths",
  "All paths; the value feeds the boundary conditions but cannot be observed directly.",
  [L+"boundaries/BoundaryHit.h: BoundaryHit", L+"advection/SemiLagrangian.cpp: fillSparseObject"])
p("Wall velocities are evaluated where the wall is hit",
  "Every hit acts exactly once, with the prescribed velocity at the point of the wall where the path hits it.",
  "all meshes, all velocity functions, all sets of hits",
  "All point sets; the hit list is a std::map over real-valued points.",
  [L+"boundaries/BoundaryHit.h: PointComp, HitListAtCell", L+"boundaries/SemiLagrangianBoundaryHandler.cpp: operate", L+"boundaries/VelocityNeqBounceBack.cpp: calculateBoundaryValues", L+"boundaries/FEBoundaryValues.h: getPoint"])
p("A fluid moving with its walls is steady",
  "If all walls are velocity bounce-back walls with one common velocity and all populations are uniform with the values of that velocity (rest included), a streaming step leaves all populations unchanged up to the skipped matrix entries.",
  "all meshes, stencils, time steps, common velocities",
  "All meshes and velocities.",
  [L+"boundaries/VelocityNeqBounceBack.cpp: calculateBoundaryValues", L+"solver/CFDSolver.cpp: stream"])
p("First-order bounce-back keeps a fluid at rest",
  "With first-order bounce-back walls a fluid at rest stays at rest.",
  "all meshes and time steps",
  "All meshes including corners.",
  [L+"boundaries/SLFirstOrderBounceBack.h: calculateBoundaryValues"])
p("Time-dependent wall velocities are evaluated at the time of the hit",
  "In a step from t to t + dt, a population that needs the time s from the wall to its destination is changed with the wall velocity at time t + dt - s.",
  "all velocity functions, times and step sizes",
  "All functions of time.",
  [L+"boundaries/BoundaryHit.h: class comment (the point in time of the boundary hit is (t - dt))", L+"solver/CFDSolver.cpp: stream, run", L+"boundaries/SemiLagrangianBoundaryHandler.cpp: operate"])
p("Paths at the limit of crossings leave their population unchanged",
  "A population whose path reaches the limit of 50 crossed faces is not changed by the streaming step, as the comment in the assembly says.",
  "all meshes, stencils, time steps and wall velocities",
  "All meshes; happens at domain corners only.",
  [L+"advection/SemiLagrangian.cpp: fillSparseObject (do not change this distribution function during streaming step)"])
p("Comparing populations is symmetric and looks at every entry",
  "DistributionFunctions::equals(other, threshold) answers true exactly if both objects have the same number of directions and all their entries differ by at most the threshold; f.equals(g) and g.equals(f) give the same answer.",
  "all pairs of distribution functions, all layouts, all thresholds",
  "All pairs of objects and all distributions of the entries among processes.",
  [L+"solver/DistributionFunctions.cpp: equals"])

p("A boundary with prescribed velocity and temperature delivers the equilibrium of that velocity and temperature",
  "Populations that enter through a boundary of type SLEquilibriumBoundary (prescribed velocity u and temperature T) are, after the streaming step, those of the quartic equilibrium with density 1, velocity u at the time the path crossed the boundary, and temperature T; the second population g is that of the same equilibrium: g = T (2 C_v - D) f.",
  "all stencils and scalings, all velocities and temperatures, all meshes and hit lists, all heat capacity ratios",
  "The unit tests only run whole simulations with temperature 1; the expanded polynomial in the boundary class duplicates the equilibrium class and nothing compares the two",
  [L+"boundaries/SLEquilibriumBoundary.h:67-183", L+"boundaries/SemiLagrangianBoundaryHandler.cpp:112-164", L+"solver/CompressibleCFDSolver.h:180-314"])
p("A thermal wall imposes its temperature and conserves mass and momentum",
  "After ThermalBounceBack acted on a node, the node has the wall temperature, and its density and momentum are unchanged; fluid at rest at wall temperature is left alone; this holds for the heat capacity ratio of the simulation, with and without a second population, and the effect is still present after the streaming step.",
  "all stencils, scalings, populations f and g with positive density, all wall temperatures",
  "The condition has no unit test; its effect depends on continuous populations, on the polynomial equilibrium of a 45-point stencil with truncated literals and on the order in which f and g are streamed",
  [L+"boundaries/ThermalBounceBack.cpp:49-109", L+"boundaries/BoundaryTools.h:235-294", L+"solver/AuxiliaryCollisionFunctions.h:309-326", L+"solver/AuxiliaryCollisionFunctions.h:433-443", L+"solver/CompressibleCFDSolver.h:1007-1045"])

p("The discontinuous Galerkin operator conserves every population in a periodic domain",
  "On any mesh with Gauss-Lobatto elements whose boundaries are periodic or velocity walls, the spectral element discontinuous Galerkin operator can be assembled; in a periodic domain the integral of every population over the domain has derivative zero, and any number of Runge-Kutta streaming steps keeps it.",
  "all stencils and scalings, all meshes (conforming, with quadrature satisfying integration by parts), all orders, all populations, all step numbers, both flux types",
  "Tests run one vortex on one mesh and compare with a tolerance; conservation needs a sum over all pairs of faces for arbitrary discontinuous populations",
  [L+"advection/SEDGMinLee.cpp:92-184", L+"advection/SEDGMinLee.cpp:320-536", L+"advection/SEDGMinLee.cpp:538-630"])
p("The discontinuous Galerkin operator differentiates and leaves uniform populations alone",
  "For populations that are continuous across faces, the assembled right-hand side at every node is exactly minus the directional derivative of the interpolated population along the particle velocity; uniform populations are steady, between walls whenever opposite populations differ by the amount prescribed by the wall velocity.",
  "all stencils and scalings, all meshes and orders, all continuous populations, both flux types",
  "Convergence tests see an error that decreases but cannot show exactness, and they never use central fluxes",
  [L+"advection/SEDGMinLee.cpp:92-184", L+"advection/SEDGMinLee.cpp:320-536", L+"advection/SEDGMinLee.cpp:538-630"])
p("Transport with the discontinuous Galerkin operator does not amplify",
  "The L2 norm of every population does not grow under the assembled operator in a periodic domain: its derivative is minus the weighted sum of the squared jumps at the faces; with resting walls the same holds for the sum over the directions with any weights equal on opposite directions.",
  "all stencils and scalings, all meshes and orders, all discontinuous populations, all symmetric weights",
  "Stability for all data cannot be seen from a few runs; instabilities show up after many steps only",
  [L+"advection/SEDGMinLee.cpp:92-184", L+"advection/SEDGMinLee.cpp:320-536", L+"advection/SEDGMinLee.cpp:538-630", L+"boundaries/VelocityNeqBounceBack.cpp:46-131"])
p("Velocity walls of the discontinuous Galerkin scheme balance mass and carry along a fluid that moves with them",
  "With velocity bounce-back walls the total mass changes by the volume flux of the walls only; a uniform fluid in equilibrium moving with the velocity of its walls is steady, for any density; for walls with time-dependent velocity the operator uses the current velocity.",
  "all stencils and scalings, all meshes, all wall velocities, densities and times",
  "The unit test has one static wall velocity and density near 1",
  [L+"boundaries/VelocityNeqBounceBack.cpp:46-131", L+"advection/SEDGMinLee.cpp:360-412", L+"solver/CFDSolver.cpp:725-755"])
p("Assembling the discontinuous Galerkin operator again gives the same operator",
  "Calling reassemble on an assembled SEDG operator (CFDSolver::reassemble) yields the same right-hand side as the first assembly.",
  "all meshes, stencils, populations, numbers of calls",
  "Tests assemble once per object",
  [L+"advection/SEDGMinLee.cpp:92-184", L+"solver/CFDSolver.cpp:846-852"])
p("The short constructor of the discontinuous Galerkin operator uses upwind fluxes and the given time step",
  "SEDGMinLee(problem, order, stencil, delta_t) builds the same operator as the long constructor with Gauss-Lobatto points, no central fluxes and delta_t.",
  "all time steps",
  "Tests only call it without a time step",
  [L+"advection/SEDGMinLee.cpp:39-66", L+"advection/SEDGMinLee.h:205-215"])

p("The equilibrium initialisation puts the given density and velocity into the populations",
  "After CFDSolver::initializeDistributions with the equilibrium option, the populations of every owned degree of freedom sum to the prescribed density and their first moment is density times prescribed velocity, whatever collision scheme is configured; prescribed fields and other nodes are unchanged, and it succeeds for every positive density.",
  "all collision schemes, stencils, scalings, densities, velocities, numbers of nodes",
  "Tests initialise two or three flows on D2Q9 with one scheme; the shifted variables of BGKStandardTransformed and the per-class equilibria are not covered",
  [L+"solver/CFDSolver.cpp:1103-1129", L+"collision/CollisionModel.cpp:14-20", L+"collision/BGKStandard.cpp:23-42", L+"collision/BGKStandardTransformed.cpp:23-43"])
p("collideAll of every collision class conserves mass and momentum",
  "collideAll of BGKStandard, BGKSteadyState, BGKStandardTransformed, BGKIncompressible, BGKRegularized, MRTStandard and MRTEntropic without forces keeps mass and momentum of the populations at every node, stores their density and velocity, and touches no other node.",
  "all classes, stencils they accept, scalings, viscosities, time steps, populations, node lists",
  "The hand-written D2Q9, D3Q15 and D3Q19 collisions are tested on single random nodes against the generic one; several classes have no test at all",
  [L+"collision/BGK.cpp:47-117", L+"collision/BGKStandard.cpp:44-652", L+"collision/BGKSteadyState.cpp:50-157", L+"collision/BGKStandardTransformed.cpp:46-162", L+"collision/BGKIncompressible.cpp:40-190", L+"collision/BGKRegularized.cpp:41-519", L+"collision/MRTStandard.cpp:43-163", L+"collision/MRTEntropic.cpp:24-305"])
p("Equilibrium populations are fixed points of the collision classes",
  "Populations set by getEquilibriumDistributions for any density and velocity are returned unchanged by collideAll of the same class, with the same density and velocity stored.",
  "all classes, accepted stencils, scalings, relaxation times, densities, velocities",
  "Tests start from random populations or density 1",
  [L+"collision/CollisionModel.cpp:14-20", L+"collision/MRTStandard.cpp:121-139", L+"collision/MRTEntropic.cpp:100-138", L+"collision/BGKIncompressible.cpp:129-175", L+"collision/BGKRegularized.cpp:161-228"])
p("The regularized collision relaxes the stress with the rate of the viscosity",
  "One collision of BGKRegularized multiplies the non-equilibrium momentum flux by 1 - 1/(tau + 1/2), for every population and in every scaling of the stencil.",
  "all populations, scalings, relaxation times, D2Q9 and D3Q19",
  "No test compares moments; with scaling 1 in 2D the code happens to be right",
  [L+"collision/BGKRegularized.cpp:161-228", L+"collision/BGKRegularized.cpp:428-519"])
p("A constant force adds exactly force times time step to the momentum",
  "collideAll of a collision object with an external force changes the momentum of every node by time step times force, keeps its mass, and stores the velocity (momentum + dt F / 2) / density, for each of the three force types and every class and stencil that accepts one.",
  "all classes, stencils, scalings, forces, populations, force types",
  "Tests look at Poiseuille profiles on D2Q9 with scaling close to 1 and a tolerance",
  [L+"collision/BGKStandard.cpp:152-239", L+"collision/BGKStandard.cpp:357-477", L+"collision/ExternalForceFunctions.h:19-197", L+"solver/CFDSolver.cpp:350-359"])
p("The iterative initialisation terminates after the configured number of iterations with the prescribed velocity",
  "The iterative initialisation stops after at most the configured number of iterations; the velocity field is the prescribed one at the end, every stored density is the sum of the populations, and every collision brings the velocity of the populations closer to the prescribed velocity.",
  "all classes, stencils, streaming operators, targets, iteration limits, initial fields",
  "Tests run one vortex for a fixed number of iterations and check the pressure error",
  [L+"solver/CFDSolver.cpp:1268-1328", L+"solver/SolverConfiguration.cpp:221-227", L+"collision/BGKRegularized.cpp:304-332"])
p("Changing the time step of a collision object keeps the viscosity",
  "After any sequence of setTimeStep calls the collision object is identical to the one constructed with the last time step: relaxation parameter, prefactor and viscosity agree.",
  "all classes, stencils, viscosities, sequences of time steps",
  "A test checks one change at most; sequences accumulate errors if one member is not updated",
  [L+"collision/BGK.h:105-112", L+"collision/MRT.h:40-47", L+"collision/CollisionModel.h:152-157"])
p("The collision objects of the initialisation compute what the collision step of the time loop computes",
  "BGKStandard::collideAll and BGKSteadyState::collideAll give the same populations, densities and velocities as the BGK collision selected in the time loop, for the same configuration, both inside and outside the initialisation; they succeed on the same inputs up to the velocity limit of their assertions.",
  "all stencils in closed form, scalings, viscosities, time steps, populations",
  "Two implementations, one unrolled per stencil and one generic, can only be compared on samples by tests",
  [L+"collision/BGKStandard.cpp:44-652", L+"collision/BGKSteadyState.cpp:50-157", L+"collision_advanced/CollisionSelection.h:20-120", L+"collision_advanced/CollisionSchemes.h:20-60"])
p("The initialisation from gradients adds exactly the viscous momentum flux",
  "The initialisation from velocity gradients keeps density and velocity of every node and changes its momentum flux by that of a Newtonian fluid with the configured viscosity, once per degree of freedom, for every time step and collision scheme.",
  "all stencils in closed form, scalings, viscosities, time steps, gradients, numbers of cells sharing a node, schemes",
  "Tests check that the run does not crash; with time step 1 and discontinuous elements the code is right",
  [L+"solver/CFDSolver.cpp:1143-1266", L+"solver/CFDSolver.cpp:1417-1430"])

p("The analytic Taylor-Green vortex in the plane solves the Navier-Stokes equations",
  "Velocity and pressure (density times squared speed of sound) of the analytic solution of TaylorGreenVortex2D satisfy the incompressible Navier-Stokes equations with the given viscosity at every point and time, and are periodic with the side length, for every side length accepted by the constructor.",
  "all viscosities, side lengths, speeds of sound, mean velocities, points, times, both density initialisations",
  "Convergence tests use side length 2 PI and a tolerance, a wrong decay rate or pressure scaling for other lengths shows up as an error that does not converge",
  [L+"benchmarks/TaylorGreenVortex2D.cpp:20-60", L+"benchmarks/TaylorGreenVortex2D.h:54-92"])
p("The analytic Couette flow is the flow started by the moving plate",
  "The analytic velocity of CouetteFlow2D and CouetteFlow3D satisfies the diffusion equation with the configured viscosity up to rounding, equals the plate velocities at the plates at all times, and starts from rest.",
  "all viscosities, plate velocities, heights, points, times",
  "The series is truncated by a data dependent test; tests look at single points at large times",
  [L+"benchmarks/CouetteFlow2D.cpp:46-151", L+"benchmarks/CouetteFlow3D.cpp:53-156"])
p("The Poiseuille force drives the requested bulk velocity",
  "The steady flow between the walls of PoiseuilleFlow2D and PoiseuilleFlow3D under the force set by the constructor has mean velocity u_bulk over the height, and is the analytic velocity of the benchmark.",
  "all viscosities, bulk velocities, heights, all steady profiles",
  "Tests simulate one channel and compare maximum velocities with a tolerance",
  [L+"benchmarks/PoiseuilleFlow2D.cpp:22-42", L+"benchmarks/PoiseuilleFlow2D.cpp:113-123", L+"benchmarks/PoiseuilleFlow3D.cpp:24-46", L+"benchmarks/PoiseuilleFlow3D.cpp:131-141"])
p("The initial state of the three-dimensional Taylor-Green vortex is divergence free with matching pressure",
  "The initial velocity of TaylorGreenVortex3D has divergence zero and is periodic on the cube; its initial density corresponds to a pressure that solves the pressure Poisson equation of this velocity, in the incompressible and the compressible scaling.",
  "all points, speeds of sound, density numerators",
  "Tests run a few steps and check that nothing explodes",
  [L+"benchmarks/TaylorGreenVortex3D.cpp:38-62", L+"benchmarks/TaylorGreenVortex3D.cpp:78-125"])
p("The grid transformations of the benchmarks keep the cells intact",
  "The transformations applied to the grids of ShearLayer2D, Riemann2D, CouetteFlow2D, CouetteFlow3D, SinusoidalShear2D and LubricationSine map the domain one-to-one onto the intended domain, keep the order of coordinates and map walls to walls, for every parameter accepted by the code.",
  "all parameters, all points of the domain",
  "Inverted cells only appear for some parameters and positions between the vertices that tests look at",
  [L+"benchmarks/ShearLayer2D.h:71-84", L+"benchmarks/Riemann2D.h:95-108", L+"benchmarks/CouetteFlow2D.h:86-93", L+"benchmarks/CouetteFlow3D.h:90-101", L+"benchmarks/SinusoidalShear2D.h:80-108", L+"benchmarks/LubricationSine.h:85-128"])
p("The advection benchmark compares with the exact solution at the right time",
  "The analytic solution of AdvectionBenchmark is the periodic solution of the advection equation with velocity 1 and the documented initial profile, its evaluation ends for every point and time, and the time loop makes as many steps as reach the end time, with the simulated time being the number of steps times the step.",
  "all points, times, step sizes, end times, operators, both profiles, with and without output",
  "Tests run without output; the loop that maps points back to the unit interval is only run a few times",
  [L+"benchmarks/AdvectionBenchmark.cpp:91-119", L+"benchmarks/AdvectionBenchmark.cpp:216-268"])
p("The backward facing step has the requested inflow",
  "The constructor of BackwardFacingStep2D builds the grid for the given lengths and sets a positive initial density; the inflow velocity vanishes at the walls, has the requested mean and is at most 3/2 of it.",
  "all lengths, heights, velocities",
  "Reading members before their initialisation may give the right values by accident",
  [L+"benchmarks/BackwardFacingStep2D.cpp:21-68", L+"benchmarks/BackwardFacingStep2D.cpp:139-161", L+"benchmarks/BackwardFacingStep2D.h:36-74"])
p("A benchmark run is a run with an error table",
  "BenchmarkCFDSolver and BenchmarkCompressibleCFDSolver do exactly what the base class does, write the same files, and in addition one line of the error table in each iteration of the run divisible by the table interval.",
  "all configurations, operators, initial states, lengths of runs",
  "Tests check that the table exists after a run whose length is a multiple of all intervals",
  [L+"solver/BenchmarkCFDSolver.cpp:45-55", L+"solver/BenchmarkCompressibleCFDSolver.cpp:45-60", L+"solver/CFDSolver.cpp:876-902", L+"solver/CompressibleCFDSolver.h:1006-1051"])
p("The error table contains the maximum and L2 errors",
  "After ErrorStats::update the maximum errors are the largest deviations over all degrees of freedom of all processes, the L2 errors are the norms given in the documentation, and a second update in the same iteration changes nothing.",
  "all fields, distributions of degrees of freedom over processes, cells, quadratures, dimensions 2 and 3",
  "Tests compare with tolerance on one process and one mesh",
  [L+"solver/ErrorStats.cpp:18-216", L+"solver/ErrorStats.h:38-130", L+"utilities/Math.h:77-106", L+"utilities/Math.cpp:28-74"])
p("The initial states of shear layer and droplet fit their boundaries",
  "The initial velocity of ShearLayer2D is continuous, divergence free, agrees on opposite sides of the unit square and is bounded by the parameters; the initial density of Droplet2D lies between gas and liquid density, agrees on opposite sides, decreases with the distance from the centre and is the mean density at the nominal radius.",
  "all parameters, points",
  "A jump across the periodic boundary or the mid line only shows as noise in a simulation",
  [L+"benchmarks/ShearLayer2D.cpp:39-51", L+"benchmarks/Droplet2D.cpp:95-123"])

p("The entropic collision classes conserve mass and momentum",
  "A collision with KBCStandard, KBCCentral or EntropicStabilized keeps mass and momentum of every node, stores the density and velocity of the populations and leaves other nodes alone; during initialisation it keeps the mass and the prescribed velocity.",
  "all populations, nodes, relaxation parameters, scalings, stencils the class handles",
  "Tests run few flows on unscaled stencils and look at global sums with tolerance",
  [L+"collision/KBCStandard.cpp:92-497", L+"collision/KBCStandard.cpp:499-1026", L+"collision/KBCCentral.cpp:40-484", L+"collision/EntropicStabilized.cpp:62-232"])
p("The KBC collisions realise the configured viscosity",
  "With KBCStandard and KBCCentral the deviation of the momentum flux from its equilibrium value is multiplied by 1-1/(tau+1/2), tau given by viscosity and time step, whatever the entropic stabilizer does to the higher moments; the equilibrium value agrees with the Navier-Stokes flux up to fourth order of the velocity.",
  "all populations, viscosities, time steps, scalings, D2Q9 and D3Q15",
  "The entropic parameter depends on the state; viscosity is only measured in single flows with tolerance",
  [L+"collision/KBCStandard.cpp:139-192", L+"collision/KBCStandard.cpp:593-727", L+"collision/KBCStandard.cpp:887-1023", L+"collision/KBCCentral.cpp:88-204"])
p("The KBC collisions do not lead away from equilibrium",
  "The distance of the populations to the equilibrium, sum (f-feq)^2/feq, is multiplied by at most (1-1/(tau+1/2))^2 < 1 by a KBC collision, and the higher moments are relaxed to the point nearest to the equilibrium.",
  "all populations, viscosities, time steps with positive equilibrium",
  "Statement about optimality over a line for all states",
  [L+"collision/KBCStandard.cpp:391-497", L+"collision/KBCStandard.cpp:936-1023", L+"collision/KBCCentral.cpp:374-474"])
p("The equilibria of the entropic classes hold density and velocity and do not change",
  "getEquilibriumDistribution of KBCStandard, KBCCentral and EntropicStabilized has the given density and velocity, is positive and defined below the lattice speed (product form), and a collision of the same class leaves it unchanged.",
  "all densities, velocities, scalings, stencils the class handles",
  "Tests compare single populations for few velocities",
  [L+"collision/KBCStandard.cpp:26-64", L+"collision/KBCStandard.cpp:247-271", L+"collision/MRT.cpp:24-41"])
p("Entropic collisions refuse stencils they cannot handle and keep equilibria on the others",
  "Each of the three classes stops with an exception for the stencils it has no collision for; EntropicStabilized leaves the equilibrium unchanged on D2Q9 and D3Q19.",
  "all stencils, nodes, populations, densities, velocities",
  "Combinations of stencil and class are not all tested",
  [L+"collision/KBCStandard.cpp:66-90", L+"collision/KBCCentral.cpp:23-38", L+"collision/EntropicStabilized.cpp:30-60", L+"dataprocessors/PseudoEntropicStabilizer.cpp:286-317"])
p("EntropicStabilized realises the configured viscosity",
  "A collision with EntropicStabilized multiplies the stress by 1-1/(tau+1/2) and so never increases it.",
  "all populations, viscosities, D2Q9 and D3Q19",
  "The factor depends on logarithms of the state; tests only run one flow",
  [L+"collision/EntropicStabilized.cpp:140-232"])
p("entropyDerivative is the derivative of entropy",
  "entropy(f) is - sum f ln(f/w), asserted to be called for positive populations, and entropyDerivative(f, d) is its derivative in the direction d.",
  "all positive populations, directions",
  "Limit over all step sizes and directions",
  [L+"collision/EntropicStabilized.cpp:262-290"])
p("The pseudo-entropic regularisation minimises sum f^2/w under fixed moments",
  "With the scheme PSEUDO_ENTROPY_MAXIMIZATION the populations of every node are replaced by the unique minimiser of sum f^2/w among all populations with the same mass, momentum and momentum flux (with e: trace-free part of the flux); repeating it changes nothing, equilibria are left alone, other nodes are untouched.",
  "all populations, nodes, scalings, stencils",
  "Minimality over all populations; tests only check some matrix entries",
  [L+"dataprocessors/PseudoEntropicStabilizer.cpp:24-317", L+"solver/CFDSolver.cpp:606-621"])

p("The multistep collision conserves total mass and momentum in every run",
  "With BGKMultistep (Adams-Moulton or BDF2) the total mass and the total momentum stay what they were through any sequence of collisions and of streaming steps which keep the totals of populations and histories.",
  "all sequences of collisions and moves, populations, nodes, viscosities, time steps, stencils, both schemes",
  "The history of former populations and equilibria couples all collisions of a run; the test checks the densities of some collisions only",
  [L+"collision/BGKMultistep.cpp:52-86", L+"collision/BGKMultistep.cpp:88-390", L+"solver/CFDSolver.cpp:686-744"])
p("The multistep collision conserves mass and momentum of every node",
  "A collision with BGKMultistep changes neither the density nor the momentum of a node.",
  "all populations, nodes, runs",
  "Needs all histories; after streaming the history has other moments than the populations",
  [L+"collision/BGKMultistep.cpp:88-390"])
p("The multistep collisions are the Adams-Moulton and BDF2 methods for the BGK equation",
  "The populations after k collisions are the transformed variables of k steps of the third order Adams-Moulton method, resp. BDF2, for y' = -(y-e)/lambda with lambda the viscosity divided by the squared speed of sound and e the equilibrium.",
  "all populations, viscosities, time steps, number of collisions",
  "Equality with a method over all steps; tests do not look at the order",
  [L+"collision/BGKMultistep.cpp:88-390", L+"solver/CFDSolver.cpp:331-347"])
p("Repeated multistep collisions lead to the equilibrium",
  "Collisions with BGKMultistep bring the populations of every node to the equilibrium of their density and velocity, for every viscosity and time step; equilibria do not change.",
  "all populations, viscosities, time steps",
  "Limit of infinitely many collisions, all viscosities",
  [L+"collision/BGKMultistep.cpp:88-390", L+"solver/CFDSolver.cpp:331-347"])
p("The first multistep collision is a BGK collision",
  "The first collision of BGKMultistep, which has no history yet, gives the populations that BGKStandard gives for the same viscosity and time step.",
  "all populations, viscosities, time steps",
  "Tests only compare densities",
  [L+"collision/BGKMultistep.cpp:56-63", L+"collision/BGKMultistep.cpp:300-390"])
p("External forces add the right momentum in multistep collisions",
  "Every collision with BGKMultistep and one of the force schemes adds time step times force to the momentum of each node.",
  "all populations, forces, force schemes, runs",
  "Tests run the multistep collision without forces",
  [L+"collision/BGKMultistep.cpp:88-390", L+"collision/ExternalForceFunctions.h"])
p("Multistep collisions work on every stencil or refuse it",
  "BGKMultistep relaxes the populations on D2Q9 and D3Q19 and stops with an exception on other stencils.",
  "all stencils, populations, runs",
  "The tests use D2Q9 and look at the density only, which a missing collision keeps too",
  [L+"collision/BGKMultistep.cpp:74-83", L+"collision/BGKMultistep.cpp:394-777"])
p("Multistep collisions can be used in the initialisation",
  "With inInitializationProcedure set, BGKMultistep collides with the prescribed velocities, as the iterative initialisation of the solver expects.",
  "all populations, velocities, stencils",
  "The reading of uninitialised memory usually goes unnoticed",
  [L+"collision/BGKMultistep.cpp:88-390", L+"collision/BGKMultistep.cpp:394-777", L+"solver/CFDSolver.cpp:1268-1328"])

p("The reported mass is the integral of the density",
  "The mass in results_table.txt is the integral over the domain of the density as a finite element function: linear in the density, density times volume for a uniform density, and independent of how the mesh is distributed over processes.",
  "all meshes, elements, quadrature rules, densities, distributions over processes",
  "Quantifies over all partitions of the mesh and all fields",
  [L+"solver/PhysicalProperties.cpp:269-310"])
p("The reported kinetic energy is the integral of rho u^2 / 2",
  "The kinetic energy in results_table.txt is the integral of half the density times the squared velocity of the solution, and never negative.",
  "all meshes, elements, support points, quadrature rules, solutions",
  "Tests use elements whose quadrature points are the support points; other combinations can be configured",
  [L+"solver/PhysicalProperties.cpp:29-131", L+"advection/AdvectionOperator.cpp:74-79"])
p("The reported enstrophy is the integral of the squared vorticity",
  "The enstrophy in results_table.txt is the integral of the squared vorticity in two and three dimensions, and agrees with the one in the table of the global turbulence statistics.",
  "all meshes, elements, velocities",
  "Equality for all velocity fields; the test compares fields for which different definitions agree",
  [L+"solver/PhysicalProperties.cpp:133-267", L+"dataprocessors/GlobalTurbulenceStats.cpp:302-316"])
p("The reported extreme pressures bound the pressure",
  "maxP and minP in results_table.txt are pressures cs^2(rho-1) that occur in the solution, and no degree of freedom of any process has a larger or smaller one.",
  "all densities, distributions over processes",
  "Bound for all degrees of freedom of all solutions",
  [L+"solver/PhysicalProperties.cpp:312-320"])
p("The reported mean velocity is the mean of the velocity",
  "mean(ux) in results_table.txt is the integral of the velocity divided by the volume.",
  "all meshes, elements, velocities",
  "The test uses a linear profile, for which the arithmetic mean of the nodes is right",
  [L+"solver/PhysicalProperties.cpp:322-363"])
p("The reported entropy is the integral of the entropy density",
  "The entropy in results_table.txt is the integral over the domain of -sum f log(f/w).",
  "all meshes, elements, populations",
  "Independent of the element order for all populations; not tested",
  [L+"solver/PhysicalProperties.cpp:365-411"])
p("The lines of the results table match its header and the current state",
  "Every line of results_table.txt has one number for each column of the header, and each number belongs to the state of the solver when the line was written.",
  "all sequences of states, solutions",
  "The object caches by iteration number; all histories of calls matter",
  [L+"solver/SolverStats.h:53-124", L+"solver/SolverStats.h:168-213"])
p("The global turbulence statistics are averages over the domain",
  "The columns < x > of the global turbulence table are averages of x over the domain.",
  "all domains, solutions",
  "Quantifies over all domains; a unit domain hides the missing division by the volume",
  [L+"dataprocessors/GlobalTurbulenceStats.cpp:158-340"])
p("The legend of the global turbulence statistics numbers the columns",
  "Every column of the global turbulence table has exactly one entry in the legend, with its number and its contents.",
  "all columns, dimensions, solutions",
  "More than a hundred columns; the legend is not read by any test",
  [L+"dataprocessors/GlobalTurbulenceStats.cpp:80-156", L+"dataprocessors/GlobalTurbulenceStats.cpp:238-316"])
p("The compressible turbulence table contains what its legend names",
  "The legend of the compressible turbulence statistics numbers the columns of the table; maxMach is the largest Mach number of the solution and totalEnergy its total energy.",
  "all solutions, meshes, distributions over processes",
  "Quantifies over all solutions; not tested",
  [L+"dataprocessors/CompressibleTurbulenceStats.cpp:49-205"])
p("The turbulence table contains mean and rms velocities in the planes",
  "For each plane of the configuration turbulence_table.txt contains the mean velocity in the plane and the root mean square of the deviations from it, in the columns named in the header.",
  "all planes, meshes, elements, velocities, distributions over processes",
  "All selections of points by a tolerance and all non-uniform point sets; not tested",
  [L+"solver/TurbulenceStats.cpp:16-88", L+"solver/TurbulenceStats.cpp:121-219"])
p("The Reynolds averages of the output are time averages",
  "ux_average, uy_average, uz_average are the arithmetic means of the velocity over all iterations of the run so far, each counted once.",
  "all runs, velocities, numbers of iterations",
  "Induction over the running average in floating form; not tested",
  [L+"solver/TurbulenceStats.cpp:221-245", L+"solver/CFDSolver.cpp:998-999"])

p("Grad's function has the prescribed moments",
  "The populations GradsFunction computes have the density, momentum and (symmetrised) pressure tensor they were computed from; with the moments of the equilibrium they are the equilibrium.",
  "all stencils with isotropic weights, scalings, positive densities, momenta, tensors",
  "Equality of moments for all reals; tests check samples with a tolerance",
  [L+"boundaries/GradsFunction.h:26-50"])
p("A boundary reports the values it was constructed with",
  "getBoundaryValues of a boundary constructed with a pressure, velocity, velocity gradient, function, or (p,u,T) returns exactly these values, flags the quantities that are prescribed, and nothing else; sizes that do not match the dimension are refused.",
  "all constructors, values, functions, dimensions",
  "All constructors and values at all points; not tested",
  [L+"boundaries/BoundaryFlags.h:60-201", L+"boundaries/BoundaryTools.h:63-140", L+"boundaries/Boundary.h:87-111"])
p("Particles of a multiphase fluid interact with the force of the pseudo-potential",
  "In the multiphase collision neighbouring particles interact with the force -G psi grad psi of the configured pseudo-potential (Shan-Chen, Sukop, Carnahan-Starling), so that a density gradient in a fluid at rest causes motion.",
  "all pseudo-potentials, parameters, density fields",
  "Derivatives of psi for all densities; the unit test of the class is commented out",
  [L+"collision/BGKPseudopotential.cpp:110-484", L+"collision/BGKPseudopotential.cpp:337-385", L+"collision/BGKPseudopotential.h:26-32"])
p("An external force acts on a multiphase fluid",
  "In the multiphase collision an external force F changes the momentum of each node by dt F per step, the mass stays, and the velocity is that in the middle of the step, for each forcing scheme and stencil the model can be built with.",
  "all forces, forcing schemes, stencils, fields",
  "All stencils and forcing schemes and fields; not tested",
  [L+"collision/BGKPseudopotential.cpp:94-484", L+"solver/CFDSolver.cpp:354-362"])
p("The multiphase collision collides each node once",
  "One call of collideAll of the multiphase collision collides every node exactly once.",
  "all meshes (lists of degrees of freedom per cell), fields",
  "Nodes shared by cells occur only on continuous elements and meshes with several cells",
  [L+"collision/BGKPseudopotential.cpp:110-484"])
p("The multiphase collision can be used for the initialisation",
  "With inInitializationProcedure the multiphase collision keeps the given velocities and moves the populations towards them.",
  "all stencils, fields, forcing schemes",
  "Reading an uninitialised vector may appear to work; all stencils",
  [L+"collision/BGKPseudopotential.cpp:205-484"])
p("checkParallelLines accepts exactly pairs of parallel lines and orients them",
  "checkParallelLines returns true for two parallel or antiparallel lines with different end points and the same length, with the second line oriented like the first, and for no others; a refusal names the reason and leaves the points as they are.",
  "all pairs of lines in the plane",
  "Uncountably many lines; tests check some",
  [L+"boundaries/BoundaryTools.cpp:20-68", L+"utilities/Math.h:58-69"])
p("getInterfacialLinesByBoundaryIndicator finds the lines of the interfaces",
  "For two boundary indicators the function returns true with the end points of the two interfaces if the vertices of each lie on a line, and false otherwise.",
  "all meshes, indicators, lines",
  "All meshes, including steep lines and indicators that do not occur",
  [L+"boundaries/BoundaryTools.cpp:70-160", L+"utilities/Math.h:128-143"])
p("The flow variables at a boundary point are those of the solution",
  "The density, velocity and their time derivatives in FEBoundaryValues are those of the finite element solution at the boundary point: interpolated values, the continuity equation and the compressible momentum equation.",
  "all stencils, elements, populations, viscosities, requests that succeed",
  "Differential equations for all fields; not tested",
  [L+"boundaries/FEBoundaryValues.h:142-164", L+"boundaries/FEBoundaryValues.h:252-382"])
p("Every quantity a boundary requests is delivered",
  "FEBoundaryValues::reinit with any combination of flags makes the requested quantities available for every solution with positive densities.",
  "all flags, solutions",
  "All combinations of flags and all density fields",
  [L+"boundaries/FEBoundaryValues.h:142-164", L+"boundaries/FEBoundaryValues.h:252-382", L+"boundaries/BoundaryFlags.h:20-31"])
p("is_angle_small compares angles with a threshold in degrees",
  "is_angle_small(v,w,d) is true exactly if the angle between v and w is below d degrees.",
  "all vectors, thresholds",
  "All thresholds; the test uses the default only",
  [L+"utilities/Math.h:58-69"])

p("The sparsity pattern of the SEDG matrix has a place for every entry of the assembly",
  "Every entry the assembly of the SEDG advection operator writes (cell terms, inner fluxes, periodic fluxes, wall fluxes) has a place in the pattern made by updateSparsityPattern, for any numbering of the boundaries.",
  "all meshes without local refinement, stencils, fluxes, boundary ids",
  "Trilinos refuses entries without a place only at run time for the given mesh; all shipped domains number the boundaries like the faces of a box",
  [L+"advection/SEDGMinLee.cpp:186-318", L+"utilities/DealiiExtensions.cpp:49-362", L+"boundaries/PeriodicBoundary.cpp:90-178", L+"boundaries/BoundaryTools.cpp:162-231"])
p("Opposite cells at periodic boundaries are paired at all refinement levels",
  "The periodicity map pairs exactly the active cells that lie opposite to each other on the two boundaries, at every refinement level and for every relative orientation of the faces; cells that are refined differently are refused.",
  "all refinement trees, orientations, both dimensions",
  "Unboundedly deep trees of refinements; tests use uniform grids",
  [L+"utilities/DealiiExtensions.cpp:384-556"])
p("The solver reports the number of grid points at non-periodic boundaries",
  "The number in the log 'Number of non-periodic boundary grid points' is the number of degrees of freedom that lie on a boundary that is not periodic.",
  "all meshes, boundary collections (walls, periodic, mixed)",
  "All meshes and numberings of degrees of freedom; not tested",
  [L+"solver/CFDSolver.cpp:536-558", L+"utilities/DealiiExtensions.cpp:616-694"])
p("set_boundary_ids_at_hyperplane marks the boundary faces in the plane",
  "After the call exactly the boundary faces whose vertices are all closer than tol to the plane carry the id; all other faces are as before.",
  "all meshes, planes, tolerances, ids",
  "All meshes, including planes that contain interior faces; not tested",
  [L+"utilities/DealiiExtensions.cpp:775-800"])

p("The mass in the domain over a whole simulation",
  "In a run with the discontinuous Galerkin scheme and the 5-stage Runge-Kutta integrator the total mass at the end and at every checkpoint is the initial mass less what the walls displaced since; it is exactly the initial mass on periodic domains and between walls at rest, whatever the external force.",
  "all meshes, stencils with closed-form moments, collision and forcing schemes, initial states, numbers of steps",
  "Holds for every flow and length of run only if collision, streaming, boundary fluxes, integrator and loop fit together; tests look at one short run with a tolerance",
  [L+"solver/CFDSolver.cpp:402-411", L+"solver/CFDSolver.cpp:647-765", L+"solver/CFDSolver.cpp:806-890", L+"advection/SEDGMinLee.cpp", L+"timeintegration/RungeKutta5LowStorage.cpp", L+"collision_advanced/CollisionOperator.h"])
p("The momentum in a periodic domain over a whole simulation",
  "Without external force the total momentum stays the initial one; an external force adds force times volume times the elapsed time; interrupting and restarting a run changes nothing about that.",
  "all meshes without walls, collision and forcing schemes, forces, initial states, numbers of steps, checkpoints",
  "Off by one collision is invisible within the tolerances of long runs",
  [L+"solver/CFDSolver.cpp:767-843", L+"solver/CFDSolver.cpp:806-890", L+"collision_advanced/Forcing.h", L+"timeintegration/RungeKutta5LowStorage.cpp"])
p("Uniform flow stays uniform through a whole simulation",
  "A fluid in equilibrium with constant density and velocity, in a periodic domain or between walls that move along with it, is left exactly as it is by any run: the run succeeds and populations, density and velocity are the initial ones at the end and in every checkpoint.",
  "all meshes, stencils with closed-form moments, collision schemes, equilibria, velocities, filters that keep constants, numbers of steps",
  "Free-stream preservation of all parts together for every mesh and run length",
  [L+"solver/CFDSolver.cpp:647-890", L+"advection/SEDGMinLee.cpp", L+"boundaries/SEDGBoundary.cpp"])

p("A time step aligned with the grid turns the semi-Lagrangian solver into the lattice Boltzmann method",
  "If the support points are equidistant and every population travels a whole number of their spacings in a time step (as the standard-LBM options arrange), streaming in a periodic box moves the populations from point to point without interpolation, and a whole run computes exactly what stream-and-collide on the lattice of support points computes, also at points of opposite boundaries that have separate numbers.",
  "all dimensions, element orders up to 1e10, numbers and widths of cells, numberings of the degrees of freedom, stencils, collision models, initial states, numbers of steps",
  "Equality of two algorithms for every size, order, numbering and run length",
  [L+"advection/SemiLagrangian.cpp:167-330", L+"advection/SemiLagrangian.cpp:560-640", L+"solver/CFDSolver.cpp:658-722", L+"utilities/CommandLineParser.cpp"])
p("Mass and momentum of grid-aligned semi-Lagrangian runs",
  "In such a run the sum of the densities over all lattice sites never changes, and the sum of the momenta changes only by the external force: by the same amount per site in every collision.",
  "the same, with stencils with closed-form moments and the velocity-shift and exact-difference forcing schemes",
  "Global balance over arbitrarily long runs; the general semi-Lagrangian scheme does not conserve",
  [L+"advection/SemiLagrangian.cpp", L+"solver/CFDSolver.cpp:658-722", L+"solver/CFDSolver.cpp:767-890", L+"collision_advanced/CollisionOperator.h"])

p("Collisions have no preferred direction",
  "For every rotation or mirror image that maps the directions of a stencil to directions of equal weight, colliding the turned populations with the turned force gives the turned result: the same density, the turned velocity, the turned populations, or the same failure. The axes of a stencil can be exchanged and reversed at will.",
  "all collision models, equilibria and forcing schemes, all 14 stencils and all their symmetries, all populations, velocities, forces, viscosities and time steps",
  "Holds for all reals and all symmetries; the optimised D2Q9 and D3Q19 code writes every direction out by hand",
  [L+"collision_advanced/CollisionOperator.h:52-104", L+"collision_advanced/CollisionSchemes.h", L+"collision_advanced/Equilibria.h", L+"collision_advanced/AuxiliaryMRTFunctions.cpp", L+"stencils"])
p("Every relaxation mode of the multiple-relaxation-time scheme treats the axes alike",
  "Whatever moment basis and relaxation mode is configured, exchanging the axes in the populations exchanges the axes in the result of the collision.",
  "all bases and modes that can be configured, all populations",
  "Needs the collision matrix of every mode to commute with every symmetry of the stencil",
  [L+"collision_advanced/AuxiliaryMRTFunctions.cpp:292-405", L+"collision_advanced/CollisionSchemes.h:237-263"])
p("Symmetric flows stay symmetric",
  "If the initial state, the box and the force of one grid-aligned semi-Lagrangian simulation are those of another one with axes exchanged or reversed, so are the results after any number of iterations; in particular a simulation that starts symmetric stays symmetric.",
  "all sizes, orders, numberings, collision models, symmetric pairs of initial states, numbers of iterations",
  "Compares two runs of any length on different meshes with different numberings",
  [L+"advection/SemiLagrangian.cpp:167-330", L+"solver/CFDSolver.cpp:658-722", L+"collision_advanced/CollisionOperator.h:26-111"])

p("Streaming creates no new extremes",
  "Populations that lie between two bounds before a semi-Lagrangian streaming step lie between them afterwards; nonnegative populations stay nonnegative and the largest absolute value of the populations does not grow.",
  "all meshes, boundaries, time steps, element orders, populations, numbers of steps",
  "A maximum principle over all meshes, all departure points and all populations",
  [L+"advection/SemiLagrangian.cpp:144-513", L+"advection/AdvectionTools.cpp:45-95", L+"solver/CFDSolver.cpp:669-679"])

p("Compressible restart carries density, velocity, temperature and energy",
  "A CompressibleCFDSolver constructed with a restart iteration has the density, velocity, temperature and energy of the simulation that wrote the checkpoint, can be constructed for every mesh and number of processes, and its run continues with the mass, momentum and energy of the checkpoint.",
  "all stencils, heat capacity ratios, populations f and g, meshes, numbers of degrees of freedom known to a process, restart iterations",
  "The energy error vanishes at density 1 or at rest, which is where tests start; needs an exact formula over all populations",
  [L+"solver/CompressibleCFDSolver.h:38-179", L+"solver/CompressibleCFDSolver.h:1006-1051", L+"solver/CFDSolver.cpp:1484-1524"])
p("Compressible simulations conserve mass, momentum and energy",
  "On a periodic domain the total mass, momentum and energy (kinetic and internal) after any number of iterations of a compressible simulation, and in every checkpoint it writes, are those of the initial density, velocity and temperature.",
  "all periodic meshes, element orders, numbers of iterations, initial fields, heat capacity ratios, Prandtl numbers, viscosities",
  "Needs induction over the iterations with streaming of both populations on every mesh",
  [L+"solver/CompressibleCFDSolver.h:181-314", L+"solver/CompressibleCFDSolver.h:790-912", L+"solver/CompressibleCFDSolver.h:1006-1051", L+"collision_advanced/CollisionOperator.h:113-225"])
p("The compressible initial state has the prescribed fields and is stationary when uniform",
  "initializeDistributions of the compressible solver gives populations that carry exactly the prescribed density, velocity and temperature; the first collision leaves them unchanged and returns these fields; a uniform gas stays uniform for the whole simulation.",
  "all initial fields, stencils, scalings, heat capacity ratios, periodic meshes, numbers of iterations",
  "An identity of fourth order polynomials summed over 25 to 77 directions for all densities, velocities and temperatures",
  [L+"solver/CompressibleCFDSolver.h:790-912", L+"collision_advanced/CollisionSchemes.h", L+"solver/CompressibleCFDSolver.h:1006-1051"])

p("The MRT collision classes relax the stress with the rate of the viscosity",
  "After a collision with MRTStandard or MRTEntropic on D2Q9 the shear stress is 1 - 1/(nu/(dt cs^2) + 1/2) times the stress before, at every density; the third moments of MRTStandard relax with the rate whose product with the viscosity is 3/16.",
  "all populations, densities, viscosities, time step sizes, stencil scalings",
  "Tests run at density close to 1, where the error is of the order of the density fluctuation times the Mach number squared; needs the exact moments for all populations",
  [L+"collision/MRTStandard.cpp", L+"collision/MRTEntropic.cpp", L+"collision/MRTStandard.h"])
p("The smooth density wave is a solution of the Euler equations",
  "The fields that SmoothDensityPropagation gives as initial and reference solution satisfy the Euler equations for every domain length and velocity, with constant pressure and positive density.",
  "all domain lengths, velocities, points and times",
  "A differential equation over all points, times and parameters; the example only uses one length",
  ["src/examples/step-13/SmoothDensityPropagation.cpp", "src/examples/step-13/SmoothDensityPropagation.h"])
p("The shock-vortex interaction starts from a standing shock and a vortex in equilibrium",
  "The two states of ShockVortexInteraction satisfy the Rankine-Hugoniot conditions for a standing shock, the profile between them approaches them exponentially, the vortex is isentropic with circular velocity, its pressure gradient balances the centripetal force, all fields are defined everywhere for every vortex Mach number and fit the periodic boundary.",
  "all points, vortex Mach numbers and densities and temperatures of the surroundings",
  "Derivative of a power of an exponential for all radii and Mach numbers; the undefined point is hit only when a grid point lies on it",
  ["src/examples/step-12/ShockVortexInteraction.cpp", "src/examples/step-12/ShockVortexInteraction.h"])
p("The initial states of the shock tube and of the Riemann problem are those of the literature",
  "SodShockTube has density and temperature 8, 5/4 left and 1, 1 right of the middle up to an exponentially small error; the quadrants of Riemann2D are symmetric, separated by contact discontinuities of equal pressure and by shocks satisfying the Rankine-Hugoniot conditions to the digits given.",
  "all points, tube lengths, shock speeds",
  "The jump conditions have to fail for every shock speed; the profile is bounded for all points",
  [L+"benchmarks/Riemann2D.cpp", "src/examples/step-10/SodShockTube.cpp", "src/examples/step-10/SodShockTube.h"])

p("The adaptive force of the turbulent channel drives the flow to the target flux",
  "The force set by AdaptiveForcing and written to its table stays between -2 and 5 times the starting force, points so as to reduce the error, stands still only at the target flux, decreases when the target is exceeded and continues unchanged after a restart.",
  "all runs, measured fluxes, targets, starting forces and numbers of iterations",
  "Statements over arbitrarily long histories; the wrong direction needs a negative starting force, the overshoot a long start",
  ["src/examples/step-turbulentChannel/AdaptiveForcing.cpp:71-96", "src/examples/step-turbulentChannel/AdaptiveForcing.cpp:451-483"])
p("The flux and density measured in the turbulent channel are those of the flow, and rescaling corrects the density only",
  "calculateRhoU gives the bulk momentum and the bulk density of the channel for every height, distribution of the cells over processes and rounding of the coordinates; rescaleDensity makes the bulk density one and leaves velocity and temperature as they are.",
  "all sets of points, numbers of processes, heights, populations and factors",
  "Rounding differences between processes and idle processes occur only on certain partitions; the temperature change is proportional to the density drift, tiny in every step",
  ["src/examples/step-turbulentChannel/AdaptiveForcing.cpp:98-195", "src/examples/step-turbulentChannel/FinalChannelStatistics.cpp:67-150", L+"solver/DistributionFunctions.cpp:192-210", L+"utilities/Math.h:132-143"])

p("The turbulent channel is driven with the force of its friction Reynolds number on the mesh asked for",
  "step-turbulentChannel applies the body force whose balance with the wall friction gives the friction Reynolds number of the command line, between two walls on a mesh that keeps its order and is as dense at the walls as --grid-density says, and its turbulence monitor looks at the centre line and at the images of 1/8 and 1/32 of the height.",
  "all half widths, Reynolds numbers, velocities, grid densities",
  "A statement over all parameters; the order of the arguments of a constructor call is not checked by a value",
  ["src/examples/step-turbulentChannel/TurbulentChannelFlow3D.cpp:26-181", "src/examples/step-turbulentChannel/TurbulentChannelFlow3D.h:108-201", "src/examples/step-turbulentChannel/step-turbulent-channel.cpp:114-153"])
p("The random numbers of the synthetic turbulence lie strictly inside their interval for every negative seed",
  "TurbulentChannelFlow3D::randf_1 and randf_2, started with a negative seed, return numbers strictly between the limits given, drawn from the sequence of Park and Miller, without overflow of ints or access outside of the table, however many are drawn; the angles of the modes are in the ranges of spherical coordinates.",
  "all seeds and numbers of draws",
  "2^31 seeds and arbitrarily many draws; an overflow depends on single values of the state",
  ["src/examples/step-turbulentChannel/TurbulentChannelFlow3D.cpp:679-765"])
p("The turbulent channel starts from an incompressible perturbation of a mean profile at rest at the walls",
  "The synthetic velocity of TurbulentChannelFlow3D is a sum of waves without divergence, its discrete curl has no divergence, the mean profile is symmetric, at rest at the walls and has the centre line velocity in the middle; the initial temperature is that of the walls at the walls.",
  "all points, channels and parameters",
  "An access behind the end of a vector usually goes unnoticed; the profile is right for the one half width for which it was written",
  ["src/examples/step-turbulentChannel/TurbulentChannelFlow3D.cpp:184-225", "src/examples/step-turbulentChannel/TurbulentChannelFlow3D.cpp:324-437", "src/examples/step-turbulentChannel/TurbulentChannelFlow3D.cpp:440-659", "src/examples/step-turbulentChannel/step-turbulent-channel.cpp:137-140"])
p("Decaying turbulence and the mixing layer start from fields that fit their boundaries",
  "The initial velocity of DecayingTurbulence2D is a function of the point, without divergence and periodic like the square; that of MixingLayer3D is antisymmetric and has the velocities imposed at the boundaries.",
  "all drawn wave numbers and all points",
  "The field depends on random draws",
  ["src/examples/step-decayingTurbulence2D/DecayingTurbulence2D.cpp:42-127", "src/examples/step-mixingLayer3D/MixingLayer3D.cpp:38-124", L+"solver/CFDSolver.cpp:1383-1420"])

p("Every set of support points offered gives finite elements of the order asked for",
  "For every order and every choice of support points offered by the configuration, the advection operator gets shape functions that are one at their own support point and zero at all others, sum up to one and reproduce all polynomials of that order, so that semi-Lagrangian streaming moves such fields exactly; the mapping of problems that call themselves Cartesian is that of their transformed vertices.",
  "all orders, names of support points, dimensions, cells and polynomials",
  "A statement over all orders and all polynomials; tests use one or two orders",
  [L+"advection/AdvectionTools.cpp:47-97", L+"advection/AdvectionOperator.cpp:43-86", "src/examples/step-0/LidDrivenCavity2D.h:68-97"])
p("Discontinuous Galerkin transport with Gauss-Lobatto elements is exact for polynomials of its order, at any order",
  "On meshes of boxes of any sizes, in two and three dimensions and for every order, the operator assembled by SEDGMinLee with the Gauss-Lobatto rule differentiates polynomials of the order of the element exactly along each direction, keeps the integral of every population over any number of Runge-Kutta steps, and does not amplify: nothing is assumed of deal.II except the values of Lagrange polynomials and the exactness of the Gauss-Lobatto rule.",
  "all orders, box sizes, meshes, stencils, fields, numbers of steps",
  "Exactness at every order is a statement about all polynomials; a test shows convergence for some functions",
  [L+"advection/SEDGMinLee.cpp:38-66", L+"advection/SEDGMinLee.cpp:272-536", L+"advection/AdvectionOperator.cpp:74-82"])

p("Whole runs of the time integrators converge and do not amplify",
  "For every linear system df/dt = A f + b, any number of streaming steps of length h with the five-stage Runge-Kutta integrator end within a bound of order h^4 (plus the rounding of the published coefficients) of the exact solution, with a constant depending only on row sums, derivatives and the simulated time. With the theta method, linear systems solved exactly and theta between 1/2 and 1, transport that takes energy out of every state is not amplified by any number of steps of any length, and the run converges with order h^2 for theta = 1/2 and h otherwise; so do the matrices of the discontinuous Galerkin operator in periodic domains and between walls at rest: the squared populations never grow. The bound 1/2 is sharp.",
  "all system sizes, matrices, vectors, starts, step lengths, numbers of steps, theta in [1/2, 1], meshes, orders, stencils",
  "Order and stability are statements about all step sizes and all run lengths; tests run one equation at a few step sizes.",
  [L+"timeintegration/RungeKutta5LowStorage.cpp: step", L+"timeintegration/ThetaMethod.cpp: step", L+"solver/CFDSolver.cpp: stream", L+"advection/SEDGMinLee.cpp: reassemble"])

p("The flow around the cylinder starts from the potential flow around the obstacle in equilibrium with its density",
  "The initial velocity of Cylinder2D is free of sources and rotation, tends to the inlet velocity, does not cross the boundary of the obstacle, and together with the initial density (pressure = squared sound speed times density) solves the steady Euler equations; it is defined at all points of the mesh. The program reaches and prints the Mach number asked for, and the Reynolds number asked for is that of the obstacle's diameter.",
  "all velocities, all points of the domain and of chords between neighbouring circle points, all Mach and Reynolds numbers, both solvers",
  "The fields are formulas with derivatives at every point; tests would sample a few points, and none exist for the examples.",
  ["src/examples/step-9/Cylinder2D.cpp: makeGrid, InitialU::value, InitialRho::value", "src/examples/step-9/step-9.cpp: main"])
p("The flow around the sphere fills its domain, starts from a flow around the sphere and has the numbers asked for",
  "The rectangular blocks merged with the shell around the sphere cover the domain without overlap; the initial velocity does not cross the boundary of the sphere; every run has the Mach and Reynolds number asked for.",
  "all points of the domain, all pairs of blocks, all Mach and Reynolds numbers",
  "Covering and disjointness concern every point of space; no test covers the example.",
  ["src/examples/step-sphere/Sphere.cpp: makeGrid, InitialU::value", "src/examples/step-sphere/step-sphere.cpp: main"])

p("The comparison of the cavity with published velocities reports the difference to the references",
  "On any number of processes, at every 1000th iteration the comparison writes the velocities on the two centre lines beside the references of the chosen Reynolds number and reports the root mean square differences, which vanish exactly when all values are the references; Reynolds numbers without references are refused; the references of different authors for the same Reynolds number agree.",
  "all velocity fields, distributions over processes, iterations, Reynolds numbers, table rows",
  "The values depend on the distribution over processes; the tables are typed in by hand and no test compares them.",
  ["src/analysis/cavity-convergence/CompareToGhia.cpp: apply, makeReferenceU, makeReferenceV", "src/analysis/cavity-convergence/CompareToBotella.cpp: apply", "src/analysis/cavity-convergence/CompareToErturk.cpp: apply"])

p("The Fourier tool writes the coefficients of the field with the right wave vectors",
  "For every size in one, two and three dimensions the Fourier tool writes for every wave vector exactly one line with the coefficient of the field in the input file; the coefficients determine the field; opposite waves of the real field have conjugate coefficients; unsuitable calls are refused.",
  "all sizes, dimensions, input files, wave vectors",
  "The labels are integer arithmetic on a running index that agrees with wrong formulas on cubes with symmetric fields; short files give whatever lies in memory.",
  ["src/postprocessing/FFT.cpp: main"])

p("The matrix with distributed columns behaves like a matrix",
  "For all vector types and all distributions over processes: entries and columns set are read back and leave the others unchanged; the product with a vector is the matrix product whatever the result held before; a new matrix is zero and has columns structured like the prototype, so that products into such vectors work.",
  "all matrices, distributions over processes, block structures, vectors",
  "A test sees one distribution; columns of other structure than the prototype only show when products with blocks are formed.",
  [L+"utilities/SemiParallelMatrix.cpp: reinitVector, reinit, set, operator(), vmult, getColumn, setColumn"])

p("Continuous boundary gradients are the gradients of the solution",
  "After reinit and calculateGradients, the component read at a point of a face of the chosen boundaries is the gradient of the solution there (made continuous over cells), in debug and release builds, and objects can be destroyed at any time.",
  "all meshes, boundary ids, solutions, faces, points, components; debug and release builds",
  "The test constructs the object for one solution and compares no values at boundary points.",
  [L+"utilities/ContinuousBoundaryGradient.h: face_reinit", L+"utilities/ContinuousBoundaryGradient.cpp: reinit, calculateGradients, get_gradient_component, destructor"])

p("The matrix analysis writes spectra and pseudospectra of the streaming matrix",
  "For every matrix the spectrum file holds its eigenvalues times the time step as the header says, the value returned is the largest modulus, and the pseudospectrum holds the eigenvalues of as many different matrices as there are cycles, each within the perturbation of the streaming matrix in every entry.",
  "all matrices, time steps, perturbations, numbers of cycles, starting times",
  "Random perturbations depend on the clock; a test of the number of lines passes when all cycles are the same.",
  ["src/analysis/matrix-analysis/matrixAnalysis.cpp: computeSpectrum, writeSpectrum, writePseudospectrum"])

p("The enstrophy of the quarter domain is the integral of the squared vorticity",
  "For every velocity field, mesh and distribution over processes the value printed is defined and is the integral of the squared vorticity over the cells whose centre lies in the lower right quarter.",
  "all velocity fields, meshes, distributions over processes",
  "A variable that is never set can hold a plausible index in every test run.",
  ["src/examples/step-shearLayer2D/EnstrophySubdomain.h: calculate"])

p("The static droplet runs with the relaxation time given on the command line",
  "For every command line accepted by the static droplet program the collision relaxes with the relaxation time given as second argument, whatever the refinement level; command lines with too few arguments are refused; the velocity printed at the end is the largest magnitude of the mean of the velocities before and after collision.",
  "all command lines, all velocity fields",
  "The viscosity is computed from the time step on a mesh that is refined only later; the run works and converges, with another viscosity for every refinement level.",
  ["src/examples/static-droplet/static_droplet.cpp: main", "src/library/natrium/benchmarks/Droplet2D.h: refine", L+"solver/CFDSolver.cpp: CFDSolver"])
open('/verif/properties.jsonl','w').write("".join(json.dumps(x)+"\n" for x in P))
print(len(P))
