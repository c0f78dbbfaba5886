{
 "C03": {
  "note": "Full statement refuted by witness (D3Q27); complete characterisation over all 14 stencils proved instead."
 },
 "C11": {
  "note": "Full statement refuted by witness (only-N mode relaxes N with 1/tau and sets Jy); what the mode does, and full relaxation, proved for all inputs; both modes of the d'Humieres basis proved."
 },
 "C12": {
  "note": "Proved for exact difference (all schemes) and shifting velocity with BGK / MRT; refuted by witness for Regularized (adds tau dt F) and D'Humieres paper rates (adds nothing)."
 },
 "C13": {
  "note": "Proved exactly for the quartic equilibrium on D2Q25H, and up to the tolerance of the decimal literals (1e-13 or better, relative) on every stencil of isotropy order six or more (D2Q19H, D2Q19V, D3V27, D3Q45, D3Q77); refuted by witness for the selectable second-order equilibrium, with the exact drift proved."
 },
 "C14": {
  "note": "Refuted by witness; exact list of mismatching combinations proved, all others run the configured pair or throw."
 },
 "C15": {
  "note": "Node-wise, order and partition independence proved; the empty-rank part is refuted (it throws)."
 },
 "C20": {
  "note": "Refuted by witness (the restarted run repeats a collision; time stored with six digits). Proved: a run is one collision followed by an evolution, checkpoints hold state and time of their iteration, what the restarted run computes, and equality when the repeated collision is idempotent and the time survives printing."
 },
 "C21": {
  "note": "Velocity refuted by witness (stays zero until the first collision); density, and both fields after the first collision, proved."
 },
 "C22": {
  "note": "Refuted by witness for iteration 1 (scans for and overwrites the largest iteration); proved for all histories without a request for iteration 1."
 },
 "C23": {
  "note": "Refuted by witness (D3Q77 etc. are accepted by the collision table but cannot be loaded); proved for all other stencils."
 },
 "C24": {
  "note": "Budget refuted by witness (budget + 1 passes); compressible variant ignores the residual (witness). Proved: at most budget + 1 passes, stops at first residual below target, counter and time unchanged."
 },
 "C26": {
  "note": "Refuted by witness for doubles of more than 16 digits (0.1+0.2), for a fractional filter Nc and for wall coordinates of more than 6 digits. Proved over all histories for all other options and values, with error bound for doubles; accepted domains proved."
 },
 "C27": {
  "note": "Proved over all histories and pairs of options."
 },
 "C28": {
  "note": "Refuted by witness for setEmbeddedDealIntegratorParameters (every getter throws afterwards); proved for all other setters."
 },
 "C46": {
  "note": "Proved for readFromXMLFile; refuted by witness for the constructor taking a file name."
 },
 "C29": {
  "note": "Documented values proved for all ten enumerated options on every command line. Refuted by witness: --mrt-relax accepts every string; --stencil accepts three undocumented values. All other unknown values proved rejected."
 },
 "C30": {
  "note": "Explicit values, untouched options, idempotence, acceptance and rejection of conflicts proved for all command lines and reached configurations. Refuted by witness: the conflict of --standard-lbm with --standard-lbm-with is found after the configuration has been changed."
 },
 "C31": {
  "note": "Proved for D2Q9, D3Q19, D3Q27 and all orders, cell widths and scalings, up to rounding the CFL number to 16 digits; node spacing is cell width / order (equidistant support points). Refuted by witness for D3Q15 and for --standard-lbm-with n together with --order-fe 2."
 },
 "C32": {
  "note": "Proved over all call sequences. In addition: import with a default-valued option is undefined behaviour (C32_default_undefined)."
 },
 "C33": {
  "note": "Documented numbers proved. Refuted by witness: every other number reads an uninitialised variable (C33_other_undefined: all of them)."
 },
 "C34": {
  "note": "Proved for every matrix, right-hand side, vector and every accepted step size, and over any number of streaming steps."
 },
 "C35": {
  "note": "Coefficients up to order four within 1e-20 of the Taylor coefficients; local error bound against any solution of the linear system."
 },
 "C36": {
  "note": "Proved for an exact solver; for an iterative solver with relative tolerance, defect and drift of invariants are bounded. Steady states need a solver that keeps an initial guess that already solves the system."
 },
 "C37": {
  "note": "Refuted by witness: every steady state becomes not-a-number (division by the zero residual norm). Proved in addition: a finite result conserves linear invariants, for every Pade approximation and matrix inversion."
 },
 "C45": {
  "note": "Refuted by witness: the body of DealIIWrapper::step is commented out, so a function returning double runs off its end (undefined); the limiter returns its input."
 },
 "C47": {
  "note": "Refuted by witness: the coefficient of the fifth power is 1/200 instead of 1/120 (C35 gives the true order, four)."
 },
 "C38": {
  "note": "Proved in one and two dimensions for every order, cut-off, mesh of discontinuous cells; means kept in all dimensions; factors characterised. That the quadrature and elements of the solver meet the hypotheses at every order is C38_resolved/C38_orders (existence of rules and polynomials: C38_resolved_ex); the square integral of a cell never grows, in all dimensions (C38_square). Refuted by witness in three dimensions (second direction overlooked; exact behaviour proved in C38_modes_3d_partial), for the second filter in three dimensions, and for continuous elements (shared degrees of freedom)."
 },
 "C39": {
  "note": "Proved over all histories: lookups give the first registration; errors characterised; histories with distinct indicators behave as documented. Refuted by witness: a duplicate plain boundary is dropped without error, and a rejected periodic boundary leaves one of its indicators half registered."
 },
 "C40": {
  "note": "Proved for indicators that fit the indicator type of the mesh; refuted by witness otherwise (truncated to that type)."
 },
 "C41": {
  "note": "Proved for boundaries where every cell lies at one face pair (any points, any number of pairs, two and three dimensions, unflipped faces in three dimensions). Refuted by witness for meshes one cell wide."
 },
 "C42": {
  "note": "Search on the unit cell proved for all dimensions and points. Search by planes proved for start points not on a face; refuted by witness for start points on a face (a crossing is reported for a path leading inwards)."
 },
 "C43": {
  "note": "Termination and single handling proved for all meshes. Arrival proved for all meshes without boundaries with invertible mappings (C43_closed); for periodic Cartesian meshes in geometric terms with sharp limit of 50 faces. Refuted by witness for refined neighbours (undefined behaviour) and for do-nothing boundaries away from the cell of the support point (assertion fails)."
 },
 "C48": {
  "note": "Proved for every mesh without boundaries whose cells have invertible mappings (to_unit defined everywhere) and whose faces match; meshes on which deal.II's inverse mapping fails for some point fall back to the search by planes, see C42."
 },
 "C49": {
  "note": "All meshes, one process."
 },
 "C50": {
  "note": "All meshes with straight cells (deviation eta of crossing points from straight lines is a parameter), all paths with up to 50 crossings; no do-nothing boundaries."
 },
 "C51": {
  "note": "Refuted by witness: PointComp is \"distance < 1e-10\", under which different points are equivalent, so all hits of a cell share the first hit point, and the velocity is evaluated at unit coordinates (place_refuted). Proved: no hit is lost or doubled; what is evaluated instead."
 },
 "C52": {
  "note": "Rest state proved for all paths. Common velocity: proved for paths with at most one hit, refuted by witness for two hits in a step (the exchange terms are added with the sign of the destination direction)."
 },
 "C53": {
  "note": "Proved if the opposite population is not hit, too; refuted by witness in a corner."
 },
 "C54": {
  "note": "Refuted by witness: stream passes the time of the beginning of the step. Proved: the time used is exactly one step too early."
 },
 "C55": {
  "note": "Proved for walls at rest; refuted by witness for a moving wall: the hits recorded before the limit still act."
 },
 "C44": {
  "note": "Proved for all operation sequences in which direct assignments and setF0 are followed by an updating operation, and always for discontinuous Galerkin; setF0 alone on a ghosted object refuted by witness (it does not update the ghosted vector)."
 },
 "C56": {
  "note": "equals decides closeness and is symmetric for objects with the same layout (proved); symmetry for different layouts refuted by witness."
 },
 "C04": {
  "note": "Exact on the stencils in closed form, up to the tolerance of the literals on the others (D2Q777 is not isotropic to fifth order and is left out)."
 },
 "C05": {
  "note": "Exact on the stencils in closed form, up to the tolerance of the literals on the others."
 },
 "C07": {
  "note": "Exact on the stencils in closed form, up to the tolerance of the literals on the others (all but D2Q777)."
 },
 "C08": {
  "note": "Exact on the stencils in closed form, mass and momentum up to the tolerance of the literals on the others (all but D2Q777)."
 },
 "C57": {
  "note": "f: proved (value = quartic equilibrium of density 1 for all stencils; every population addressed by such a hit has it after the step). g: refuted by witness, applyToG hard-codes temperature 1.0, so g belongs to T = 1 (C57_stream gives the exact value)"
 },
 "C58": {
  "note": "proved: mass and momentum kept up to the tolerance of the D3Q45 literals, fluid at rest at wall temperature is a fixed point for gamma 1.4, other stencils throw. Refuted by witness: the temperature is imposed (the non-equilibrium part of the energy of g is transferred with the wrong sign), other heat capacity ratios (1.4 hard-coded), simulations without g (f_new and g_new are the same object); C58_late: g written at the wall is overwritten by the later streaming of g"
 },
 "C59": {
  "note": "upwind fluxes: proved for all meshes satisfying good_mesh (Lagrange elements in the quadrature points, integration by parts, conforming faces), also for any number of Runge-Kutta 5 steps. Central fluxes: refuted by witness (both entries of the central flux have the same sign)"
 },
 "C60": {
  "note": "upwind fluxes: proved. Central fluxes: refuted by witness, a constant is not steady"
 },
 "C61": {
  "note": "proved for upwind fluxes; hypothesis: integration by parts holds for the quadrature on every cell"
 },
 "C62": {
  "note": "mass balance proved (stencils in closed form), steady uniform flow proved for density 1; refuted by witness: other densities (density hard-coded 1), time-dependent wall velocities (evaluated at assembly only)"
 },
 "C63": {
  "note": "refuted by witness: reassemble adds to the existing matrix and vector; C63_adds: every call adds the operator once more"
 },
 "C64": {
  "note": "refuted by witness: delta_t is passed as use_central_flux and false as delta_t; C64_short_constructor: they agree exactly for delta_t = 0"
 },
 "C65": {
  "note": "proved for every class but BGKStandardTransformed; refuted by witness there: its populations sum to density minus one"
 },
 "C66": {
  "note": "proved for BGKStandard, BGKSteadyState (stencils in closed form), BGKRegularized, and on D2Q9 BGKStandardTransformed, MRTStandard, MRTEntropic; refuted by witness: BGKIncompressible (mass), BGKStandardTransformed on D3Q19 (mass), MRTEntropic on D3Q19 (momentum, its matrix has another order of directions)"
 },
 "C67": {
  "note": "proved for BGKStandard, BGKSteadyState, BGKStandardTransformed and BGKRegularized on D2Q9, the MRT classes on D2Q9 for density 1; refuted by witness: the MRT classes for density 2, BGKIncompressible, BGKRegularized on D3Q19 (equilibrium stress not subtracted)"
 },
 "C68": {
  "note": "proved on D2Q9 for scaling 1; C68_scaled gives the factor for every scaling (divided by its square), refuted by witness for scaling 2; C68_three_dimensions: on D3Q19 the whole momentum flux is taken for the stress"
 },
 "C69": {
  "note": "BGKStandard on D2Q9: momentum and stored velocity proved for all scalings and force types, mass for scaling 1 or shifting velocity; refuted by witness: mass with EDM and Guo for scaling 2, momentum with EDM and Guo on D3Q19 (exact value proved). C69_ignored: all other classes and stencils ignore the force"
 },
 "C70": {
  "note": "termination, velocity field, density, contraction proved; refuted by witness: one iteration more than configured; MRT classes ignore the prescribed velocity; BGKRegularized on D3Q19 reads unset variables; C70_forces: exact effect of forces during the initialisation"
 },
 "C71": {
  "note": "proved"
 },
 "C72": {
  "note": "proved (stencils in closed form)"
 },
 "C73": {
  "note": "proved for time step 1 and one cell per node; C73_general: exact value in general; refuted by witness: other time steps (factor dt missing), nodes shared by cells (added once per cell), other schemes (relaxation time 0)"
 },
 "C74": {
  "note": "proved to hold exactly for side length 2 PI (default) with analytic density; divergence and periodicity proved for all lengths; refuted by witness for side length 1 (decay rate and pressure not scaled), and for constant density"
 },
 "C75": {
  "note": "convergence of the series, diffusion equation, plate values, start from rest (uniformly away from the moving plate) and distance of the code to the series (1e-15 U) proved for CouetteFlow2D; refuted by witness before time 1e-5 (the fluid is always taken to be at rest) and for CouetteFlow3D, whose plate is at height 1 while the formula has it at L"
 },
 "C76": {
  "note": "force and bulk velocity proved (existence and uniqueness of the steady profile); refuted by witness: the analytic velocity is 0"
 },
 "C77": {
  "note": "proved"
 },
 "C78": {
  "note": "proved for |factor|<1, unit square, |amplitude|<=3/2 and below the height, amplitude plus roughness below the height; refuted by witness for other parameters that pass the assertions; CouetteFlow3D always fails; wavy wall of step-6 proved for every length"
 },
 "C79": {
  "note": "analytic solution proved; loop proved without output or semi-Lagrangian; refuted by witness with output and a time integrator (time added twice)"
 },
 "C80": {
  "note": "inflow profile proved; refuted: the constructor reads uninitialised members for all arguments; initial density 0"
 },
 "C81": {
  "note": "same run and error lines proved; refuted by witness: last solution and checkpoint missing (is_final is dropped); compressible solver writes no error table"
 },
 "C82": {
  "note": "values proved; refuted by witness: the documented L2 formula (sum over degrees of freedom) is not what is computed (quadrature over cells). CompressibleErrorStats.cpp is line by line the same code with the other solver class, so the theorems read for it too"
 },
 "C83": {
  "note": "proved"
 },
 "C84": {
  "note": "proved for all three classes on D2Q9 (all scalings), KBCStandard on D3Q15 with scaling 1, EntropicStabilized on D3Q19; refuted by witness for KBCStandard on D3Q15 with scaling 2 (mass created)"
 },
 "C85": {
  "note": "proved on D2Q9 for both classes, normal stresses on D3Q15; refuted by witness for the shear stress on D3Q15 (put into the higher moments)"
 },
 "C86": {
  "note": "proved (contraction on D2Q9 and D3Q15 with scaling 1, optimality on D2Q9)"
 },
 "C87": {
  "note": "proved on D2Q9 (KBCStandard) and on all closed-form stencils (the others); refuted by witness: product form of KBCStandard on D3Q15 does not have the density"
 },
 "C88": {
  "note": "proved; refuted by witness: EntropicStabilized accepts D3Q27 in the dispatch and fails at the first node"
 },
 "C89": {
  "note": "one common factor proved, exact rate when a population is not above 1e-11; refuted by witness: the correction makes the stress grow"
 },
 "C90": {
  "note": "entropy and the exact difference to the derivative proved; refuted by witness: w instead of 1 in the code"
 },
 "C91": {
  "note": "proved for D2Q9 and D3Q19; refuted by witness: with_e changes the trace of the flux even of equilibria, no effect on other stencils"
 },
 "C92": {
  "note": "proved for both schemes and all stencils (the stencils other than D2Q9 do not collide at all, C98)"
 },
 "C93": {
  "note": "proved for runs of collisions; refuted by witness: once populations and histories have been streamed a collision changes the density of a node"
 },
 "C94": {
  "note": "proved for D2Q9, the only stencil that collides; refuted by witness for D3Q19, which does not collide at all (C98)"
 },
 "C95": {
  "note": "proved for BDF2 with all viscosities and for Adams-Moulton exactly above nu/(cs2 dt) = 1/6; refuted by witness: below, the populations grow without bound"
 },
 "C96": {
  "note": "refuted by witness; proved that the first collision agrees with BGKStandard exactly where the population already is the equilibrium"
 },
 "C97": {
  "note": "proved for Adams-Moulton with EXACT_DIFFERENCE over all runs; refuted by witness for BDF2 (exact momentum proved, 3/2 of the force in the long run); SHIFTING_VELOCITY and GUO proved wrong at the first collision for every viscosity and time step"
 },
 "C98": {
  "note": "refuted by witness: on D3Q19 the collision is computed and never written, on other stencils nothing happens and nothing is reported; proved that no stencil but D2Q9 ever changes populations"
 },
 "C99": {
  "note": "refuted: the velocities of the node are read before they are set, for every configuration"
 },
 "C101": {
  "note": "proved for collocated quadrature (default) and as integral of the interpolated energy in general; refuted by witness for the Gauss rule"
 },
 "C102": {
  "note": "proved in two dimensions; refuted by witness in three (rigid rotation), where the integral of the squared gradient is proved"
 },
 "C104": {
  "note": "proved bounds and linear elements; refuted by witness: parabola on a quadratic element"
 },
 "C105": {
  "note": "refuted by witness; proved to be dofs_per_cell times too large for uniform populations and NaN as soon as a population is not positive"
 },
 "C106": {
  "note": "proved for states identified by their iteration number (other than the initial number of the object)"
 },
 "C107": {
  "note": "refuted by witness on a domain with volume 4; proved for volume 1"
 },
 "C108": {
  "note": "proved for all entries but the time; refuted: time has number 3 and is in column 2"
 },
 "C109": {
  "note": "columns and Mach number proved; legend and total energy refuted by witness"
 },
 "C110": {
  "note": "arithmetic mean, rms, selection of points and columns proved; refuted by witness: plane without points (NaN), mean over the plane of a parabola"
 },
 "C113": {
  "note": "proved for all constructors but the temperature of (p,u,T), which is refuted by witness: it is built from the pressure and not copied; operator+ not modelled (returns a reference to a local)"
 },
 "C114": {
  "note": "formula proved for Shan-Chen and Sukop given the density gradient; refuted by witness for Carnahan-Starling and for the collision, in which the density gradient is set to zero"
 },
 "C115": {
  "note": "proved on D2Q9 for shifting velocity and (unscaled) exact difference; refuted by witness for Guo, scaled exact difference and every other stencil, where the force has no effect"
 },
 "C116": {
  "note": "gain of momentum proved proportional to the number of cells of the node; refuted by witness for a shared node"
 },
 "C117": {
  "note": "proved on stencils other than D2Q9; refuted by witness on D2Q9 (uninitialised velocity)"
 },
 "C118": {
  "note": "acceptance, orientation and reasons proved with the tolerances of the code (1 %, cosine 0.99); refuted by witness: lines with a tilt of 5.7 degrees are accepted"
 },
 "C119": {
  "note": "proved for straight interfaces with distinct keys; refuted by witness: missing indicator, equal keys 1000x+y, kink"
 },
 "C121": {
  "note": "proved for the six requests served and solutions with consistent interpolation; refuted by witness: velocity alone, varying density"
 },
 "C122": {
  "note": "default threshold proved; refuted by witness both ways for thresholds in degrees"
 },
 "C123": {
  "note": "proved if the boundary ids are the face numbers of the boundary (box domains); refuted by witness: other numberings lose entries or access a face that does not exist (boundary id passed as face number)"
 },
 "C124": {
  "note": "pairs proved exact for all trees; refuted by witness: different refinement is not refused (exception constructed, not thrown) and leaves cells without partner; deal.II's child numbering of turned faces is a hypothesis (commutes with the table)"
 },
 "C125": {
  "note": "proved if some boundary is not periodic; refuted by witness: in a fully periodic domain the empty set of ids selects all boundaries"
 },
 "C126": {
  "note": "characterisation proved for all faces; refuted by witness: interior faces in the plane are marked too"
 },
 "C127": {
  "note": "exact arithmetic; the factor cst is the first Taylor coefficient of the literal Runge-Kutta coefficients (1 up to 1e-20)"
 },
 "C128": {
  "note": "proved: initial momentum plus one kick per collision; refuted by witness: there is one collision more than time steps (before the loop), and another one at each restart, so the impulse is (n+1) dt F V, or (n+2) dt F V after a restart"
 },
 "C129": {
  "note": "walls: the equilibrium's odd part has to be the one of the wall shift (density 1 for BGK equilibria, see C62)"
 },
 "C130": {
  "note": "exact arithmetic with an exactly aligned time step (C31: the CFL number of the options is rounded to 16 digits); incompressible solver without filter, limiter and multistep schemes"
 },
 "C131": {
  "note": "one collision more than time steps, as in C128"
 },
 "C132": {
  "note": "proved for every symmetry of every stencil (multiple relaxation times: on the stencils they are written for, without the only-N mode); all 8 or 48 exchanges and reversals are symmetries of eight stencils, refuted by witness for D2Q19H, D2Q19V and D3Q45; not examined for D2Q777 and the icosahedral D3Q13 and D3Q21"
 },
 "C133": {
  "note": "refuted by witness for DELLAR_RELAX_ONLY_N, which relaxes one of the two ghost fluxes differently (C11); proved for all other modes"
 },
 "C134": {
  "note": "on the lattices of C130 (exact alignment, periodic boxes)"
 },
 "C135": {
  "note": "proved for linear elements (with every boundary for ranges around 0, any number of steps; in every range without boundaries up to the dropped entries) and for grid-aligned steps of every order; refuted by witness for order 2 (a population between 0 and 1 falls below -0.1 in one step)"
 },
 "C136": {
  "note": "refuted by witness: the energy changes at density 2 and velocity 1, and whenever g has another temperature than f; velocity restored as 0 and kinetic energy counted as temperature; construction fails with fewer known degrees of freedom than directions; restart at iteration 1 loses all momentum. Proved: exact error of the energy for all populations, the cases in which it vanishes, restored fields, when the construction succeeds, conservation of mass and momentum in runs continued from iteration 2 or later"
 },
 "C137": {
  "note": "for the Galerkin scheme with the five stage Runge-Kutta method, the quartic equilibrium, the stencil with closed form moments of order 6 (D2Q25H), no filter, EQUILIBRIUM initialisation; the second order equilibrium does not conserve energy (C13), walls: C123"
 },
 "C138": {
  "note": "exact for D2Q25H, within the accuracy of the table for the stencils isotropic to order 6; D2Q777 (isotropic to order 3 only) not covered; uniform gas for the Galerkin scheme on periodic domains"
 },
 "C139": {
  "note": "refuted by witness: at density 2 both classes relax the stress to a wrong value (flux to rho j j and j j instead of j j / rho). Proved: rate, trace and magic product at density 1; exact flux at every density; third moments of MRTEntropic set to equilibrium"
 },
 "C140": {
  "note": "refuted by witness: with the default length 2 pi the wave moves with the wrong speed (phase lacks the division by the length). Proved: the Euler equations hold exactly for length 1 or velocity 0; constant pressure and bounds of the density for all parameters"
 },
 "C141": {
  "note": "refuted by witness: vortex never in radial equilibrium (speed uses the local temperature), velocity undefined at the centre, temperature negative at vortex Mach number 2, density jumps at the periodic boundary. Proved: jump conditions to 1e-7, exponential profile, direction and magnitude of the vortex velocity, isentropic relation, exact pressure gradient, all fields defined below Mach number sqrt(5/3) away from the centre"
 },
 "C142": {
  "note": "refuted by witness: upper right pressure is 0.40023, jump conditions fail to 1.1e-4 for every shock speed. Proved: states of the shock tube, contacts, symmetry, jump conditions to 1.2e-4"
 },
 "C143": {
  "note": "refuted by witness: a starting force against the x axis gives a constant force along it, the force stays at the upper limit arbitrarily long at twice the target flux, a restart forgets the sum of the errors. Proved: exact law of the table for all runs, limits for starting forces >= 0, steady states have the target flux, monotonicity"
 },
 "C144": {
  "note": "refuted by witness: wrong for heights other than 2, NaN when coordinates of processes differ by rounding, undefined with an idle process, rescaling changes the temperature. Proved: trapezoidal rule of the plane means for separated coordinates, exact for linear profiles, density one after rescaling, exact change of the temperature. Not shown: plane means weigh points on faces of several cells by the number of cells (see C110)"
 },
 "C145": {
  "note": "refuted by witness: --grid-density is taken for is_periodic and never reaches the mesh (0 removes walls and force), densities above 1 tangle the mesh, the centre line of the monitor is the upper wall for the default half width. Proved: force for all parameters, order, symmetry and wall spacing of the mesh for densities up to 1"
 },
 "C146": {
  "note": "refuted by witness: seeds -2147483647 (all numbers zero) and -2147483648 (overflow). Proved for all other seeds <= 0 and any number of draws: range, no undefined behaviour, numbers of the Park-Miller sequence"
 },
 "C147": {
  "note": "refuted by witness: every evaluation writes behind the end of wnrf; with the defaults the gas at the upper wall starts backwards with 39 times the centre line velocity; the added waves slip at the walls. Proved: modes orthogonal unit vectors, sum of modes without divergence (vector one element longer), discrete curl, profile when height = characteristic length, temperature"
 },
 "C148": {
  "note": "refuted by witness: not periodic, drawn anew at every evaluation (generator of dealii not reset by srand), mixing layer jumps at the boundaries. Proved: no divergence for every set of draws, antisymmetry"
 },
 "C149": {
  "note": "refuted by witness: Gauss-Chebyshev points are refused by the continuous element of the semi-Lagrangian scheme at every order. Proved for all other names: points, cardinality, partition of unity, polynomials, streaming (C48 and C130 without hypotheses on shape functions), mapping of Cartesian problems, grid of the cavity"
 },
 "C150": {
  "note": "all orders and box sizes; good_mesh of C59-C63 derived from the defining properties of the Gauss-Lobatto rule, which exists for every number of points and is unique (C150_rule)"
 },
 "C151": {
  "note": "Solver of the theta method exact (the code's has relative tolerance 1e-6; one step with tolerance: C36_tolerance); runs that throw because the solver does not converge are not excluded. Collisions between the steps are not part of these runs."
 },
 "C152": {
  "note": "Refuted by witness: the potential flow is that of a cylinder of radius 1/2 while the obstacle in the mesh has radius 1 (C152_obstacle_refuted; at no radius of the domain is the normal velocity zero, C152_no_circle); the density fits the velocity only for squared sound speed 4 (C152_pressure_partial), the program has 1/3; the Mach number printed for the incompressible solver is too small by sqrt(gamma); with the diameter the Reynolds number is twice the one asked for. Proved: no sources, no rotation, decay of the deviation, definedness, Bernoulli relation with factor 4."
 },
 "C153": {
  "note": "Refuted by witness: the initial flow is uniform and crosses the sphere; with default options no solver is created. Proved: blocks cover the domain without overlap; Mach and Reynolds numbers of the compressible runs."
 },
 "C154": {
  "note": "Refuted by witness: errors are not initialised before the first 1000th iteration; Reynolds numbers without table are silently compared with zero; the positions of Botella's horizontal line are not mirrored like its velocities (they fit Ghia's table exactly when mirrored, C154_tables_partial); one entry of Ghia's table is ten times too large. Proved for every distribution over processes: lines, root mean squares and when they vanish; no row is left out (C154_rows). Tables of Erturk not modelled (same apply with 23 rows)."
 },
 "C155": {
  "note": "Refuted by witness: files with fewer lines than points, and sizes beyond the dimension in one dimension, are accepted and undefined memory is written. Proved for all other calls: labels, coefficients, recovery of the field and conjugate opposite waves. FFTW itself is represented by the definition of the transform it documents."
 },
 "C156": {
  "note": "Refuted by witness for dealii::BlockVector columns: reinitVector calls the overload of reinit with number and size of blocks, so every column gets blocks of size one and products into vectors like the prototype fail. Proved for serial and distributed vectors (C156_new_partial) and, given alike columns, products, entries and columns for all. distributed_block_vector not modelled."
 },
 "C157": {
  "note": "Refuted by witness: without hp support every cell has finite element index 0 and is skipped, and the projection is commented out, so that release builds return zero for every solution and debug builds fail on an assertion; destroying an object before reinit follows a null pointer. Proved: the value is right exactly where the gradient vanishes (C157_gradient_partial)."
 },
 "C158": {
  "note": "Refuted by witness: the random generator is started with the time in seconds in every cycle, so that all cycles within a second are the same; without scaling the file still claims eigenvalues of dt*A. Proved: eigenvalues, largest modulus, scaled file, every pseudoeigenvalue belongs to a matrix within the perturbation, which the random numbers cover from end to end (C158_perturbation). LAPACK and rand enter by their documented behaviour (hypotheses, met in the examples)."
 },
 "C159": {
  "note": "Refuted by witness: the quadrature point used in the loop is a variable that is never set, for every process with cells in the quarter. Proved: processes without such cells contribute zero (C159_elsewhere_partial)."
 },
 "C160": {
  "note": "Refuted by witness: the time step is computed before the mesh is refined, so the relaxation time minus 1/2 is too large by the factor 2^level (tau = 1 is run with 4.5 at the default level), and one argument passes the check although two are read (C160_arguments_refuted). Proved: the relaxation time of all accepted runs, right exactly at level 0 (C160_tau_partial); accepted command lines; the printed velocity."
 }
}
