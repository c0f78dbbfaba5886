{
 "claims": [
  {
   "property": "C01",
   "status": "proved",
   "theorems": [
    "C01_opposites"
   ],
   "note": ""
  },
  {
   "property": "C02",
   "status": "proved",
   "theorems": [
    "C02_high_order_moments",
    "C02_weights_positive",
    "C02_moments",
    "C02_moments_exact",
    "C02_odd_moments_vanish",
    "C02_speed_of_sound"
   ],
   "note": ""
  },
  {
   "property": "C03",
   "status": "partial",
   "theorems": [
    "C03_max_velocity_bound_refuted",
    "C03_max_velocity_characterisation"
   ],
   "note": "Full statement refuted by witness (D3Q27); complete characterisation over all 14 stencils proved instead."
  },
  {
   "property": "C04",
   "status": "proved",
   "theorems": [
    "C04_bgk_equilibrium_moments",
    "C04_bgk_equilibrium_moments_tolerance"
   ],
   "note": "Exact on the stencils in closed form, up to the tolerance of the literals on the others (D2Q777 is not isotropic to fifth order and is left out)."
  },
  {
   "property": "C05",
   "status": "proved",
   "theorems": [
    "C05_incompressible_moments",
    "C05_steady_state_moments",
    "C05_quartic_moments",
    "C05_quartic_energy",
    "C05_incompressible_moments_tolerance",
    "C05_steady_state_moments_tolerance",
    "C05_quartic_moments_tolerance"
   ],
   "note": "Exact on the stencils in closed form, up to the tolerance of the literals on the others."
  },
  {
   "property": "C06",
   "status": "proved",
   "theorems": [
    "C06_equilibrium_specialisation",
    "C06_velocity_specialisation"
   ],
   "note": ""
  },
  {
   "property": "C07",
   "status": "proved",
   "theorems": [
    "C07_bgk_conserves",
    "C07_equilibria_are_fixed",
    "C07_incompressible_momentum_drift",
    "C07_bgk_conserves_tolerance"
   ],
   "note": "Exact on the stencils in closed form, up to the tolerance of the literals on the others (all but D2Q777)."
  },
  {
   "property": "C08",
   "status": "proved",
   "theorems": [
    "C08_regularized_conserves",
    "C08_stress_relaxation",
    "C08_depends_on_low_moments",
    "C08_regularized_conserves_tolerance"
   ],
   "note": "Exact on the stencils in closed form, mass and momentum up to the tolerance of the literals on the others (all but D2Q777)."
  },
  {
   "property": "C09",
   "status": "proved",
   "theorems": [
    "C09_mrt_inverse"
   ],
   "note": ""
  },
  {
   "property": "C10",
   "status": "proved",
   "theorems": [
    "C10_mrt_conserves",
    "C10_collision_runs"
   ],
   "note": ""
  },
  {
   "property": "C11",
   "status": "partial",
   "theorems": [
    "C11_only_N_refuted",
    "C11_only_N_actual",
    "C11_full_relaxation",
    "C11_dhumieres"
   ],
   "note": "Full statement refuted by witness (only-N mode relaxes N with 1/tau and sets Jy); what the mode does, and full relaxation, proved for all inputs; both modes of the d'Humieres basis proved."
  },
  {
   "property": "C12",
   "status": "partial",
   "theorems": [
    "C12_exact_difference",
    "C12_shifting_velocity",
    "C12_forces_run",
    "C12_force_needs_scheme",
    "C12_regularized_shifting_refuted",
    "C12_dhumieres_shifting_refuted"
   ],
   "note": "Proved for exact difference (all schemes) and shifting velocity with BGK / MRT; refuted by witness for Regularized (adds tau dt F) and D'Humieres paper rates (adds nothing)."
  },
  {
   "property": "C13",
   "status": "partial",
   "theorems": [
    "C13_compressible_conserves",
    "C13_compressible_runs",
    "C13_bgk_energy_drift",
    "C13_bgk_energy_refuted",
    "C13_compressible_conserves_tolerance"
   ],
   "note": "Proved exactly for the quartic equilibrium on D2Q25H, and up to the tolerance of the decimal literals (1e-13 or better, relative) on every stencil of isotropy order six or more (D2Q19H, D2Q19V, D3V27, D3Q45, D3Q77); refuted by witness for the selectable second-order equilibrium, with the exact drift proved."
  },
  {
   "property": "C14",
   "status": "partial",
   "theorems": [
    "C14_selection",
    "C14_selection_refuted"
   ],
   "note": "Refuted by witness; exact list of mismatching combinations proved, all others run the configured pair or throw."
  },
  {
   "property": "C15",
   "status": "partial",
   "theorems": [
    "C15_node_by_node",
    "C15_partition_independent",
    "C15_ranks_run",
    "C15_empty_rank_refuted"
   ],
   "note": "Node-wise, order and partition independence proved; the empty-rank part is refuted (it throws)."
  },
  {
   "property": "C16",
   "status": "proved",
   "theorems": [
    "C16_every_iteration_reported_once"
   ],
   "note": ""
  },
  {
   "property": "C17",
   "status": "proved",
   "theorems": [
    "C17_stop_conditions",
    "C17_stops_at_first",
    "C17_runs_end",
    "C17_runs_succeed"
   ],
   "note": ""
  },
  {
   "property": "C18",
   "status": "proved",
   "theorems": [
    "C18_time"
   ],
   "note": ""
  },
  {
   "property": "C19",
   "status": "proved",
   "theorems": [
    "C19_checkpoint_schedule"
   ],
   "note": ""
  },
  {
   "property": "C20",
   "status": "partial",
   "theorems": [
    "C20_restart_refuted",
    "C20_time_refuted",
    "C20_time_kept",
    "C20_restart_partial",
    "C20_restart_exact",
    "C20_run_is_evolution"
   ],
   "note": "Refuted by witness (the restarted run repeats a collision; time stored with six digits). Proved: a run is one collision followed by an evolution, checkpoints hold state and time of their iteration, what the restarted run computes, and equality when the repeated collision is idempotent and the time survives printing."
  },
  {
   "property": "C21",
   "status": "partial",
   "theorems": [
    "C21_velocity_refuted",
    "C21_density_partial",
    "C21_fields_after_collision"
   ],
   "note": "Velocity refuted by witness (stays zero until the first collision); density, and both fields after the first collision, proved."
  },
  {
   "property": "C22",
   "status": "partial",
   "theorems": [
    "C22_overwritten_refuted",
    "C22_first_refuted",
    "C22_compressible_latest_throws",
    "C22_read_back_partial"
   ],
   "note": "Refuted by witness for iteration 1 (scans for and overwrites the largest iteration); proved for all histories without a request for iteration 1."
  },
  {
   "property": "C23",
   "status": "partial",
   "theorems": [
    "C23_stencil_refuted",
    "C23_never_loads",
    "C23_restartable_partial"
   ],
   "note": "Refuted by witness (D3Q77 etc. are accepted by the collision table but cannot be loaded); proved for all other stencils."
  },
  {
   "property": "C24",
   "status": "partial",
   "theorems": [
    "C24_budget_refuted",
    "C24_compressible_refuted",
    "C24_initialization_partial",
    "C24_initialization_ends",
    "C24_compressible_partial"
   ],
   "note": "Budget refuted by witness (budget + 1 passes); compressible variant ignores the residual (witness). Proved: at most budget + 1 passes, stops at first residual below target, counter and time unchanged."
  },
  {
   "property": "C25",
   "status": "proved",
   "theorems": [
    "C25_residual",
    "C25_fields"
   ],
   "note": ""
  },
  {
   "property": "C26",
   "status": "partial",
   "theorems": [
    "C26_round_trip_partial",
    "C26_last_set_partial",
    "C26_domain_accepted",
    "C26_domain_only",
    "C26_double_accuracy",
    "C26_double_refuted",
    "C26_filter_nc_refuted",
    "C26_coordinates_refuted"
   ],
   "note": "Refuted by witness for doubles of more than 16 digits (0.1+0.2), for a fractional filter Nc and for wall coordinates of more than 6 digits. Proved over all histories for all other options and values, with error bound for doubles; accepted domains proved."
  },
  {
   "property": "C27",
   "status": "proved",
   "theorems": [
    "C27_independent",
    "C27_default_kept"
   ],
   "note": "Proved over all histories and pairs of options."
  },
  {
   "property": "C28",
   "status": "partial",
   "theorems": [
    "C28_rejected_unchanged_partial",
    "C28_getters_work",
    "C28_setters_defined",
    "C28_embedded_refuted",
    "C28_embedded_unusable"
   ],
   "note": "Refuted by witness for setEmbeddedDealIntegratorParameters (every getter throws afterwards); proved for all other setters."
  },
  {
   "property": "C29",
   "status": "partial",
   "theorems": [
    "C29_documented",
    "C29_documented_only",
    "C29_rejected_partial",
    "C29_mrt_relax_accepts",
    "C29_mrt_relax_refuted",
    "C29_stencil_refuted"
   ],
   "note": "Documented values proved for all ten enumerated options on every command line. Refuted by witness: --mrt-relax accepts every string; --stencil accepts three undocumented values. All other unknown values proved rejected."
  },
  {
   "property": "C30",
   "status": "partial",
   "theorems": [
    "C30_applied",
    "C30_succeeds",
    "C30_idempotent",
    "C30_conflict_rejected",
    "C30_conflict_unchanged_partial",
    "C30_atomic_refuted",
    "C30_usable"
   ],
   "note": "Explicit values, untouched options, idempotence, acceptance and rejection of conflicts proved for all command lines and reached configurations. Refuted by witness: the conflict of --standard-lbm with --standard-lbm-with is found after the configuration has been changed."
  },
  {
   "property": "C31",
   "status": "partial",
   "theorems": [
    "C31_hops_partial",
    "C31_d3q15_refuted",
    "C31_order_refuted"
   ],
   "note": "Proved for D2Q9, D3Q19, D3Q27 and all orders, cell widths and scalings, up to rounding the CFL number to 16 digits; node spacing is cell width / order (equidistant support points). Refuted by witness for D3Q15 and for --standard-lbm-with n together with --order-fe 2."
  },
  {
   "property": "C32",
   "status": "proved",
   "theorems": [
    "C32_define_before",
    "C32_define_after",
    "C32_read_before",
    "C32_read_after",
    "C32_default_undefined"
   ],
   "note": "Proved over all call sequences. In addition: import with a default-valued option is undefined behaviour (C32_default_undefined)."
  },
  {
   "property": "C33",
   "status": "partial",
   "theorems": [
    "C33_number",
    "C33_title",
    "C33_other_undefined",
    "C33_other_refuted"
   ],
   "note": "Documented numbers proved. Refuted by witness: every other number reads an uninitialised variable (C33_other_undefined: all of them)."
  },
  {
   "property": "C34",
   "status": "proved",
   "theorems": [
    "C34_runs",
    "C34_time",
    "C34_steady",
    "C34_conserved",
    "C34_stream"
   ],
   "note": "Proved for every matrix, right-hand side, vector and every accepted step size, and over any number of streaming steps."
  },
  {
   "property": "C35",
   "status": "proved",
   "theorems": [
    "C35_taylor",
    "C35_derivative",
    "C35_local_error"
   ],
   "note": "Coefficients up to order four within 1e-20 of the Taylor coefficients; local error bound against any solution of the linear system."
  },
  {
   "property": "C36",
   "status": "proved",
   "theorems": [
    "C36_scheme",
    "C36_tolerance",
    "C36_time",
    "C36_steady",
    "C36_conserved",
    "C36_conserved_tolerance"
   ],
   "note": "Proved for an exact solver; for an iterative solver with relative tolerance, defect and drift of invariants are bounded. Steady states need a solver that keeps an initial guess that already solves the system."
  },
  {
   "property": "C37",
   "status": "partial",
   "theorems": [
    "C37_not_a_number",
    "C37_steady_refuted",
    "C37_conserved"
   ],
   "note": "Refuted by witness: every steady state becomes not-a-number (division by the zero residual norm). Proved in addition: a finite result conserves linear invariants, for every Pade approximation and matrix inversion."
  },
  {
   "property": "C38",
   "status": "partial",
   "theorems": [
    "C38_modes",
    "C38_modes_3d_partial",
    "C38_3d_max_refuted",
    "C38_3d_sum_refuted",
    "C38_factors",
    "C38_mean",
    "C38_elsewhere",
    "C38_shared_refuted",
    "C38_new_modes",
    "C38_new_mean",
    "C38_new_3d_refuted",
    "C38_resolved",
    "C38_orders",
    "C38_coefficients",
    "C38_square"
   ],
   "note": "Proved in one and two dimensions for every order, cut-off, mesh of discontinuous cells; means kept in all dimensions; factors characterised. That the quadrature and elements of the solver meet the hypotheses at every order is C38_resolved/C38_orders (existence of rules and polynomials: C38_resolved_ex); the square integral of a cell never grows, in all dimensions (C38_square). Refuted by witness in three dimensions (second direction overlooked; exact behaviour proved in C38_modes_3d_partial), for the second filter in three dimensions, and for continuous elements (shared degrees of freedom)."
  },
  {
   "property": "C39",
   "status": "partial",
   "theorems": [
    "C39_lookup",
    "C39_error_partial",
    "C39_distinct",
    "C39_duplicate_refuted",
    "C39_unchanged_refuted"
   ],
   "note": "Proved over all histories: lookups give the first registration; errors characterised; histories with distinct indicators behave as documented. Refuted by witness: a duplicate plain boundary is dropped without error, and a rejected periodic boundary leaves one of its indicators half registered."
  },
  {
   "property": "C40",
   "status": "partial",
   "theorems": [
    "C40_check_partial",
    "C40_truncated_refuted"
   ],
   "note": "Proved for indicators that fit the indicator type of the mesh; refuted by witness otherwise (truncated to that type)."
  },
  {
   "property": "C41",
   "status": "partial",
   "theorems": [
    "C41_cells_partial",
    "C41_return_partial",
    "C41_faces_partial",
    "C41_one_cell_refuted"
   ],
   "note": "Proved for boundaries where every cell lies at one face pair (any points, any number of pairs, two and three dimensions, unflipped faces in three dimensions). Refuted by witness for meshes one cell wide."
  },
  {
   "property": "C42",
   "status": "partial",
   "theorems": [
    "C42_unit",
    "C42_planes_partial",
    "C42_planes_refuted"
   ],
   "note": "Search on the unit cell proved for all dimensions and points. Search by planes proved for start points not on a face; refuted by witness for start points on a face (a crossing is reported for a path leading inwards)."
  },
  {
   "property": "C43",
   "status": "partial",
   "theorems": [
    "C43_terminates",
    "C43_once",
    "C43_found",
    "C43_torus_partial",
    "C43_dropped",
    "C43_refined_refuted",
    "C43_do_nothing_refuted",
    "C43_closed"
   ],
   "note": "Termination and single handling proved for all meshes. Arrival proved for all meshes without boundaries with invertible mappings (C43_closed); for periodic Cartesian meshes in geometric terms with sharp limit of 50 faces. Refuted by witness for refined neighbours (undefined behaviour) and for do-nothing boundaries away from the cell of the support point (assertion fails)."
  },
  {
   "property": "C44",
   "status": "partial",
   "theorems": [
    "C44_consistent_partial",
    "C44_scaled",
    "C44_assigned",
    "C44_streamed",
    "C44_dg",
    "C44_setF0_refuted"
   ],
   "note": "Proved for all operation sequences in which direct assignments and setF0 are followed by an updating operation, and always for discontinuous Galerkin; setF0 alone on a ghosted object refuted by witness (it does not update the ghosted vector)."
  },
  {
   "property": "C45",
   "status": "partial",
   "theorems": [
    "C45_integrator_refuted",
    "C45_limiter_refuted"
   ],
   "note": "Refuted by witness: the body of DealIIWrapper::step is commented out, so a function returning double runs off its end (undefined); the limiter returns its input."
  },
  {
   "property": "C46",
   "status": "partial",
   "theorems": [
    "C46_file_round_trip",
    "C46_file_untouched",
    "C46_file_rejected",
    "C46_constructor_throws",
    "C46_constructor_refuted",
    "C46_constructor_empty_refuted"
   ],
   "note": "Proved for readFromXMLFile; refuted by witness for the constructor taking a file name."
  },
  {
   "property": "C47",
   "status": "partial",
   "theorems": [
    "C47_fifth_order_refuted"
   ],
   "note": "Refuted by witness: the coefficient of the fifth power is 1/200 instead of 1/120 (C35 gives the true order, four)."
  },
  {
   "property": "C48",
   "status": "proved",
   "theorems": [
    "C48_stream",
    "C48_uniform",
    "C48_torus",
    "C48_torus_uniform"
   ],
   "note": "Proved for every mesh without boundaries whose cells have invertible mappings (to_unit defined everywhere) and whose faces match; meshes on which deal.II's inverse mapping fails for some point fall back to the search by planes, see C42."
  },
  {
   "property": "C49",
   "status": "proved",
   "theorems": [
    "C49_pattern"
   ],
   "note": "All meshes, one process."
  },
  {
   "property": "C50",
   "status": "proved",
   "theorems": [
    "C50_hit_time"
   ],
   "note": "All meshes with straight cells (deviation eta of crossing points from straight lines is a parameter), all paths with up to 50 crossings; no do-nothing boundaries."
  },
  {
   "property": "C51",
   "status": "partial",
   "theorems": [
    "C51_hits_kept",
    "C51_first_point",
    "C51_place_refuted"
   ],
   "note": "Refuted by witness: PointComp is \"distance < 1e-10\", under which different points are equivalent, so all hits of a cell share the first hit point, and the velocity is evaluated at unit coordinates (place_refuted). Proved: no hit is lost or doubled; what is evaluated instead."
  },
  {
   "property": "C52",
   "status": "partial",
   "theorems": [
    "C52_rest",
    "C52_moving_partial",
    "C52_two_hits_refuted"
   ],
   "note": "Rest state proved for all paths. Common velocity: proved for paths with at most one hit, refuted by witness for two hits in a step (the exchange terms are added with the sign of the destination direction)."
  },
  {
   "property": "C53",
   "status": "partial",
   "theorems": [
    "C53_rest_partial",
    "C53_corner_refuted"
   ],
   "note": "Proved if the opposite population is not hit, too; refuted by witness in a corner."
  },
  {
   "property": "C54",
   "status": "partial",
   "theorems": [
    "C54_time_used",
    "C54_time_refuted"
   ],
   "note": "Refuted by witness: stream passes the time of the beginning of the step. Proved: the time used is exactly one step too early."
  },
  {
   "property": "C55",
   "status": "partial",
   "theorems": [
    "C55_unchanged_partial",
    "C55_moving_refuted"
   ],
   "note": "Proved for walls at rest; refuted by witness for a moving wall: the hits recorded before the limit still act."
  },
  {
   "property": "C56",
   "status": "partial",
   "theorems": [
    "C56_equals_decides",
    "C56_equals_symmetric_partial",
    "C56_equals_symmetric_refuted"
   ],
   "note": "equals decides closeness and is symmetric for objects with the same layout (proved); symmetry for different layouts refuted by witness."
  },
  {
   "property": "C57",
   "status": "partial",
   "theorems": [
    "C57_equilibrium_value",
    "C57_stream",
    "C57_temperature_refuted"
   ],
   "note": "f: proved (value = quartic equilibrium of density 1 for all stencils; every population addressed by such a hit has it after the step). g: refuted by witness, applyToG hard-codes temperature 1.0, so g belongs to T = 1 (C57_stream gives the exact value)"
  },
  {
   "property": "C58",
   "status": "partial",
   "theorems": [
    "C58_thermal_wall",
    "C58_stencil",
    "C58_rest",
    "C58_temperature_refuted",
    "C58_gamma_refuted",
    "C58_isothermal",
    "C58_isothermal_refuted",
    "C58_late"
   ],
   "note": "proved: mass and momentum kept up to the tolerance of the D3Q45 literals, fluid at rest at wall temperature is a fixed point for gamma 1.4, other stencils throw. Refuted by witness: the temperature is imposed (the non-equilibrium part of the energy of g is transferred with the wrong sign), other heat capacity ratios (1.4 hard-coded), simulations without g (f_new and g_new are the same object); C58_late: g written at the wall is overwritten by the later streaming of g"
  },
  {
   "property": "C59",
   "status": "partial",
   "theorems": [
    "C59_assembles",
    "C59_other_boundaries",
    "C59_mass",
    "C59_run",
    "C59_central_refuted"
   ],
   "note": "upwind fluxes: proved for all meshes satisfying good_mesh (Lagrange elements in the quadrature points, integration by parts, conforming faces), also for any number of Runge-Kutta 5 steps. Central fluxes: refuted by witness (both entries of the central flux have the same sign)"
  },
  {
   "property": "C60",
   "status": "partial",
   "theorems": [
    "C60_derivative",
    "C60_uniform",
    "C60_central_refuted"
   ],
   "note": "upwind fluxes: proved. Central fluxes: refuted by witness, a constant is not steady"
  },
  {
   "property": "C61",
   "status": "proved",
   "theorems": [
    "C61_energy",
    "C61_walls"
   ],
   "note": "proved for upwind fluxes; hypothesis: integration by parts holds for the quadrature on every cell"
  },
  {
   "property": "C62",
   "status": "partial",
   "theorems": [
    "C62_mass",
    "C62_carried",
    "C62_density_refuted",
    "C62_frozen_refuted"
   ],
   "note": "mass balance proved (stencils in closed form), steady uniform flow proved for density 1; refuted by witness: other densities (density hard-coded 1), time-dependent wall velocities (evaluated at assembly only)"
  },
  {
   "property": "C63",
   "status": "partial",
   "theorems": [
    "C63_again_refuted",
    "C63_adds"
   ],
   "note": "refuted by witness: reassemble adds to the existing matrix and vector; C63_adds: every call adds the operator once more"
  },
  {
   "property": "C64",
   "status": "partial",
   "theorems": [
    "C64_short_constructor_refuted",
    "C64_short_constructor"
   ],
   "note": "refuted by witness: delta_t is passed as use_central_flux and false as delta_t; C64_short_constructor: they agree exactly for delta_t = 0"
  },
  {
   "property": "C65",
   "status": "partial",
   "theorems": [
    "C65_equilibrium_partial",
    "C65_succeeds",
    "C65_transformed_refuted"
   ],
   "note": "proved for every class but BGKStandardTransformed; refuted by witness there: its populations sum to density minus one"
  },
  {
   "property": "C66",
   "status": "partial",
   "theorems": [
    "C66_conserves_partial",
    "C66_incompressible_refuted",
    "C66_transformed_refuted",
    "C66_entropic_refuted"
   ],
   "note": "proved for BGKStandard, BGKSteadyState (stencils in closed form), BGKRegularized, and on D2Q9 BGKStandardTransformed, MRTStandard, MRTEntropic; refuted by witness: BGKIncompressible (mass), BGKStandardTransformed on D3Q19 (mass), MRTEntropic on D3Q19 (momentum, its matrix has another order of directions)"
  },
  {
   "property": "C67",
   "status": "partial",
   "theorems": [
    "C67_fixed_partial",
    "C67_mrt_refuted",
    "C67_incompressible_refuted",
    "C67_regularized_refuted"
   ],
   "note": "proved for BGKStandard, BGKSteadyState, BGKStandardTransformed and BGKRegularized on D2Q9, the MRT classes on D2Q9 for density 1; refuted by witness: the MRT classes for density 2, BGKIncompressible, BGKRegularized on D3Q19 (equilibrium stress not subtracted)"
  },
  {
   "property": "C68",
   "status": "partial",
   "theorems": [
    "C68_stress_partial",
    "C68_scaled",
    "C68_scaled_refuted",
    "C68_three_dimensions"
   ],
   "note": "proved on D2Q9 for scaling 1; C68_scaled gives the factor for every scaling (divided by its square), refuted by witness for scaling 2; C68_three_dimensions: on D3Q19 the whole momentum flux is taken for the stress"
  },
  {
   "property": "C69",
   "status": "partial",
   "theorems": [
    "C69_force_partial",
    "C69_mass_refuted",
    "C69_three_dimensions_partial",
    "C69_three_dimensions_refuted",
    "C69_ignored"
   ],
   "note": "BGKStandard on D2Q9: momentum and stored velocity proved for all scalings and force types, mass for scaling 1 or shifting velocity; refuted by witness: mass with EDM and Guo for scaling 2, momentum with EDM and Guo on D3Q19 (exact value proved). C69_ignored: all other classes and stencils ignore the force"
  },
  {
   "property": "C70",
   "status": "partial",
   "theorems": [
    "C70_terminates",
    "C70_velocity",
    "C70_density_partial",
    "C70_step_partial",
    "C70_count_refuted",
    "C70_mrt_ignores_velocity",
    "C70_mrt_refuted",
    "C70_regularized_undefined",
    "C70_forces"
   ],
   "note": "termination, velocity field, density, contraction proved; refuted by witness: one iteration more than configured; MRT classes ignore the prescribed velocity; BGKRegularized on D3Q19 reads unset variables; C70_forces: exact effect of forces during the initialisation"
  },
  {
   "property": "C71",
   "status": "proved",
   "theorems": [
    "C71_time_steps"
   ],
   "note": "proved"
  },
  {
   "property": "C72",
   "status": "proved",
   "theorems": [
    "C72_agrees",
    "C72_converse"
   ],
   "note": "proved (stencils in closed form)"
  },
  {
   "property": "C73",
   "status": "partial",
   "theorems": [
    "C73_flux_partial",
    "C73_general",
    "C73_time_step_refuted",
    "C73_shared_node_refuted",
    "C73_scheme_refuted"
   ],
   "note": "proved for time step 1 and one cell per node; C73_general: exact value in general; refuted by witness: other time steps (factor dt missing), nodes shared by cells (added once per cell), other schemes (relaxation time 0)"
  },
  {
   "property": "C74",
   "status": "partial",
   "theorems": [
    "C74_navier_stokes_partial",
    "C74_divergence",
    "C74_periodic",
    "C74_side_length_refuted",
    "C74_constant_density"
   ],
   "note": "proved to hold exactly for side length 2 PI (default) with analytic density; divergence and periodicity proved for all lengths; refuted by witness for side length 1 (decay rate and pressure not scaled), and for constant density"
  },
  {
   "property": "C75",
   "status": "partial",
   "theorems": [
    "C75_couette_partial",
    "C75_walls",
    "C75_early_refuted",
    "C75_three_dimensions_refuted"
   ],
   "note": "convergence of the series, diffusion equation, plate values, start from rest (uniformly away from the moving plate) and distance of the code to the series (1e-15 U) proved for CouetteFlow2D; refuted by witness before time 1e-5 (the fluid is always taken to be at rest) and for CouetteFlow3D, whose plate is at height 1 while the formula has it at L"
  },
  {
   "property": "C76",
   "status": "partial",
   "theorems": [
    "C76_bulk_velocity",
    "C76_mean_unique",
    "C76_analytic_refuted"
   ],
   "note": "force and bulk velocity proved (existence and uniqueness of the steady profile); refuted by witness: the analytic velocity is 0"
  },
  {
   "property": "C77",
   "status": "proved",
   "theorems": [
    "C77_divergence",
    "C77_pressure",
    "C77_pressure_compressible",
    "C77_periodic"
   ],
   "note": "proved"
  },
  {
   "property": "C78",
   "status": "partial",
   "theorems": [
    "C78_shear",
    "C78_couette",
    "C78_sinusoidal",
    "C78_lubrication",
    "C78_refuted",
    "C78_complex_wall"
   ],
   "note": "proved for |factor|<1, unit square, |amplitude|<=3/2 and below the height, amplitude plus roughness below the height; refuted by witness for other parameters that pass the assertions; CouetteFlow3D always fails; wavy wall of step-6 proved for every length"
  },
  {
   "property": "C79",
   "status": "partial",
   "theorems": [
    "C79_analytic",
    "C79_time_loop_partial",
    "C79_output_refuted"
   ],
   "note": "analytic solution proved; loop proved without output or semi-Lagrangian; refuted by witness with output and a time integrator (time added twice)"
  },
  {
   "property": "C80",
   "status": "partial",
   "theorems": [
    "C80_inflow",
    "C80_construct_refuted",
    "C80_density_refuted"
   ],
   "note": "inflow profile proved; refuted: the constructor reads uninitialised members for all arguments; initial density 0"
  },
  {
   "property": "C81",
   "status": "partial",
   "theorems": [
    "C81_same_run",
    "C81_checkpoints_partial",
    "C81_solutions_partial",
    "C81_final_refuted",
    "C81_compressible",
    "C81_compressible_refuted"
   ],
   "note": "same run and error lines proved; refuted by witness: last solution and checkpoint missing (is_final is dropped); compressible solver writes no error table"
  },
  {
   "property": "C82",
   "status": "partial",
   "theorems": [
    "C82_values",
    "C82_line",
    "C82_again",
    "C82_maxVelocityNorm",
    "C82_velocity2Norm",
    "C82_documented_refuted"
   ],
   "note": "values proved; refuted by witness: the documented L2 formula (sum over degrees of freedom) is not what is computed (quadrature over cells). CompressibleErrorStats.cpp is line by line the same code with the other solver class, so the theorems read for it too"
  },
  {
   "property": "C83",
   "status": "proved",
   "theorems": [
    "C83_shear_layer",
    "C83_droplet"
   ],
   "note": "proved"
  },
  {
   "property": "C84",
   "status": "partial",
   "theorems": [
    "C84_conserves_partial",
    "C84_init_partial",
    "C84_scaled_refuted"
   ],
   "note": "proved for all three classes on D2Q9 (all scalings), KBCStandard on D3Q15 with scaling 1, EntropicStabilized on D3Q19; refuted by witness for KBCStandard on D3Q15 with scaling 2 (mass created)"
  },
  {
   "property": "C85",
   "status": "partial",
   "theorems": [
    "C85_flux_partial",
    "C85_fourth_order",
    "C85_normal_partial",
    "C85_shear_refuted"
   ],
   "note": "proved on D2Q9 for both classes, normal stresses on D3Q15; refuted by witness for the shear stress on D3Q15 (put into the higher moments)"
  },
  {
   "property": "C86",
   "status": "proved",
   "theorems": [
    "C86_contracts",
    "C86_contracts_D3Q15",
    "C86_optimal"
   ],
   "note": "proved (contraction on D2Q9 and D3Q15 with scaling 1, optimality on D2Q9)"
  },
  {
   "property": "C87",
   "status": "partial",
   "theorems": [
    "C87_holds_partial",
    "C87_fixed",
    "C87_domain",
    "C87_D3Q15_refuted"
   ],
   "note": "proved on D2Q9 (KBCStandard) and on all closed-form stencils (the others); refuted by witness: product form of KBCStandard on D3Q15 does not have the density"
  },
  {
   "property": "C88",
   "status": "partial",
   "theorems": [
    "C88_stencils",
    "C88_stabilized_fixed",
    "C88_dispatch_refuted"
   ],
   "note": "proved; refuted by witness: EntropicStabilized accepts D3Q27 in the dispatch and fails at the first node"
  },
  {
   "property": "C89",
   "status": "partial",
   "theorems": [
    "C89_factor_partial",
    "C89_growth_refuted"
   ],
   "note": "one common factor proved, exact rate when a population is not above 1e-11; refuted by witness: the correction makes the stress grow"
  },
  {
   "property": "C90",
   "status": "partial",
   "theorems": [
    "C90_derivative_partial",
    "C90_entropy",
    "C90_derivative_refuted"
   ],
   "note": "entropy and the exact difference to the derivative proved; refuted by witness: w instead of 1 in the code"
  },
  {
   "property": "C91",
   "status": "partial",
   "theorems": [
    "C91_minimal_partial",
    "C91_idempotent",
    "C91_others",
    "C91_equilibrium",
    "C91_with_e_refuted",
    "C91_no_effect_refuted",
    "C91_ignored_schemes"
   ],
   "note": "proved for D2Q9 and D3Q19; refuted by witness: with_e changes the trace of the flux even of equilibria, no effect on other stencils"
  },
  {
   "property": "C92",
   "status": "proved",
   "theorems": [
    "C92_totals"
   ],
   "note": "proved for both schemes and all stencils (the stencils other than D2Q9 do not collide at all, C98)"
  },
  {
   "property": "C93",
   "status": "partial",
   "theorems": [
    "C93_collisions_partial",
    "C93_moved_refuted"
   ],
   "note": "proved for runs of collisions; refuted by witness: once populations and histories have been streamed a collision changes the density of a node"
  },
  {
   "property": "C94",
   "status": "partial",
   "theorems": [
    "C94_method_partial",
    "C94_D3Q19_refuted"
   ],
   "note": "proved for D2Q9, the only stencil that collides; refuted by witness for D3Q19, which does not collide at all (C98)"
  },
  {
   "property": "C95",
   "status": "partial",
   "theorems": [
    "C95_bdf2_partial",
    "C95_am4_partial",
    "C95_am4_refuted",
    "C95_fixed_partial"
   ],
   "note": "proved for BDF2 with all viscosities and for Adams-Moulton exactly above nu/(cs2 dt) = 1/6; refuted by witness: below, the populations grow without bound"
  },
  {
   "property": "C96",
   "status": "partial",
   "theorems": [
    "C96_first_partial",
    "C96_first_refuted"
   ],
   "note": "refuted by witness; proved that the first collision agrees with BGKStandard exactly where the population already is the equilibrium"
  },
  {
   "property": "C97",
   "status": "partial",
   "theorems": [
    "C97_am4_exact",
    "C97_bdf2_exact_partial",
    "C97_bdf2_refuted",
    "C97_other_schemes"
   ],
   "note": "proved for Adams-Moulton with EXACT_DIFFERENCE over all runs; refuted by witness for BDF2 (exact momentum proved, 3/2 of the force in the long run); SHIFTING_VELOCITY and GUO proved wrong at the first collision for every viscosity and time step"
  },
  {
   "property": "C98",
   "status": "partial",
   "theorems": [
    "C98_only_D2Q9",
    "C98_D3Q19_refuted",
    "C98_silent_refuted"
   ],
   "note": "refuted by witness: on D3Q19 the collision is computed and never written, on other stencils nothing happens and nothing is reported; proved that no stencil but D2Q9 ever changes populations"
  },
  {
   "property": "C99",
   "status": "partial",
   "theorems": [
    "C99_init_refuted",
    "C99_init_always"
   ],
   "note": "refuted: the velocities of the node are read before they are set, for every configuration"
  },
  {
   "property": "C100",
   "status": "proved",
   "theorems": [
    "C100_mass_is_integral"
   ],
   "note": ""
  },
  {
   "property": "C101",
   "status": "partial",
   "theorems": [
    "C101_kinetic_energy",
    "C101_kinetic_energy_gauss_refuted"
   ],
   "note": "proved for collocated quadrature (default) and as integral of the interpolated energy in general; refuted by witness for the Gauss rule"
  },
  {
   "property": "C102",
   "status": "partial",
   "theorems": [
    "C102_enstrophy_2d",
    "C102_enstrophy_3d_gradient",
    "C102_enstrophy_3d_refuted"
   ],
   "note": "proved in two dimensions; refuted by witness in three (rigid rotation), where the integral of the squared gradient is proved"
  },
  {
   "property": "C103",
   "status": "proved",
   "theorems": [
    "C103_extreme_pressures"
   ],
   "note": ""
  },
  {
   "property": "C104",
   "status": "partial",
   "theorems": [
    "C104_mean_velocity_partial",
    "C104_mean_velocity_refuted"
   ],
   "note": "proved bounds and linear elements; refuted by witness: parabola on a quadratic element"
  },
  {
   "property": "C105",
   "status": "partial",
   "theorems": [
    "C105_entropy_counted_per_dof",
    "C105_entropy_refuted"
   ],
   "note": "refuted by witness; proved to be dofs_per_cell times too large for uniform populations and NaN as soon as a population is not positive"
  },
  {
   "property": "C106",
   "status": "proved",
   "theorems": [
    "C106_results_table"
   ],
   "note": "proved for states identified by their iteration number (other than the initial number of the object)"
  },
  {
   "property": "C107",
   "status": "partial",
   "theorems": [
    "C107_global_averages_partial",
    "C107_global_averages_refuted"
   ],
   "note": "refuted by witness on a domain with volume 4; proved for volume 1"
  },
  {
   "property": "C108",
   "status": "partial",
   "theorems": [
    "C108_global_legend_partial",
    "C108_legend_time_refuted"
   ],
   "note": "proved for all entries but the time; refuted: time has number 3 and is in column 2"
  },
  {
   "property": "C109",
   "status": "partial",
   "theorems": [
    "C109_compressible_columns",
    "C109_compressible_legend_refuted",
    "C109_total_energy_refuted"
   ],
   "note": "columns and Mach number proved; legend and total energy refuted by witness"
  },
  {
   "property": "C110",
   "status": "partial",
   "theorems": [
    "C110_plane_statistics_partial",
    "C110_single_plane",
    "C110_turbulence_table",
    "C110_empty_plane_refuted",
    "C110_plane_mean_refuted"
   ],
   "note": "arithmetic mean, rms, selection of points and columns proved; refuted by witness: plane without points (NaN), mean over the plane of a parabola"
  },
  {
   "property": "C111",
   "status": "proved",
   "theorems": [
    "C111_reynolds_average",
    "C111_reynolds_average_of_run"
   ],
   "note": ""
  },
  {
   "property": "C112",
   "status": "proved",
   "theorems": [
    "C112_moments",
    "C112_succeeds",
    "C112_equilibrium"
   ],
   "note": ""
  },
  {
   "property": "C113",
   "status": "partial",
   "theorems": [
    "C113_pressure_partial",
    "C113_velocity_partial",
    "C113_vector_partial",
    "C113_vector_accepted",
    "C113_gradient_partial",
    "C113_function_partial",
    "C113_function_accepted",
    "C113_pUT_partial",
    "C113_temperature_refuted"
   ],
   "note": "proved for all constructors but the temperature of (p,u,T), which is refuted by witness: it is built from the pressure and not copied; operator+ not modelled (returns a reference to a local)"
  },
  {
   "property": "C114",
   "status": "partial",
   "theorems": [
    "C114_formula_partial",
    "C114_pressure_derivative",
    "C114_carnahan_starling_refuted",
    "C114_refused",
    "C114_no_interaction",
    "C114_interaction_refuted"
   ],
   "note": "formula proved for Shan-Chen and Sukop given the density gradient; refuted by witness for Carnahan-Starling and for the collision, in which the density gradient is set to zero"
  },
  {
   "property": "C115",
   "status": "partial",
   "theorems": [
    "C115_force_partial",
    "C115_succeeds",
    "C115_guo_refuted",
    "C115_scaled_refuted",
    "C115_other_stencils_partial",
    "C115_other_stencils_refuted"
   ],
   "note": "proved on D2Q9 for shifting velocity and (unscaled) exact difference; refuted by witness for Guo, scaled exact difference and every other stencil, where the force has no effect"
  },
  {
   "property": "C116",
   "status": "partial",
   "theorems": [
    "C116_visits_partial",
    "C116_shared_refuted"
   ],
   "note": "gain of momentum proved proportional to the number of cells of the node; refuted by witness for a shared node"
  },
  {
   "property": "C117",
   "status": "partial",
   "theorems": [
    "C117_other_stencils_partial",
    "C117_undefined",
    "C117_initialisation_refuted"
   ],
   "note": "proved on stencils other than D2Q9; refuted by witness on D2Q9 (uninitialised velocity)"
  },
  {
   "property": "C118",
   "status": "partial",
   "theorems": [
    "C118_accepts",
    "C118_decides_partial",
    "C118_orients",
    "C118_reason",
    "C118_parallel_refuted"
   ],
   "note": "acceptance, orientation and reasons proved with the tolerances of the code (1 %, cosine 0.99); refuted by witness: lines with a tilt of 5.7 degrees are accepted"
  },
  {
   "property": "C119",
   "status": "partial",
   "theorems": [
    "C119_lines_partial",
    "C119_missing_refuted",
    "C119_key_refuted",
    "C119_straight_refuted"
   ],
   "note": "proved for straight interfaces with distinct keys; refuted by witness: missing indicator, equal keys 1000x+y, kink"
  },
  {
   "property": "C120",
   "status": "proved",
   "theorems": [
    "C120_values"
   ],
   "note": ""
  },
  {
   "property": "C121",
   "status": "partial",
   "theorems": [
    "C121_delivered_partial",
    "C121_other_requests",
    "C121_velocity_refuted",
    "C121_varying_density_refuted"
   ],
   "note": "proved for the six requests served and solutions with consistent interpolation; refuted by witness: velocity alone, varying density"
  },
  {
   "property": "C122",
   "status": "partial",
   "theorems": [
    "C122_default_partial",
    "C122_refuses_refuted",
    "C122_accepts_refuted"
   ],
   "note": "default threshold proved; refuted by witness both ways for thresholds in degrees"
  },
  {
   "property": "C123",
   "status": "partial",
   "theorems": [
    "C123_pattern_partial",
    "C123_missing_refuted",
    "C123_outside_refuted"
   ],
   "note": "proved if the boundary ids are the face numbers of the boundary (box domains); refuted by witness: other numberings lose entries or access a face that does not exist (boundary id passed as face number)"
  },
  {
   "property": "C124",
   "status": "partial",
   "theorems": [
    "C124_pairs_partial",
    "C124_tables",
    "C124_unequal_refuted"
   ],
   "note": "pairs proved exact for all trees; refuted by witness: different refinement is not refused (exception constructed, not thrown) and leaves cells without partner; deal.II's child numbering of turned faces is a hypothesis (commutes with the table)"
  },
  {
   "property": "C125",
   "status": "partial",
   "theorems": [
    "C125_count_partial",
    "C125_periodic_refuted"
   ],
   "note": "proved if some boundary is not periodic; refuted by witness: in a fully periodic domain the empty set of ids selects all boundaries"
  },
  {
   "property": "C126",
   "status": "partial",
   "theorems": [
    "C126_plane_partial",
    "C126_interior_refuted"
   ],
   "note": "characterisation proved for all faces; refuted by witness: interior faces in the plane are marked too"
  },
  {
   "property": "C127",
   "status": "proved",
   "theorems": [
    "C127_mass",
    "C127_closed"
   ],
   "note": "exact arithmetic; the factor cst is the first Taylor coefficient of the literal Runge-Kutta coefficients (1 up to 1e-20)"
  },
  {
   "property": "C128",
   "status": "partial",
   "theorems": [
    "C128_momentum",
    "C128_elapsed_refuted",
    "C128_restarted"
   ],
   "note": "proved: initial momentum plus one kick per collision; refuted by witness: there is one collision more than time steps (before the loop), and another one at each restart, so the impulse is (n+1) dt F V, or (n+2) dt F V after a restart"
  },
  {
   "property": "C129",
   "status": "proved",
   "theorems": [
    "C129_uniform"
   ],
   "note": "walls: the equilibrium's odd part has to be the one of the wall shift (density 1 for BGK equilibria, see C62)"
  },
  {
   "property": "C130",
   "status": "proved",
   "theorems": [
    "C130_shift",
    "C130_run"
   ],
   "note": "exact arithmetic with an exactly aligned time step (C31: the CFL number of the options is rounded to 16 digits); incompressible solver without filter, limiter and multistep schemes"
  },
  {
   "property": "C131",
   "status": "proved",
   "theorems": [
    "C131_totals"
   ],
   "note": "one collision more than time steps, as in C128"
  },
  {
   "property": "C132",
   "status": "partial",
   "theorems": [
    "C132_collision",
    "C132_cubic",
    "C132_cubic_all_refuted",
    "C132_oblong"
   ],
   "note": "proved for every symmetry of every stencil (multiple relaxation times: on the stencils they are written for, without the only-N mode); all 8 or 48 exchanges and reversals are symmetries of eight stencils, refuted by witness for D2Q19H, D2Q19V and D3Q45; not examined for D2Q777 and the icosahedral D3Q13 and D3Q21"
  },
  {
   "property": "C133",
   "status": "partial",
   "theorems": [
    "C133_only_N_refuted",
    "C133_modes_partial"
   ],
   "note": "refuted by witness for DELLAR_RELAX_ONLY_N, which relaxes one of the two ghost fluxes differently (C11); proved for all other modes"
  },
  {
   "property": "C134",
   "status": "proved",
   "theorems": [
    "C134_turned",
    "C134_symmetric"
   ],
   "note": "on the lattices of C130 (exact alignment, periodic boxes)"
  },
  {
   "property": "C135",
   "status": "partial",
   "theorems": [
    "C135_linear",
    "C135_closed",
    "C135_aligned",
    "C135_quadratic_refuted"
   ],
   "note": "proved for linear elements (with every boundary for ranges around 0, any number of steps; in every range without boundaries up to the dropped entries) and for grid-aligned steps of every order; refuted by witness for order 2 (a population between 0 and 1 falls below -0.1 in one step)"
  },
  {
   "property": "C136",
   "status": "partial",
   "theorems": [
    "C136_energy",
    "C136_exact",
    "C136_equilibrium",
    "C136_density_refuted",
    "C136_internal_refuted",
    "C136_fields",
    "C136_fields_refuted",
    "C136_ranks",
    "C136_small_refuted",
    "C136_parallel_refuted",
    "C136_continued",
    "C136_early",
    "C136_early_refuted"
   ],
   "note": "refuted by witness: the energy changes at density 2 and velocity 1, and whenever g has another temperature than f; velocity restored as 0 and kinetic energy counted as temperature; construction fails with fewer known degrees of freedom than directions; restart at iteration 1 loses all momentum. Proved: exact error of the energy for all populations, the cases in which it vanishes, restored fields, when the construction succeeds, conservation of mass and momentum in runs continued from iteration 2 or later"
  },
  {
   "property": "C137",
   "status": "proved",
   "theorems": [
    "C137_fresh",
    "C137_consistent"
   ],
   "note": "for the Galerkin scheme with the five stage Runge-Kutta method, the quartic equilibrium, the stencil with closed form moments of order 6 (D2Q25H), no filter, EQUILIBRIUM initialisation; the second order equilibrium does not conserve energy (C13), walls: C123"
  },
  {
   "property": "C138",
   "status": "proved",
   "theorems": [
    "C138_initial",
    "C138_tolerance",
    "C138_first_collision",
    "C138_uniform"
   ],
   "note": "exact for D2Q25H, within the accuracy of the table for the stencils isotropic to order 6; D2Q777 (isotropic to order 3 only) not covered; uniform gas for the Galerkin scheme on periodic domains"
  },
  {
   "property": "C139",
   "status": "partial",
   "theorems": [
    "C139_viscosity_partial",
    "C139_density_refuted",
    "C139_flux",
    "C139_trace",
    "C139_magic",
    "C139_third"
   ],
   "note": "refuted by witness: at density 2 both classes relax the stress to a wrong value (flux to rho j j and j j instead of j j / rho). Proved: rate, trace and magic product at density 1; exact flux at every density; third moments of MRTEntropic set to equilibrium"
  },
  {
   "property": "C140",
   "status": "partial",
   "theorems": [
    "C140_euler_partial",
    "C140_default_refuted",
    "C140_pressure"
   ],
   "note": "refuted by witness: with the default length 2 pi the wave moves with the wrong speed (phase lacks the division by the length). Proved: the Euler equations hold exactly for length 1 or velocity 0; constant pressure and bounds of the density for all parameters"
  },
  {
   "property": "C141",
   "status": "partial",
   "theorems": [
    "C141_shock",
    "C141_states",
    "C141_vortex",
    "C141_isentropic",
    "C141_equilibrium",
    "C141_equilibrium_refuted",
    "C141_defined_partial",
    "C141_strong_refuted",
    "C141_centre_refuted",
    "C141_periodic_refuted"
   ],
   "note": "refuted by witness: vortex never in radial equilibrium (speed uses the local temperature), velocity undefined at the centre, temperature negative at vortex Mach number 2, density jumps at the periodic boundary. Proved: jump conditions to 1e-7, exponential profile, direction and magnitude of the vortex velocity, isentropic relation, exact pressure gradient, all fields defined below Mach number sqrt(5/3) away from the centre"
  },
  {
   "property": "C142",
   "status": "partial",
   "theorems": [
    "C142_sod",
    "C142_contacts",
    "C142_symmetric",
    "C142_shock_partial",
    "C142_shock_refuted",
    "C142_pressure_refuted"
   ],
   "note": "refuted by witness: upper right pressure is 0.40023, jump conditions fail to 1.1e-4 for every shock speed. Proved: states of the shock tube, contacts, symmetry, jump conditions to 1.2e-4"
  },
  {
   "property": "C143",
   "status": "partial",
   "theorems": [
    "C143_law",
    "C143_bounds",
    "C143_steady_partial",
    "C143_monotone",
    "C143_direction_refuted",
    "C143_reversed",
    "C143_windup_refuted",
    "C143_restart_refuted"
   ],
   "note": "refuted by witness: a starting force against the x axis gives a constant force along it, the force stays at the upper limit arbitrarily long at twice the target flux, a restart forgets the sum of the errors. Proved: exact law of the table for all runs, limits for starting forces >= 0, steady states have the target flux, monotonicity"
  },
  {
   "property": "C144",
   "status": "partial",
   "theorems": [
    "C144_measure_partial",
    "C144_linear",
    "C144_height_refuted",
    "C144_rounding_refuted",
    "C144_idle_refuted",
    "C144_density",
    "C144_temperature_partial",
    "C144_temperature_change",
    "C144_temperature_refuted"
   ],
   "note": "refuted by witness: wrong for heights other than 2, NaN when coordinates of processes differ by rounding, undefined with an idle process, rescaling changes the temperature. Proved: trapezoidal rule of the plane means for separated coordinates, exact for linear profiles, density one after rescaling, exact change of the temperature. Not shown: plane means weigh points on faces of several cells by the number of cells (see C110)"
  },
  {
   "property": "C145",
   "status": "partial",
   "theorems": [
    "C145_force",
    "C145_mesh",
    "C145_tangled_refuted",
    "C145_density_refuted",
    "C145_monitor_partial",
    "C145_monitor_refuted"
   ],
   "note": "refuted by witness: --grid-density is taken for is_periodic and never reaches the mesh (0 removes walls and force), densities above 1 tangle the mesh, the centre line of the monitor is the upper wall for the default half width. Proved: force for all parameters, order, symmetry and wall spacing of the mesh for densities up to 1"
  },
  {
   "property": "C146",
   "status": "partial",
   "theorems": [
    "C146_randf",
    "C146_angles",
    "C146_sphere",
    "C146_seed_refuted"
   ],
   "note": "refuted by witness: seeds -2147483647 (all numbers zero) and -2147483648 (overflow). Proved for all other seeds <= 0 and any number of draws: range, no undefined behaviour, numbers of the Park-Miller sequence"
  },
  {
   "property": "C147",
   "status": "partial",
   "theorems": [
    "C147_overrun_refuted",
    "C147_synthetic_partial",
    "C147_modes",
    "C147_curl",
    "C147_mean_partial",
    "C147_mean_refuted",
    "C147_slip_refuted",
    "C147_temperature"
   ],
   "note": "refuted by witness: every evaluation writes behind the end of wnrf; with the defaults the gas at the upper wall starts backwards with 39 times the centre line velocity; the added waves slip at the walls. Proved: modes orthogonal unit vectors, sum of modes without divergence (vector one element longer), discrete curl, profile when height = characteristic length, temperature"
  },
  {
   "property": "C148",
   "status": "partial",
   "theorems": [
    "C148_waves",
    "C148_periodic_refuted",
    "C148_function_refuted",
    "C148_mixing",
    "C148_mixing_refuted"
   ],
   "note": "refuted by witness: not periodic, drawn anew at every evaluation (generator of dealii not reset by srand), mixing layer jumps at the boundaries. Proved: no divergence for every set of draws, antisymmetry"
  },
  {
   "property": "C149",
   "status": "partial",
   "theorems": [
    "C149_points",
    "C149_shape",
    "C149_accepted",
    "C149_chebyshev_refuted",
    "C149_stream",
    "C149_lattice",
    "C149_mapping",
    "C149_cavity"
   ],
   "note": "refuted by witness: Gauss-Chebyshev points are refused by the continuous element of the semi-Lagrangian scheme at every order. Proved for all other names: points, cardinality, partition of unity, polynomials, streaming (C48 and C130 without hypotheses on shape functions), mapping of Cartesian problems, grid of the cavity"
  },
  {
   "property": "C150",
   "status": "proved",
   "theorems": [
    "C150_mesh",
    "C150_slope",
    "C150_exact",
    "C150_run",
    "C150_rule"
   ],
   "note": "all orders and box sizes; good_mesh of C59-C63 derived from the defining properties of the Gauss-Lobatto rule, which exists for every number of points and is unique (C150_rule)"
  },
  {
   "property": "C151",
   "status": "proved",
   "theorems": [
    "C151_runge_kutta",
    "C151_theta_energy",
    "C151_theta_stable",
    "C151_theta_converges",
    "C151_theta_below",
    "C151_transport",
    "C151_transport_walls"
   ],
   "note": "Solver of the theta method exact (the code's has relative tolerance 1e-6; one step with tolerance: C36_tolerance); runs that throw because the solver does not converge are not excluded. Collisions between the steps are not part of these runs."
  },
  {
   "property": "C152",
   "status": "partial",
   "theorems": [
    "C152_potential",
    "C152_values",
    "C152_defined",
    "C152_inside",
    "C152_obstacle_refuted",
    "C152_no_circle",
    "C152_pressure_partial",
    "C152_pressure_refuted",
    "C152_mach",
    "C152_printed_refuted",
    "C152_reynolds_partial",
    "C152_reynolds_refuted"
   ],
   "note": "Refuted by witness: the potential flow is that of a cylinder of radius 1/2 while the obstacle in the mesh has radius 1 (C152_obstacle_refuted; at no radius of the domain is the normal velocity zero, C152_no_circle); the density fits the velocity only for squared sound speed 4 (C152_pressure_partial), the program has 1/3; the Mach number printed for the incompressible solver is too small by sqrt(gamma); with the diameter the Reynolds number is twice the one asked for. Proved: no sources, no rotation, decay of the deviation, definedness, Bernoulli relation with factor 4."
  },
  {
   "property": "C153",
   "status": "partial",
   "theorems": [
    "C153_cover",
    "C153_disjoint",
    "C153_obstacle_refuted",
    "C153_numbers_partial",
    "C153_default_refuted"
   ],
   "note": "Refuted by witness: the initial flow is uniform and crosses the sphere; with default options no solver is created. Proved: blocks cover the domain without overlap; Mach and Reynolds numbers of the compressible runs."
  },
  {
   "property": "C154",
   "status": "partial",
   "theorems": [
    "C154_values",
    "C154_rows",
    "C154_zero",
    "C154_skips",
    "C154_early_refuted",
    "C154_reynolds_refuted",
    "C154_tables_partial",
    "C154_tables_refuted",
    "C154_entry_refuted"
   ],
   "note": "Refuted by witness: errors are not initialised before the first 1000th iteration; Reynolds numbers without table are silently compared with zero; the positions of Botella's horizontal line are not mirrored like its velocities (they fit Ghia's table exactly when mirrored, C154_tables_partial); one entry of Ghia's table is ten times too large. Proved for every distribution over processes: lines, root mean squares and when they vanish; no row is left out (C154_rows). Tables of Erturk not modelled (same apply with 23 rows)."
  },
  {
   "property": "C155",
   "status": "partial",
   "theorems": [
    "C155_coefficients",
    "C155_recovers",
    "C155_opposite",
    "C155_defined_refuted"
   ],
   "note": "Refuted by witness: files with fewer lines than points, and sizes beyond the dimension in one dimension, are accepted and undefined memory is written. Proved for all other calls: labels, coefficients, recovery of the field and conjugate opposite waves. FFTW itself is represented by the definition of the transform it documents."
  },
  {
   "property": "C156",
   "status": "partial",
   "theorems": [
    "C156_product",
    "C156_entries",
    "C156_access",
    "C156_columns",
    "C156_new_partial",
    "C156_new_refuted"
   ],
   "note": "Refuted by witness for dealii::BlockVector columns: reinitVector calls the overload of reinit with number and size of blocks, so every column gets blocks of size one and products into vectors like the prototype fail. Proved for serial and distributed vectors (C156_new_partial) and, given alike columns, products, entries and columns for all. distributed_block_vector not modelled."
  },
  {
   "property": "C157",
   "status": "partial",
   "theorems": [
    "C157_gradient_refuted",
    "C157_gradient_partial",
    "C157_destroy_refuted"
   ],
   "note": "Refuted by witness: without hp support every cell has finite element index 0 and is skipped, and the projection is commented out, so that release builds return zero for every solution and debug builds fail on an assertion; destroying an object before reinit follows a null pointer. Proved: the value is right exactly where the gradient vanishes (C157_gradient_partial)."
  },
  {
   "property": "C158",
   "status": "partial",
   "theorems": [
    "C158_spectrum",
    "C158_file_partial",
    "C158_file_refuted",
    "C158_pseudospectrum",
    "C158_perturbation",
    "C158_cycles_refuted"
   ],
   "note": "Refuted by witness: the random generator is started with the time in seconds in every cycle, so that all cycles within a second are the same; without scaling the file still claims eigenvalues of dt*A. Proved: eigenvalues, largest modulus, scaled file, every pseudoeigenvalue belongs to a matrix within the perturbation, which the random numbers cover from end to end (C158_perturbation). LAPACK and rand enter by their documented behaviour (hypotheses, met in the examples)."
  },
  {
   "property": "C159",
   "status": "partial",
   "theorems": [
    "C159_defined_refuted",
    "C159_elsewhere_partial"
   ],
   "note": "Refuted by witness: the quadrature point used in the loop is a variable that is never set, for every process with cells in the quarter. Proved: processes without such cells contribute zero (C159_elsewhere_partial)."
  },
  {
   "property": "C160",
   "status": "partial",
   "theorems": [
    "C160_tau_refuted",
    "C160_tau_partial",
    "C160_accepted",
    "C160_arguments_refuted",
    "C160_velocity"
   ],
   "note": "Refuted by witness: the time step is computed before the mesh is refined, so the relaxation time minus 1/2 is too large by the factor 2^level (tau = 1 is run with 4.5 at the default level), and one argument passes the check although two are read (C160_arguments_refuted). Proved: the relaxation time of all accepted runs, right exactly at level 0 (C160_tau_partial); accepted command lines; the printed velocity."
  }
 ]
}