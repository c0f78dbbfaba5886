(** GENERATED by tools/gen_config.py from solver/SolverConfiguration.{h,cpp},
    utilities/ConfigNames.h, stencils/Stencil.h; do not edit.
    Enumerators are represented by their number in the enum. *)
From Coq Require Import String List Reals ZArith.
Import ListNotations.
From Verif Require Import ConfigTypes.
Open Scope R_scope.
Local Open Scope string_scope.

(** SolverConfiguration.cpp:15-295: the entries declared by the constructor. *)
Definition declared : list entry_decl :=
  [Decl ["General"] "CFL" (PDouble (Some (1 / 10^10)) (None)) (TDec (4 / 10^1));
   Decl ["General"] "Prandtl" (PDouble (Some (1 / 10^10)) (None)) (TDec 1);
   Decl ["General"] "Reference temperature" (PDouble (Some (1 / 10^10)) (None)) (TDec 1);
   Decl ["General"] "Gamma" (PDouble (Some (1 / 10^10)) (None)) (TDec (14 / 10^1));
   Decl ["General"] "Prandtl number set" (PBool) (TBool false);
   Decl ["General"] "Sutherland law set" (PBool) (TBool false);
   Decl ["General"] "Stencil" (PSelection ["D2Q9"; "D3Q13"; "D3Q19"; "D3Q15"; "D3Q21"; "D3Q27"; "RD3Q27"; "D2Q19V"; "D2Q19H"; "D2Q777"; "D2Q25H"; "D3Q45"; "D3Q77"; "D3V27"]) (TStr "D2Q9");
   Decl ["General"] "Stencil scaling" (PDouble (Some (1 / 10^10)) (None)) (TDec 1);
   Decl ["General"] "Has analytic solution?" (PBool) (TBool false);
   Decl ["Advection"] "Advection scheme" (PSelection ["SEDG"; "Semi-Lagrangian"]) (TStr "SEDG");
   Decl ["Advection"] "Support points" (PSelection ["Gauss-Lobatto"; "Gauss-Lobatto-Chebyshev"; "Gauss-Chebyshev"; "Equidistant"]) (TStr "Gauss-Lobatto");
   Decl ["Advection"] "Quadrature" (PSelection ["Gauss-Lobatto"; "Gauss"]) (TStr "Gauss-Lobatto");
   Decl ["Advection"] "Time integrator" (PSelection ["Runge-Kutta 5-stage"; "Theta method"; "Exponential"; "Other"]) (TStr "Runge-Kutta 5-stage");
   Decl ["Advection"; "SEDG"] "Order of finite element" (PInteger 1 int_max) (TInt 1);
   Decl ["Advection"; "SEDG"] "Flux type" (PSelection ["Lax-Friedrichs"; "Central"]) (TStr "Lax-Friedrichs");
   Decl ["Advection"; "Theta method"] "Theta" (PDouble (Some 0) (Some 1)) (TDec (5 / 10^1));
   Decl ["Advection"; "Deal.II integrator"] "Runge Kutta scheme" (PSelection ["Forward Euler"; "RK 3rd order"; "RK Classic 4th order"; "Backward Euler"; "Implicit midpoint"; "Crank-Nicoloson"; "SDIRK 2 stages"; "Heun-Euler"; "Bogacki-Shampine"; "Dopri"; "Fehlberg"; "Cash-Karp"; "None"]) (TStr "None");
   Decl ["Advection"; "Deal.II linear solver"] "Linear solver" (PSelection ["Bicgstab"; "Cg"; "Fgmres"; "Gmres"; "Minres"; "Qmrs"; "Relaxation"; "Richardson"]) (TStr "Bicgstab");
   Decl ["Advection"; "Embedded Parameters"] "Coarsen parameter" (PDouble (Some 1) (Some 1000)) (TDec (12 / 10^1));
   Decl ["Advection"; "Embedded Parameters"] "Refinement parameter" (PDouble (Some 0) (Some 1)) (TDec (8 / 10^1));
   Decl ["Advection"; "Embedded Parameters"] "Minimum CFL" (PDouble (None) (None)) (TDec 10);
   Decl ["Advection"; "Embedded Parameters"] "Maximum CFL" (PDouble (None) (None)) (TDec (5 / 10^2));
   Decl ["Advection"; "Embedded Parameters"] "Refinement tolerance" (PDouble (None) (None)) (TDec (1 / 10^8));
   Decl ["Advection"; "Embedded Parameters"] "Coarsen tolerance" (PDouble (None) (None)) (TDec (1 / 10^12));
   Decl ["Collision"] "Collision scheme" (PSelection ["BGK standard"; "BGK steady state"; "BGK standard transformed"; "BGK multiphase"; "BGK incompressible"; "BGK regularized"; "MRT standard"; "MRT entropic"; "Entropic stabilized"; "KBC standard"; "KBC central"; "BGK multi am4"; "BGK multi bdf2"]) (TStr "BGK standard");
   Decl ["Collision"] "MRT basis" (PSelection ["Dellar D2Q9"; "Lallemand D2Q9"; "DHumieres D3Q19"]) (TStr "Dellar D2Q9");
   Decl ["Collision"] "MRT relaxation times" (PSelection ["Full"; "Dellar D2Q9 Only N"; "DHumieres Paper"]) (TStr "Full");
   Decl ["Collision"] "Equilibrium scheme" (PSelection ["BGK equilibrium"; "Quartic equilibrium"; "Incompressible equilibrium"; "Steady-state equilibrium"; "Entropic equilibrium"]) (TStr "BGK equilibrium");
   Decl ["Collision"; "BGK parameters"] "Steady state gamma" (PDouble (Some 0) (Some 1)) (TDec 1);
   Decl ["Collision"; "BGK parameters"] "Pseudopotential type" (PSelection ["ShanChen"; "Sukop"; "CarnahanStarling"]) (TStr "ShanChen");
   Decl ["Collision"; "BGK parameters"] "Pseudopotential G" (PDouble (Some (- (1 * 10^10))) (Some (1 * 10^10))) (TDec (- (5)));
   Decl ["Collision"; "BGK parameters"] "Pseudopotential T" (PDouble (Some (- (1 * 10^10))) (Some (1 * 10^10))) (TDec (848997582 / 10^10));
   Decl ["Collision"; "BGK parameters"] "Forcing scheme" (PSelection ["No Forcing"; "Shifting Velocity"; "Exact Difference"; "Guo"]) (TStr "No Forcing");
   Decl ["Filtering"] "Regularization" (PSelection ["No Regularization"; "Pseudo-entropy maximization"; "Zero high-order moments"; "Entropy maximization"; "Pseudo-entropy maximization with e"]) (TStr "No Regularization");
   Decl ["Filtering"] "Apply vmult limiter?" (PBool) (TBool false);
   Decl ["Filtering"] "Apply filtering?" (PBool) (TBool false);
   Decl ["Filtering"] "Filtering scheme" (PSelection ["Exponential"; "New"]) (TStr "Exponential");
   Decl ["Filtering"; "Filter parameters"] "Filter interval" (PInteger 1 10000000) (TInt 1);
   Decl ["Filtering"; "Filter parameters"] "Exponential alpha" (PDouble (Some 0) (Some (1 * 10^10))) (TDec 10);
   Decl ["Filtering"; "Filter parameters"] "Exponential s" (PDouble (Some 0) (Some (1 * 10^10))) (TDec 20);
   Decl ["Filtering"; "Filter parameters"] "Exponential Nc" (PDouble (Some 0) (Some 50)) (TDec 1);
   Decl ["Filtering"; "Filter parameters"] "Degree by component sums" (PBool) (TBool false);
   Decl ["Initialization"] "Restart at iteration" (PInteger 0 int_max) (TInt 0);
   Decl ["Initialization"] "Initialization scheme" (PSelection ["Equilibrium"; "Iterative"; "CompressibleIterative"; "Gradients"]) (TStr "Equilibrium");
   Decl ["Initialization"; "Iterative initialization stop condition"] "Residual" (PDouble (Some (1 / 10^25)) (None)) (TDec (1 / 10^7));
   Decl ["Initialization"; "Iterative initialization stop condition"] "Number of iterations" (PInteger 1 int_max) (TInt 2000);
   Decl ["Stop condition"] "Number of time steps" (PInteger 1 int_max) (TInt 100000000);
   Decl ["Stop condition"] "Simulation end time" (PDouble (Some 0) (None)) (TDec 100000000);
   Decl ["Stop condition"] "Convergence threshold" (PDouble (None) (None)) (TDec (1 / 10^30));
   Decl ["Output"] "Switch output off?" (PBool) (TBool false);
   Decl ["Output"] "User interaction?" (PBool) (TBool true);
   Decl ["Output"] "Output directory" (PAny) (TStr "/tmp/NATriuM");
   Decl ["Output"] "Output checkpoint interval" (PInteger 1 int_max) (TInt 1000000000);
   Decl ["Output"] "Output table interval" (PInteger 1 int_max) (TInt 1000);
   Decl ["Output"] "Output solution interval" (PInteger 1 int_max) (TInt 1000);
   Decl ["Output"] "Command line verbosity" (PInteger 0 8) (TInt 5);
   Decl ["Output"] "Write a log file?" (PBool) (TBool true);
   Decl ["Output"; "Turbulence Statistics"] "Output global turbulence statistics?" (PBool) (TBool false);
   Decl ["Output"; "Turbulence Statistics"] "Output compressible turbulence statistics?" (PBool) (TBool false);
   Decl ["Output"; "Turbulence Statistics"] "Output turbulence statistics?" (PBool) (TBool false);
   Decl ["Output"; "Turbulence Statistics"] "Wall normal direction" (PInteger 0 3) (TInt 1);
   Decl ["Output"; "Turbulence Statistics"] "Wall normal coordinates" (PList (- (1 * 10^10)) (1 * 10^10)) (TList [(1 / 10^1); (2 / 10^1); (5 / 10^1)])].

(** One constructor per pair of a plain setter and its getter; the options of the special
    setters (setPrandtlNumber, setSutherlandLaw, setEmbeddedDealIntegratorParameters,
    setWallNormalCoordinates) follow with their getters only. *)
Inductive option_id :=
| O_AdvectionScheme
| O_SupportPoints
| O_Quadrature
| O_CollisionScheme
| O_MRTBasis
| O_MRTRelaxationTimes
| O_EquilibriumScheme
| O_BGKSteadyStateGamma
| O_PseudopotentialType
| O_BGKPseudopotentialG
| O_BGKPseudopotentialT
| O_ForcingScheme
| O_CommandLineVerbosity
| O_HasAnalyticSolution
| O_Filtering
| O_VmultLimiter
| O_FilteringScheme
| O_FilterInterval
| O_ExponentialFilterAlpha
| O_ExponentialFilterS
| O_ExponentialFilterNc
| O_FilterDegreeByComponentSums
| O_InitializationScheme
| O_IterativeInitializationNumberOfIterations
| O_IterativeInitializationResidual
| O_NumberOfTimeSteps
| O_SimulationEndTime
| O_ConvergenceThreshold
| O_OutputCheckpointInterval
| O_OutputTableInterval
| O_OutputDirectory
| O_OutputSolutionInterval
| O_RestartAtIteration
| O_SedgFluxType
| O_SedgOrderOfFiniteElement
| O_StencilScaling
| O_Stencil
| O_TimeIntegrator
| O_ThetaMethodTheta
| O_DealIntegrator
| O_DealLinearSolver
| O_CFL
| O_HeatCapacityRatioGamma
| O_ReferenceTemperature
| O_WriteALogFile
| O_SwitchOutputOff
| O_OutputTurbulenceStatistics
| O_OutputGlobalTurbulenceStatistics
| O_OutputCompressibleTurbulenceStatistics
| O_WallNormalDirection
| O_UserInteraction
| O_RegularizationScheme.

Inductive read_only_id :=
| G_EmbeddedDealIntegratorCoarsenParameter
| G_EmbeddedDealIntegratorRefinementParameter
| G_EmbeddedDealIntegratorMinimumCFL
| G_EmbeddedDealIntegratorMaximumCFL
| G_EmbeddedDealIntegratorRefinementTolerance
| G_EmbeddedDealIntegratorCoarsenTolerance
| G_PrandtlNumber
| G_PrandtlNumberSet
| G_SutherlandLawSet.

Definition setter_of (o : option_id) : setter_desc :=
  match o with
  (* SolverConfiguration.h:202-222 setAdvectionScheme *)
  | O_AdvectionScheme => Setter ["Advection"] "Advection scheme" false (SetEnum [(0%nat, "SEDG"); (1%nat, "Semi-Lagrangian")])
  (* SolverConfiguration.h:245-273 setSupportPoints *)
  | O_SupportPoints => Setter ["Advection"] "Support points" false (SetEnum [(0%nat, "Gauss-Lobatto"); (2%nat, "Gauss-Lobatto-Chebyshev"); (1%nat, "Gauss-Chebyshev"); (3%nat, "Equidistant")])
  (* SolverConfiguration.h:292-312 setQuadrature *)
  | O_Quadrature => Setter ["Advection"] "Quadrature" false (SetEnum [(0%nat, "Gauss-Lobatto"); (1%nat, "Gauss")])
  (* SolverConfiguration.h:353-417 setCollisionScheme *)
  | O_CollisionScheme => Setter ["Collision"] "Collision scheme" false (SetEnum [(0%nat, "BGK standard"); (1%nat, "BGK standard transformed"); (2%nat, "BGK steady state"); (3%nat, "BGK multiphase"); (4%nat, "BGK incompressible"); (12%nat, "BGK regularized"); (5%nat, "MRT standard"); (6%nat, "MRT entropic"); (7%nat, "Entropic stabilized"); (8%nat, "KBC standard"); (9%nat, "KBC central"); (10%nat, "BGK multi am4"); (11%nat, "BGK multi bdf2")])
  (* SolverConfiguration.h:438-462 setMRTBasis *)
  | O_MRTBasis => Setter ["Collision"] "MRT basis" false (SetEnum [(0%nat, "Dellar D2Q9"); (1%nat, "Lallemand D2Q9"); (2%nat, "DHumieres D3Q19")])
  (* SolverConfiguration.h:483-509 setMRTRelaxationTimes *)
  | O_MRTRelaxationTimes => Setter ["Collision"] "MRT relaxation times" false (SetEnum [(0%nat, "Full"); (1%nat, "Dellar D2Q9 Only N"); (2%nat, "DHumieres Paper")])
  (* SolverConfiguration.h:534-568 setEquilibriumScheme *)
  | O_EquilibriumScheme => Setter ["Collision"] "Equilibrium scheme" false (SetEnum [(0%nat, "BGK equilibrium"); (1%nat, "Quartic equilibrium"); (2%nat, "Incompressible equilibrium"); (3%nat, "Steady-state equilibrium"); (4%nat, "Entropic equilibrium")])
  (* SolverConfiguration.h:590-605 setBGKSteadyStateGamma *)
  | O_BGKSteadyStateGamma => Setter ["Collision"; "BGK parameters"] "Steady state gamma" true (SetDouble)
  (* SolverConfiguration.h:628-655 setPseudopotentialType *)
  | O_PseudopotentialType => Setter ["Collision"; "BGK parameters"] "Pseudopotential type" false (SetEnum [(0%nat, "ShanChen"); (1%nat, "Sukop"); (2%nat, "CarnahanStarling")])
  (* SolverConfiguration.h:677-692 setBGKPseudopotentialG *)
  | O_BGKPseudopotentialG => Setter ["Collision"; "BGK parameters"] "Pseudopotential G" true (SetDouble)
  (* SolverConfiguration.h:714-729 setBGKPseudopotentialT *)
  | O_BGKPseudopotentialT => Setter ["Collision"; "BGK parameters"] "Pseudopotential T" true (SetDouble)
  (* SolverConfiguration.h:753-784 setForcingScheme *)
  | O_ForcingScheme => Setter ["Collision"; "BGK parameters"] "Forcing scheme" false (SetEnum [(0%nat, "No Forcing"); (1%nat, "Shifting Velocity"); (2%nat, "Exact Difference"); (3%nat, "Guo")])
  (* SolverConfiguration.h:803-815 setCommandLineVerbosity *)
  | O_CommandLineVerbosity => Setter ["Output"] "Command line verbosity" true (SetInt)
  (* SolverConfiguration.h:834-838 setHasAnalyticSolution *)
  | O_HasAnalyticSolution => Setter ["General"] "Has analytic solution?" false (SetBool)
  (* SolverConfiguration.h:840-844 setFiltering *)
  | O_Filtering => Setter ["Filtering"] "Apply filtering?" false (SetBool)
  (* SolverConfiguration.h:862-866 setVmultLimiter *)
  | O_VmultLimiter => Setter ["Filtering"] "Apply vmult limiter?" false (SetBool)
  (* SolverConfiguration.h:884-905 setFilteringScheme *)
  | O_FilteringScheme => Setter ["Filtering"] "Filtering scheme" false (SetEnum [(0%nat, "Exponential"); (1%nat, "New")])
  (* SolverConfiguration.h:924-939 setFilterInterval *)
  | O_FilterInterval => Setter ["Filtering"; "Filter parameters"] "Filter interval" true (SetInt)
  (* SolverConfiguration.h:961-976 setExponentialFilterAlpha *)
  | O_ExponentialFilterAlpha => Setter ["Filtering"; "Filter parameters"] "Exponential alpha" true (SetDouble)
  (* SolverConfiguration.h:996-1011 setExponentialFilterS *)
  | O_ExponentialFilterS => Setter ["Filtering"; "Filter parameters"] "Exponential s" true (SetDouble)
  (* SolverConfiguration.h:1031-1046 setExponentialFilterNc *)
  | O_ExponentialFilterNc => Setter ["Filtering"; "Filter parameters"] "Exponential Nc" true (SetDouble)
  (* SolverConfiguration.h:1066-1072 setFilterDegreeByComponentSums *)
  | O_FilterDegreeByComponentSums => Setter ["Filtering"; "Filter parameters"] "Degree by component sums" false (SetBool)
  (* SolverConfiguration.h:1114-1144 setInitializationScheme *)
  | O_InitializationScheme => Setter ["Initialization"] "Initialization scheme" false (SetEnum [(1%nat, "Iterative"); (2%nat, "CompressibleIterative"); (3%nat, "Gradients"); (0%nat, "Equilibrium")])
  (* SolverConfiguration.h:1166-1184 setIterativeInitializationNumberOfIterations *)
  | O_IterativeInitializationNumberOfIterations => Setter ["Initialization"; "Iterative initialization stop condition"] "Number of iterations" true (SetInt)
  (* SolverConfiguration.h:1205-1221 setIterativeInitializationResidual *)
  | O_IterativeInitializationResidual => Setter ["Initialization"; "Iterative initialization stop condition"] "Residual" true (SetDouble)
  (* SolverConfiguration.h:1240-1252 setNumberOfTimeSteps *)
  | O_NumberOfTimeSteps => Setter ["Stop condition"] "Number of time steps" true (SetInt)
  (* SolverConfiguration.h:1271-1283 setSimulationEndTime *)
  | O_SimulationEndTime => Setter ["Stop condition"] "Simulation end time" true (SetDouble)
  (* SolverConfiguration.h:1302-1314 setConvergenceThreshold *)
  | O_ConvergenceThreshold => Setter ["Stop condition"] "Convergence threshold" true (SetDouble)
  (* SolverConfiguration.h:1333-1345 setOutputCheckpointInterval *)
  | O_OutputCheckpointInterval => Setter ["Output"] "Output checkpoint interval" true (SetInt)
  (* SolverConfiguration.h:1364-1376 setOutputTableInterval *)
  | O_OutputTableInterval => Setter ["Output"] "Output table interval" true (SetInt)
  (* SolverConfiguration.h:1395-1407 setOutputDirectory *)
  | O_OutputDirectory => Setter ["Output"] "Output directory" true (SetString)
  (* SolverConfiguration.h:1426-1438 setOutputSolutionInterval *)
  | O_OutputSolutionInterval => Setter ["Output"] "Output solution interval" true (SetInt)
  (* SolverConfiguration.h:1457-1469 setRestartAtIteration *)
  | O_RestartAtIteration => Setter ["Initialization"] "Restart at iteration" true (SetInt)
  (* SolverConfiguration.h:1490-1513 setSedgFluxType *)
  | O_SedgFluxType => Setter ["Advection"; "SEDG"] "Flux type" false (SetEnum [(0%nat, "Lax-Friedrichs"); (1%nat, "Central")])
  (* SolverConfiguration.h:1535-1550 setSedgOrderOfFiniteElement *)
  | O_SedgOrderOfFiniteElement => Setter ["Advection"; "SEDG"] "Order of finite element" true (SetInt)
  (* SolverConfiguration.h:1569-1581 setStencilScaling *)
  | O_StencilScaling => Setter ["General"] "Stencil scaling" true (SetDouble)
  (* SolverConfiguration.h:1624-1692 setStencil *)
  | O_Stencil => Setter ["General"] "Stencil" false (SetEnum [(0%nat, "D2Q9"); (1%nat, "D3Q19"); (8%nat, "D3Q13"); (2%nat, "D3Q15"); (9%nat, "D3Q21"); (3%nat, "D3Q27"); (4%nat, "D2Q19H"); (5%nat, "D2Q19V"); (6%nat, "D2Q777"); (7%nat, "D2Q25H"); (10%nat, "RD3Q27"); (11%nat, "D3Q45"); (12%nat, "D3Q77"); (13%nat, "D3V27")])
  (* SolverConfiguration.h:1715-1743 setTimeIntegrator *)
  | O_TimeIntegrator => Setter ["Advection"] "Time integrator" false (SetEnum [(0%nat, "Runge-Kutta 5-stage"); (1%nat, "Theta method"); (2%nat, "Exponential"); (3%nat, "Other")])
  (* SolverConfiguration.h:1764-1779 setThetaMethodTheta *)
  | O_ThetaMethodTheta => Setter ["Advection"; "Theta method"] "Theta" true (SetDouble)
  (* SolverConfiguration.h:1822-1890 setDealIntegrator *)
  | O_DealIntegrator => Setter ["Advection"; "Deal.II integrator"] "Runge Kutta scheme" false (SetEnum [(12%nat, "None"); (0%nat, "Forward Euler"); (1%nat, "RK 3rd order"); (2%nat, "RK Classic 4th order"); (3%nat, "Backward Euler"); (4%nat, "Implicit midpoint"); (5%nat, "Crank-Nicoloson"); (6%nat, "SDIRK 2 stages"); (7%nat, "Heun-Euler"); (8%nat, "Bogacki-Shampine"); (9%nat, "Dopri"); (10%nat, "Fehlberg"); (11%nat, "Cash-Karp")])
  (* SolverConfiguration.h:1925-1973 setDealLinearSolver *)
  | O_DealLinearSolver => Setter ["Advection"; "Deal.II linear solver"] "Linear solver" false (SetEnum [(0%nat, "Bicgstab"); (1%nat, "Cg"); (2%nat, "Fgmres"); (3%nat, "Gmres"); (4%nat, "Minres"); (5%nat, "Qmrs"); (6%nat, "Relaxation"); (7%nat, "Richardson")])
  (* SolverConfiguration.h:2128-2139 setCFL *)
  | O_CFL => Setter ["General"] "CFL" true (SetDouble)
  (* SolverConfiguration.h:2157-2168 setHeatCapacityRatioGamma *)
  | O_HeatCapacityRatioGamma => Setter ["General"] "Gamma" true (SetDouble)
  (* SolverConfiguration.h:2217-2228 setReferenceTemperature *)
  | O_ReferenceTemperature => Setter ["General"] "Reference temperature" true (SetDouble)
  (* SolverConfiguration.h:2295-2299 setWriteALogFile *)
  | O_WriteALogFile => Setter ["Output"] "Write a log file?" false (SetBool)
  (* SolverConfiguration.h:2318-2322 setSwitchOutputOff *)
  | O_SwitchOutputOff => Setter ["Output"] "Switch output off?" false (SetBool)
  (* SolverConfiguration.h:2344-2350 setOutputTurbulenceStatistics *)
  | O_OutputTurbulenceStatistics => Setter ["Output"; "Turbulence Statistics"] "Output turbulence statistics?" false (SetBool)
  (* SolverConfiguration.h:2373-2379 setOutputGlobalTurbulenceStatistics *)
  | O_OutputGlobalTurbulenceStatistics => Setter ["Output"; "Turbulence Statistics"] "Output global turbulence statistics?" false (SetBool)
  (* SolverConfiguration.h:2402-2408 setOutputCompressibleTurbulenceStatistics *)
  | O_OutputCompressibleTurbulenceStatistics => Setter ["Output"; "Turbulence Statistics"] "Output compressible turbulence statistics?" false (SetBool)
  (* SolverConfiguration.h:2430-2445 setWallNormalDirection *)
  | O_WallNormalDirection => Setter ["Output"; "Turbulence Statistics"] "Wall normal direction" true (SetInt)
  (* SolverConfiguration.h:2519-2523 setUserInteraction *)
  | O_UserInteraction => Setter ["Output"] "User interaction?" false (SetBool)
  (* SolverConfiguration.h:2550-2582 setRegularizationScheme *)
  | O_RegularizationScheme => Setter ["Filtering"] "Regularization" false (SetEnum [(0%nat, "No Regularization"); (1%nat, "Pseudo-entropy maximization"); (2%nat, "Zero high-order moments"); (3%nat, "Entropy maximization"); (4%nat, "Pseudo-entropy maximization with e")])
  end.

Definition getter_of (o : option_id) : getter_desc :=
  match o with
  (* SolverConfiguration.h:185-200 getAdvectionScheme *)
  | O_AdvectionScheme => Getter ["Advection"] "Advection scheme" (GetEnum [(Some "SEDG", 0%nat); (Some "Semi-Lagrangian", 1%nat)])
  (* SolverConfiguration.h:224-243 getSupportPoints *)
  | O_SupportPoints => Getter ["Advection"] "Support points" (GetEnum [(Some "Gauss-Lobatto", 0%nat); (Some "Gauss-Lobatto-Chebyshev", 2%nat); (Some "Gauss-Chebyshev", 1%nat); (Some "Equidistant", 3%nat)])
  (* SolverConfiguration.h:275-290 getQuadrature *)
  | O_Quadrature => Getter ["Advection"] "Quadrature" (GetEnum [(Some "Gauss-Lobatto", 0%nat); (Some "Gauss", 1%nat)])
  (* SolverConfiguration.h:314-351 getCollisionScheme *)
  | O_CollisionScheme => Getter ["Collision"] "Collision scheme" (GetEnum [(Some "BGK standard", 0%nat); (Some "BGK standard transformed", 1%nat); (Some "BGK steady state", 2%nat); (Some "BGK multiphase", 3%nat); (Some "BGK incompressible", 4%nat); (Some "BGK regularized", 12%nat); (Some "MRT standard", 5%nat); (Some "MRT entropic", 6%nat); (Some "Entropic stabilized", 7%nat); (Some "KBC standard", 8%nat); (Some "KBC central", 9%nat); (Some "BGK multi am4", 10%nat); (Some "BGK multi bdf2", 11%nat)])
  (* SolverConfiguration.h:419-436 getMRTBasis *)
  | O_MRTBasis => Getter ["Collision"] "MRT basis" (GetEnum [(Some "Dellar D2Q9", 0%nat); (Some "Lallemand D2Q9", 1%nat); (Some "DHumieres D3Q19", 2%nat)])
  (* SolverConfiguration.h:464-481 getMRTRelaxationTimes *)
  | O_MRTRelaxationTimes => Getter ["Collision"] "MRT relaxation times" (GetEnum [(Some "Dellar D2Q9 Only N", 1%nat); (Some "Full", 0%nat); (None, 2%nat)])
  (* SolverConfiguration.h:511-532 getEquilibriumScheme *)
  | O_EquilibriumScheme => Getter ["Collision"] "Equilibrium scheme" (GetEnum [(Some "BGK equilibrium", 0%nat); (Some "Incompressible equilibrium", 2%nat); (Some "Quartic equilibrium", 1%nat); (Some "Steady-state equilibrium", 3%nat); (Some "Entropic equilibrium", 4%nat)])
  (* SolverConfiguration.h:570-588 getBGKSteadyStateGamma *)
  | O_BGKSteadyStateGamma => Getter ["Collision"; "BGK parameters"] "Steady state gamma" (GetDouble)
  (* SolverConfiguration.h:607-626 getPseudopotentialType *)
  | O_PseudopotentialType => Getter ["Collision"; "BGK parameters"] "Pseudopotential type" (GetEnum [(Some "ShanChen", 0%nat); (Some "Sukop", 1%nat); (Some "CarnahanStarling", 2%nat)])
  (* SolverConfiguration.h:657-675 getBGKPseudopotentialG *)
  | O_BGKPseudopotentialG => Getter ["Collision"; "BGK parameters"] "Pseudopotential G" (GetDouble)
  (* SolverConfiguration.h:694-712 getBGKPseudopotentialT *)
  | O_BGKPseudopotentialT => Getter ["Collision"; "BGK parameters"] "Pseudopotential T" (GetDouble)
  (* SolverConfiguration.h:731-751 getForcingScheme *)
  | O_ForcingScheme => Getter ["Collision"; "BGK parameters"] "Forcing scheme" (GetEnum [(Some "No Forcing", 0%nat); (Some "Shifting Velocity", 1%nat); (Some "Exact Difference", 2%nat); (Some "Guo", 3%nat)])
  (* SolverConfiguration.h:786-801 getCommandLineVerbosity *)
  | O_CommandLineVerbosity => Getter ["Output"] "Command line verbosity" (GetSize)
  (* SolverConfiguration.h:817-832 hasAnalyticSolution *)
  | O_HasAnalyticSolution => Getter ["General"] "Has analytic solution?" (GetBool)
  (* SolverConfiguration.h:845-860 isFiltering *)
  | O_Filtering => Getter ["Filtering"] "Apply filtering?" (GetBool)
  (* SolverConfiguration.h:867-882 isVmultLimiter *)
  | O_VmultLimiter => Getter ["Filtering"] "Apply vmult limiter?" (GetBool)
  (* SolverConfiguration.h:906-922 getFilteringScheme *)
  | O_FilteringScheme => Getter ["Filtering"] "Filtering scheme" (GetEnum [(Some "Exponential", 0%nat); (Some "New", 1%nat)])
  (* SolverConfiguration.h:941-959 getFilterInterval *)
  | O_FilterInterval => Getter ["Filtering"; "Filter parameters"] "Filter interval" (GetSizeTruncated)
  (* SolverConfiguration.h:977-995 getExponentialFilterAlpha *)
  | O_ExponentialFilterAlpha => Getter ["Filtering"; "Filter parameters"] "Exponential alpha" (GetDouble)
  (* SolverConfiguration.h:1012-1029 getExponentialFilterS *)
  | O_ExponentialFilterS => Getter ["Filtering"; "Filter parameters"] "Exponential s" (GetDouble)
  (* SolverConfiguration.h:1047-1064 getExponentialFilterNc *)
  | O_ExponentialFilterNc => Getter ["Filtering"; "Filter parameters"] "Exponential Nc" (GetSizeTruncated)
  (* SolverConfiguration.h:1073-1091 isFilterDegreeByComponentSums *)
  | O_FilterDegreeByComponentSums => Getter ["Filtering"; "Filter parameters"] "Degree by component sums" (GetBool)
  (* SolverConfiguration.h:1093-1112 getInitializationScheme *)
  | O_InitializationScheme => Getter ["Initialization"] "Initialization scheme" (GetEnum [(Some "Iterative", 1%nat); (Some "CompressibleIterative", 2%nat); (Some "Gradients", 3%nat); (Some "Equilibrium", 0%nat)])
  (* SolverConfiguration.h:1146-1164 getIterativeInitializationNumberOfIterations *)
  | O_IterativeInitializationNumberOfIterations => Getter ["Initialization"; "Iterative initialization stop condition"] "Number of iterations" (GetSize)
  (* SolverConfiguration.h:1186-1203 getIterativeInitializationResidual *)
  | O_IterativeInitializationResidual => Getter ["Initialization"; "Iterative initialization stop condition"] "Residual" (GetDouble)
  (* SolverConfiguration.h:1223-1238 getNumberOfTimeSteps *)
  | O_NumberOfTimeSteps => Getter ["Stop condition"] "Number of time steps" (GetSize)
  (* SolverConfiguration.h:1254-1269 getSimulationEndTime *)
  | O_SimulationEndTime => Getter ["Stop condition"] "Simulation end time" (GetDouble)
  (* SolverConfiguration.h:1285-1300 getConvergenceThreshold *)
  | O_ConvergenceThreshold => Getter ["Stop condition"] "Convergence threshold" (GetDouble)
  (* SolverConfiguration.h:1316-1331 getOutputCheckpointInterval *)
  | O_OutputCheckpointInterval => Getter ["Output"] "Output checkpoint interval" (GetSize)
  (* SolverConfiguration.h:1347-1362 getOutputTableInterval *)
  | O_OutputTableInterval => Getter ["Output"] "Output table interval" (GetSize)
  (* SolverConfiguration.h:1378-1393 getOutputDirectory *)
  | O_OutputDirectory => Getter ["Output"] "Output directory" (GetString)
  (* SolverConfiguration.h:1409-1424 getOutputSolutionInterval *)
  | O_OutputSolutionInterval => Getter ["Output"] "Output solution interval" (GetSize)
  (* SolverConfiguration.h:1440-1455 getRestartAtIteration *)
  | O_RestartAtIteration => Getter ["Initialization"] "Restart at iteration" (GetSize)
  (* SolverConfiguration.h:1471-1488 getSedgFluxType *)
  | O_SedgFluxType => Getter ["Advection"; "SEDG"] "Flux type" (GetEnum [(Some "Lax-Friedrichs", 0%nat); (Some "Central", 1%nat)])
  (* SolverConfiguration.h:1515-1533 getSedgOrderOfFiniteElement *)
  | O_SedgOrderOfFiniteElement => Getter ["Advection"; "SEDG"] "Order of finite element" (GetSize)
  (* SolverConfiguration.h:1552-1567 getStencilScaling *)
  | O_StencilScaling => Getter ["General"] "Stencil scaling" (GetDouble)
  (* SolverConfiguration.h:1583-1622 getStencil *)
  | O_Stencil => Getter ["General"] "Stencil" (GetEnum [(Some "D2Q9", 0%nat); (Some "D3Q19", 1%nat); (Some "D3Q13", 8%nat); (Some "D3Q15", 2%nat); (Some "D3Q21", 9%nat); (Some "D3Q27", 3%nat); (Some "D2Q19H", 4%nat); (Some "D2Q19V", 5%nat); (Some "D2Q777", 6%nat); (Some "D2Q25H", 7%nat); (Some "RD3Q27", 10%nat); (Some "D3Q45", 11%nat); (Some "D3Q77", 12%nat); (Some "D3V27", 13%nat)])
  (* SolverConfiguration.h:1694-1713 getTimeIntegrator *)
  | O_TimeIntegrator => Getter ["Advection"] "Time integrator" (GetEnum [(Some "Runge-Kutta 5-stage", 0%nat); (Some "Theta method", 1%nat); (Some "Exponential", 2%nat); (Some "Other", 3%nat)])
  (* SolverConfiguration.h:1745-1762 getThetaMethodTheta *)
  | O_ThetaMethodTheta => Getter ["Advection"; "Theta method"] "Theta" (GetDouble)
  (* SolverConfiguration.h:1781-1820 getDealIntegrator *)
  | O_DealIntegrator => Getter ["Advection"; "Deal.II integrator"] "Runge Kutta scheme" (GetEnum [(Some "None", 12%nat); (Some "Forward Euler", 0%nat); (Some "RK 3rd order", 1%nat); (Some "RK Classic 4th order", 2%nat); (Some "Backward Euler", 3%nat); (Some "Implicit midpoint", 4%nat); (Some "Crank-Nicoloson", 5%nat); (Some "SDIRK 2 stages", 6%nat); (Some "Heun-Euler", 7%nat); (Some "Bogacki-Shampine", 8%nat); (Some "Dopri", 9%nat); (Some "Fehlberg", 10%nat); (Some "Cash-Karp", 11%nat)])
  (* SolverConfiguration.h:1892-1923 getDealLinearSolver *)
  | O_DealLinearSolver => Getter ["Advection"; "Deal.II linear solver"] "Linear solver" (GetEnum [(Some "Bicgstab", 0%nat); (Some "Cg", 1%nat); (Some "Fgmres", 2%nat); (Some "Gmres", 3%nat); (Some "Minres", 4%nat); (Some "Qmrs", 5%nat); (Some "Relaxation", 6%nat); (Some "Richardson", 7%nat)])
  (* SolverConfiguration.h:2112-2126 getCFL *)
  | O_CFL => Getter ["General"] "CFL" (GetDouble)
  (* SolverConfiguration.h:2141-2155 getHeatCapacityRatioGamma *)
  | O_HeatCapacityRatioGamma => Getter ["General"] "Gamma" (GetDouble)
  (* SolverConfiguration.h:2201-2215 getReferenceTemperature *)
  | O_ReferenceTemperature => Getter ["General"] "Reference temperature" (GetDouble)
  (* SolverConfiguration.h:2278-2293 isWriteALogFile *)
  | O_WriteALogFile => Getter ["Output"] "Write a log file?" (GetBool)
  (* SolverConfiguration.h:2301-2316 isSwitchOutputOff *)
  | O_SwitchOutputOff => Getter ["Output"] "Switch output off?" (GetBool)
  (* SolverConfiguration.h:2324-2342 isOutputTurbulenceStatistics *)
  | O_OutputTurbulenceStatistics => Getter ["Output"; "Turbulence Statistics"] "Output turbulence statistics?" (GetBool)
  (* SolverConfiguration.h:2352-2371 isOutputGlobalTurbulenceStatistics *)
  | O_OutputGlobalTurbulenceStatistics => Getter ["Output"; "Turbulence Statistics"] "Output global turbulence statistics?" (GetBool)
  (* SolverConfiguration.h:2381-2400 isOutputCompressibleTurbulenceStatistics *)
  | O_OutputCompressibleTurbulenceStatistics => Getter ["Output"; "Turbulence Statistics"] "Output compressible turbulence statistics?" (GetBool)
  (* SolverConfiguration.h:2410-2428 getWallNormalDirection *)
  | O_WallNormalDirection => Getter ["Output"; "Turbulence Statistics"] "Wall normal direction" (GetSize)
  (* SolverConfiguration.h:2502-2517 isUserInteraction *)
  | O_UserInteraction => Getter ["Output"] "User interaction?" (GetBool)
  (* SolverConfiguration.h:2525-2548 getRegularizationScheme *)
  | O_RegularizationScheme => Getter ["Filtering"] "Regularization" (GetEnum [(Some "No Regularization", 0%nat); (Some "Pseudo-entropy maximization", 1%nat); (Some "Zero high-order moments", 2%nat); (Some "Entropy maximization", 3%nat); (Some "Pseudo-entropy maximization with e", 4%nat)])
  end.

Definition read_only_getter_of (o : read_only_id) : getter_desc :=
  match o with
  (* SolverConfiguration.h:1992-2010 getEmbeddedDealIntegratorCoarsenParameter *)
  | G_EmbeddedDealIntegratorCoarsenParameter => Getter ["Advection"; "Embedded Parameters"] "Coarsen parameter" (GetDouble)
  (* SolverConfiguration.h:2012-2030 getEmbeddedDealIntegratorRefinementParameter *)
  | G_EmbeddedDealIntegratorRefinementParameter => Getter ["Advection"; "Embedded Parameters"] "Refinement parameter" (GetDouble)
  (* SolverConfiguration.h:2032-2050 getEmbeddedDealIntegratorMinimumCFL *)
  | G_EmbeddedDealIntegratorMinimumCFL => Getter ["Advection"; "Embedded Parameters"] "Minimum CFL" (GetDouble)
  (* SolverConfiguration.h:2052-2070 getEmbeddedDealIntegratorMaximumCFL *)
  | G_EmbeddedDealIntegratorMaximumCFL => Getter ["Advection"; "Embedded Parameters"] "Maximum CFL" (GetDouble)
  (* SolverConfiguration.h:2072-2090 getEmbeddedDealIntegratorRefinementTolerance *)
  | G_EmbeddedDealIntegratorRefinementTolerance => Getter ["Advection"; "Embedded Parameters"] "Refinement tolerance" (GetDouble)
  (* SolverConfiguration.h:2092-2110 getEmbeddedDealIntegratorCoarsenTolerance *)
  | G_EmbeddedDealIntegratorCoarsenTolerance => Getter ["Advection"; "Embedded Parameters"] "Coarsen tolerance" (GetDouble)
  (* SolverConfiguration.h:2171-2185 getPrandtlNumber *)
  | G_PrandtlNumber => Getter ["General"] "Prandtl" (GetDouble)
  (* SolverConfiguration.h:2244-2259 isPrandtlNumberSet *)
  | G_PrandtlNumberSet => Getter ["General"] "Prandtl number set" (GetBool)
  (* SolverConfiguration.h:2261-2276 isSutherlandLawSet *)
  | G_SutherlandLawSet => Getter ["General"] "Sutherland law set" (GetBool)
  end.

(** Number of enumerators of the argument type of an enum setter (ConfigNames.h, Stencil.h); 0 for other setters. *)
Definition enum_size (o : option_id) : nat :=
  match o with
  | O_AdvectionScheme => 2 (* AdvectionSchemeName *)
  | O_SupportPoints => 4 (* SupportPointsName *)
  | O_Quadrature => 2 (* QuadratureName *)
  | O_CollisionScheme => 13 (* CollisionSchemeName *)
  | O_MRTBasis => 3 (* MomentBasis *)
  | O_MRTRelaxationTimes => 3 (* RelaxMode *)
  | O_EquilibriumScheme => 5 (* EquilibriumSchemeName *)
  | O_PseudopotentialType => 3 (* PseudopotentialType *)
  | O_ForcingScheme => 4 (* ForceType *)
  | O_FilteringScheme => 2 (* FilteringSchemeName *)
  | O_InitializationScheme => 4 (* InitializationSchemeName *)
  | O_SedgFluxType => 2 (* FluxTypeName *)
  | O_Stencil => 14 (* StencilType *)
  | O_TimeIntegrator => 4 (* TimeIntegratorName *)
  | O_DealIntegrator => 13 (* DealIntegratorName *)
  | O_DealLinearSolver => 8 (* DealSolverName *)
  | O_RegularizationScheme => 5 (* RegularizationSchemeName *)
  | _ => 0
  end%nat.

Definition all_options : list option_id :=
  [O_AdvectionScheme; O_SupportPoints; O_Quadrature; O_CollisionScheme; O_MRTBasis; O_MRTRelaxationTimes; O_EquilibriumScheme; O_BGKSteadyStateGamma; O_PseudopotentialType; O_BGKPseudopotentialG; O_BGKPseudopotentialT; O_ForcingScheme; O_CommandLineVerbosity; O_HasAnalyticSolution; O_Filtering; O_VmultLimiter; O_FilteringScheme; O_FilterInterval; O_ExponentialFilterAlpha; O_ExponentialFilterS; O_ExponentialFilterNc; O_FilterDegreeByComponentSums; O_InitializationScheme; O_IterativeInitializationNumberOfIterations; O_IterativeInitializationResidual; O_NumberOfTimeSteps; O_SimulationEndTime; O_ConvergenceThreshold; O_OutputCheckpointInterval; O_OutputTableInterval; O_OutputDirectory; O_OutputSolutionInterval; O_RestartAtIteration; O_SedgFluxType; O_SedgOrderOfFiniteElement; O_StencilScaling; O_Stencil; O_TimeIntegrator; O_ThetaMethodTheta; O_DealIntegrator; O_DealLinearSolver; O_CFL; O_HeatCapacityRatioGamma; O_ReferenceTemperature; O_WriteALogFile; O_SwitchOutputOff; O_OutputTurbulenceStatistics; O_OutputGlobalTurbulenceStatistics; O_OutputCompressibleTurbulenceStatistics; O_WallNormalDirection; O_UserInteraction; O_RegularizationScheme].
