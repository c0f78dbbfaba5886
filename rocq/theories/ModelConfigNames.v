(** Model of /repo/src/library/natrium/utilities/ConfigNames.h: the selection enums. *)

(** ConfigNames.h:20-24 *)
Inductive RelaxMode := RELAX_FULL | DELLAR_RELAX_ONLY_N | RELAX_DHUMIERES_PAPER.

(** ConfigNames.h:29-33 *)
Inductive MomentBasis := DELLAR_D2Q9 | LALLEMAND_D2Q9 | DHUMIERES_D3Q19.

(** ConfigNames.h:39-41 *)
Inductive AdvectionSchemeName := SEDG | SEMI_LAGRANGIAN.

(** ConfigNames.h:46-61 *)
Inductive CollisionSchemeName :=
| BGK_STANDARD | BGK_STANDARD_TRANSFORMED | BGK_STEADY_STATE | BGK_MULTIPHASE
| BGK_INCOMPRESSIBLE | MRT_STANDARD | MRT_ENTROPIC | ENTROPIC_STABILIZED
| KBC_STANDARD | KBC_CENTRAL | BGK_MULTI_AM4 | BGK_MULTI_BDF2 | BGK_REGULARIZED.

(** ConfigNames.h:63-69 *)
Inductive EquilibriumSchemeName :=
| BGK_EQUILIBRIUM | QUARTIC_EQUILIBRIUM | INCOMPRESSIBLE_EQUILIBRIUM
| STEADYSTATE_EQUILIBRIUM | ENTROPIC_EQUILIBRIUM.

(** ConfigNames.h:78-80 *)
Inductive TimeIntegratorName := RUNGE_KUTTA_5STAGE | THETA_METHOD | EXPONENTIAL | OTHER.

(** ConfigNames.h:82-96 *)
Inductive DealIntegratorName :=
| FORWARD_EULER | RK_THIRD_ORDER | RK_CLASSIC_FOURTH_ORDER | BACKWARD_EULER
| IMPLICIT_MIDPOINT | CRANK_NICOLSON | SDIRK_TWO_STAGES | HEUN_EULER
| BOGACKI_SHAMPINE | DOPRI | FEHLBERG | CASH_KARP | NONE.

(** ConfigNames.h:98-100 *)
Inductive DealSolverName := BICGSTAB | CG | FGMRES | GMRES | MINRES | QMRS | RELAXATION | RICHARDSON.

(** ConfigNames.h:105-107 *)
Inductive FluxTypeName := LAX_FRIEDRICHS | CENTRAL.

(** ConfigNames.h:112-117 *)
Inductive InitializationSchemeName := EQUILIBRIUM | ITERATIVE | COMPRESSIBLE_ITERATIVE | GRADIENTS.

(** ConfigNames.h:119-121 *)
Inductive PseudopotentialType := SHAN_CHEN | SUKOP | CARNAHAN_STARLING.

(** ConfigNames.h:123-128 *)
Inductive ForceType := NO_FORCING | SHIFTING_VELOCITY | EXACT_DIFFERENCE | GUO.

(** ConfigNames.h:130-132 *)
Inductive FilteringSchemeName := EXPONENTIAL_FILTER | NEW_FILTER.

(** ConfigNames.h:134-136 *)
Inductive SupportPointsName :=
| GAUSS_LOBATTO_POINTS | GAUSS_CHEBYSHEV_POINTS | GAUSS_LOBATTO_CHEBYSHEV_POINTS | EQUIDISTANT_POINTS.

(** ConfigNames.h:138-140 *)
Inductive QuadratureName := QGAUSS_LOBATTO | QGAUSS.

(** ConfigNames.h:142-144 *)
Inductive RegularizationSchemeName :=
| NO_REGULARIZATION | PSEUDO_ENTROPY_MAXIMIZATION | ZERO_HIGH_ORDER_MOMENTS
| ENTROPY_MAXIMIZATION | PSEUDO_ENTROPY_MAXIMIZATION_WITH_E.
