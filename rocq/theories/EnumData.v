(** GENERATED by tools/gen_enums.py from utilities/ConfigNames.h, stencils/Stencil.h,
    utilities/Logging.h; do not edit.  The numbers of the enumerators. *)

(** ConfigNames.h:20-24 RelaxMode *)
Definition N_RELAX_FULL : nat := 0.
Definition N_DELLAR_RELAX_ONLY_N : nat := 1.
Definition N_RELAX_DHUMIERES_PAPER : nat := 2.

(** ConfigNames.h:29-33 MomentBasis *)
Definition N_DELLAR_D2Q9 : nat := 0.
Definition N_LALLEMAND_D2Q9 : nat := 1.
Definition N_DHUMIERES_D3Q19 : nat := 2.

(** ConfigNames.h:39-41 AdvectionSchemeName *)
Definition N_SEDG : nat := 0.
Definition N_SEMI_LAGRANGIAN : nat := 1.

(** ConfigNames.h:46-61 CollisionSchemeName *)
Definition N_BGK_STANDARD : nat := 0.
Definition N_BGK_STANDARD_TRANSFORMED : nat := 1.
Definition N_BGK_STEADY_STATE : nat := 2.
Definition N_BGK_MULTIPHASE : nat := 3.
Definition N_BGK_INCOMPRESSIBLE : nat := 4.
Definition N_MRT_STANDARD : nat := 5.
Definition N_MRT_ENTROPIC : nat := 6.
Definition N_ENTROPIC_STABILIZED : nat := 7.
Definition N_KBC_STANDARD : nat := 8.
Definition N_KBC_CENTRAL : nat := 9.
Definition N_BGK_MULTI_AM4 : nat := 10.
Definition N_BGK_MULTI_BDF2 : nat := 11.
Definition N_BGK_REGULARIZED : nat := 12.

(** ConfigNames.h:63-69 EquilibriumSchemeName *)
Definition N_BGK_EQUILIBRIUM : nat := 0.
Definition N_QUARTIC_EQUILIBRIUM : nat := 1.
Definition N_INCOMPRESSIBLE_EQUILIBRIUM : nat := 2.
Definition N_STEADYSTATE_EQUILIBRIUM : nat := 3.
Definition N_ENTROPIC_EQUILIBRIUM : nat := 4.

(** ConfigNames.h:78-80 TimeIntegratorName *)
Definition N_RUNGE_KUTTA_5STAGE : nat := 0.
Definition N_THETA_METHOD : nat := 1.
Definition N_EXPONENTIAL : nat := 2.
Definition N_OTHER : nat := 3.

(** ConfigNames.h:82-96 DealIntegratorName *)
Definition N_FORWARD_EULER : nat := 0.
Definition N_RK_THIRD_ORDER : nat := 1.
Definition N_RK_CLASSIC_FOURTH_ORDER : nat := 2.
Definition N_BACKWARD_EULER : nat := 3.
Definition N_IMPLICIT_MIDPOINT : nat := 4.
Definition N_CRANK_NICOLSON : nat := 5.
Definition N_SDIRK_TWO_STAGES : nat := 6.
Definition N_HEUN_EULER : nat := 7.
Definition N_BOGACKI_SHAMPINE : nat := 8.
Definition N_DOPRI : nat := 9.
Definition N_FEHLBERG : nat := 10.
Definition N_CASH_KARP : nat := 11.
Definition N_NONE : nat := 12.

(** ConfigNames.h:98-100 DealSolverName *)
Definition N_BICGSTAB : nat := 0.
Definition N_CG : nat := 1.
Definition N_FGMRES : nat := 2.
Definition N_GMRES : nat := 3.
Definition N_MINRES : nat := 4.
Definition N_QMRS : nat := 5.
Definition N_RELAXATION : nat := 6.
Definition N_RICHARDSON : nat := 7.

(** ConfigNames.h:105-107 FluxTypeName *)
Definition N_LAX_FRIEDRICHS : nat := 0.
Definition N_CENTRAL : nat := 1.

(** ConfigNames.h:112-117 InitializationSchemeName *)
Definition N_EQUILIBRIUM : nat := 0.
Definition N_ITERATIVE : nat := 1.
Definition N_COMPRESSIBLE_ITERATIVE : nat := 2.
Definition N_GRADIENTS : nat := 3.

(** ConfigNames.h:119-121 PseudopotentialType *)
Definition N_SHAN_CHEN : nat := 0.
Definition N_SUKOP : nat := 1.
Definition N_CARNAHAN_STARLING : nat := 2.

(** ConfigNames.h:123-128 ForceType *)
Definition N_NO_FORCING : nat := 0.
Definition N_SHIFTING_VELOCITY : nat := 1.
Definition N_EXACT_DIFFERENCE : nat := 2.
Definition N_GUO : nat := 3.

(** ConfigNames.h:130-132 FilteringSchemeName *)
Definition N_EXPONENTIAL_FILTER : nat := 0.
Definition N_NEW_FILTER : nat := 1.

(** ConfigNames.h:134-136 SupportPointsName *)
Definition N_GAUSS_LOBATTO_POINTS : nat := 0.
Definition N_GAUSS_CHEBYSHEV_POINTS : nat := 1.
Definition N_GAUSS_LOBATTO_CHEBYSHEV_POINTS : nat := 2.
Definition N_EQUIDISTANT_POINTS : nat := 3.

(** ConfigNames.h:138-140 QuadratureName *)
Definition N_QGAUSS_LOBATTO : nat := 0.
Definition N_QGAUSS : nat := 1.

(** ConfigNames.h:142-144 RegularizationSchemeName *)
Definition N_NO_REGULARIZATION : nat := 0.
Definition N_PSEUDO_ENTROPY_MAXIMIZATION : nat := 1.
Definition N_ZERO_HIGH_ORDER_MOMENTS : nat := 2.
Definition N_ENTROPY_MAXIMIZATION : nat := 3.
Definition N_PSEUDO_ENTROPY_MAXIMIZATION_WITH_E : nat := 4.

(** Stencil.h:21-48 StencilType *)
Definition N_Stencil_D2Q9 : nat := 0.
Definition N_Stencil_D3Q19 : nat := 1.
Definition N_Stencil_D3Q15 : nat := 2.
Definition N_Stencil_D3Q27 : nat := 3.
Definition N_Stencil_D2Q19H : nat := 4.
Definition N_Stencil_D2Q19V : nat := 5.
Definition N_Stencil_D2Q777 : nat := 6.
Definition N_Stencil_D2Q25H : nat := 7.
Definition N_Stencil_D3Q13 : nat := 8.
Definition N_Stencil_D3Q21 : nat := 9.
Definition N_Stencil_RD3Q27 : nat := 10.
Definition N_Stencil_D3Q45 : nat := 11.
Definition N_Stencil_D3Q77 : nat := 12.
Definition N_Stencil_D3V27 : nat := 13.

(** Logging.h:22-32 LogLevel *)
Definition N_SILENT : nat := 0.
Definition N_ERROR : nat := 1.
Definition N_WARNING : nat := 2.
Definition N_WELCOME : nat := 3.
Definition N_BASIC : nat := 4.
Definition N_DETAILED : nat := 5.
Definition N_DEAL_II_BASIC : nat := 6.
Definition N_DEAL_II_DETAILED : nat := 7.
Definition N_ALL : nat := 8.
