(** The documented command line (the help texts, CommandLineParser.cpp:16-67, and the class
    documentation, CommandLineParser.h:53-79). *)
From Coq Require Import String.
From Verif Require Import Prelude ModelStencils SpecText ConfigTypes ConfigData EnumData ModelConfig SpecConfig ModelCommandLine.
Open Scope R_scope.
Local Open Scope string_scope.

(** ** Command lines *)

(** The values have the types of the predefined options; integers are ints. *)
Definition parsed (a : arguments) : Prop :=
  forall d v, In d (ps_defs new_parser) -> a (df_name d) = Some v ->
    type_of v = df_type d /\ (forall z, v = AInt z -> - 2 ^ 31 <= z < 2 ^ 31)%Z.

(** The command line with a single option. *)
Definition only (name : string) (v : aval) : arguments := fun n => if String.eqb n name then Some v else None.
(** ... and with one more. *)
Definition also (name : string) (v : aval) (a : arguments) : arguments := fun n => if String.eqb n name then Some v else a n.

(** ** Enumerated options *)

Definition integrators : list (string * (nat * nat)) :=
  [("rk4", (N_RUNGE_KUTTA_5STAGE, N_NONE)); ("theta", (N_THETA_METHOD, N_NONE)); ("exp", (N_EXPONENTIAL, N_NONE));
   ("ee", (N_OTHER, N_FORWARD_EULER)); ("rk3", (N_OTHER, N_RK_THIRD_ORDER)); ("rk4_2", (N_OTHER, N_RK_CLASSIC_FOURTH_ORDER));
   ("ie", (N_OTHER, N_BACKWARD_EULER)); ("midpoint", (N_OTHER, N_IMPLICIT_MIDPOINT)); ("cn", (N_OTHER, N_CRANK_NICOLSON));
   ("sdirk", (N_OTHER, N_SDIRK_TWO_STAGES)); ("heun-euler", (N_OTHER, N_HEUN_EULER)); ("bogacki", (N_OTHER, N_BOGACKI_SHAMPINE));
   ("dopri", (N_OTHER, N_DOPRI)); ("fehlberg", (N_OTHER, N_FEHLBERG)); ("cash-karp", (N_OTHER, N_CASH_KARP))].

(** The options with a list of documented values, and what the values mean. *)
Definition one (o : option_id) (l : list (string * nat)) : list (string * list (option_id * nat)) :=
  map (fun x => (fst x, [(o, snd x)])) l.
Definition documented (name : string) : list (string * list (option_id * nat)) :=
  if String.eqb name "streaming" then one O_AdvectionScheme [("sedg", N_SEDG); ("sl", N_SEMI_LAGRANGIAN)]
  else if String.eqb name "collision" then one O_CollisionScheme
    [("bgk", N_BGK_STANDARD); ("bgkt", N_BGK_STANDARD_TRANSFORMED); ("inc", N_BGK_INCOMPRESSIBLE); ("pp", N_BGK_MULTIPHASE);
     ("ss", N_BGK_STEADY_STATE); ("mrt", N_MRT_STANDARD); ("kbcs", N_KBC_STANDARD); ("kbcc", N_KBC_CENTRAL);
     ("reg", N_BGK_REGULARIZED); ("am4", N_BGK_MULTI_AM4); ("bdf2", N_BGK_MULTI_BDF2); ("est", N_ENTROPIC_STABILIZED)]
  else if String.eqb name "integrator" then
    map (fun x => (fst x, [(O_TimeIntegrator, fst (snd x)); (O_DealIntegrator, snd (snd x))])) integrators
  else if String.eqb name "equilibrium" then one O_EquilibriumScheme [("bgk", N_BGK_EQUILIBRIUM); ("quartic", N_QUARTIC_EQUILIBRIUM)]
  else if String.eqb name "regularization" then one O_RegularizationScheme
    [("no", N_NO_REGULARIZATION); ("pem", N_PSEUDO_ENTROPY_MAXIMIZATION); ("zero", N_ZERO_HIGH_ORDER_MOMENTS);
     ("em", N_ENTROPY_MAXIMIZATION); ("pemwe", N_PSEUDO_ENTROPY_MAXIMIZATION_WITH_E)]
  else if String.eqb name "support-points" then one O_SupportPoints
    [("gll", N_GAUSS_LOBATTO_POINTS); ("glc", N_GAUSS_LOBATTO_CHEBYSHEV_POINTS); ("gc", N_GAUSS_CHEBYSHEV_POINTS); ("equi", N_EQUIDISTANT_POINTS)]
  else if String.eqb name "stencil" then one O_Stencil
    [("d2q9", N_Stencil_D2Q9); ("d3q19", N_Stencil_D3Q19); ("d3q15", N_Stencil_D3Q15); ("d3q27", N_Stencil_D3Q27);
     ("d2q19v", N_Stencil_D2Q19V); ("d2q19h", N_Stencil_D2Q19H); ("d2q777", N_Stencil_D2Q777); ("d2q25h", N_Stencil_D2Q25H);
     ("d3q45", N_Stencil_D3Q45); ("d3q77", N_Stencil_D3Q77); ("d3v27", N_Stencil_D3V27)]
  else if String.eqb name "init" then one O_InitializationScheme [("equi", N_EQUILIBRIUM); ("iter", N_ITERATIVE)]
  else if String.eqb name "mrt-basis" then one O_MRTBasis
    [("dellar-d2q9", N_DELLAR_D2Q9); ("lallemand-d2q9", N_LALLEMAND_D2Q9); ("dhumieres-d3q19", N_DHUMIERES_D3Q19)]
  else if String.eqb name "mrt-relax" then one O_MRTRelaxationTimes
    [("full", N_RELAX_FULL); ("dellar-only-N", N_DELLAR_RELAX_ONLY_N); ("dhumieres-paper", N_RELAX_DHUMIERES_PAPER)]
  else [].
Definition enumerated (name : string) : Prop := documented name <> [].

(** Values that are not documented, but accepted. *)
Definition undocumented (name : string) : list (string * list (option_id * nat)) :=
  if String.eqb name "stencil" then one O_Stencil [("d3q21", N_Stencil_D3Q21); ("d3q13", N_Stencil_D3Q13); ("rd3q27", N_Stencil_RD3Q27)]
  else [].
Definition accepted (name : string) : list (string * list (option_id * nat)) := (documented name ++ undocumented name)%list.

Definition value_of (table : list (string * list (option_id * nat))) (s : string) : option (list (option_id * nat)) :=
  option_map snd (find (fun x => String.eqb s (fst x)) table).

(** The numbers of the integrators in the help text of --integrator. *)
Definition integrator_number (k : Z) : option string :=
  match k with
  | 1 => Some "rk4" | 2 => Some "theta" | 3 => Some "exp" | 4 => Some "ee" | 5 => Some "rk3" | 6 => Some "rk4_2" | 7 => Some "ie"
  | 8 => Some "midpoint" | 9 => Some "cn" | 10 => Some "sdirk" | 11 => Some "heun-euler" | 12 => Some "bogacki" | 13 => Some "dopri"
  | 14 => Some "fehlberg" | 15 => Some "cash-karp" | _ => None
  end%Z.

(** ** What an option asks for *)

Definition enums (l : list (option_id * nat)) : list (option_id * cval) := map (fun x => (fst x, VEnum (snd x))) l.

Definition on : option_id * cval := (O_SwitchOutputOff, VBool false).
(** The numeric and other options. *)
Definition plain (name : string) (v : aval) : list (option_id * cval) :=
  match v with
  | AFlag => if String.eqb name "output-on" then [on]
             else if String.eqb name "verbose" then [(O_CommandLineVerbosity, VInt (Z.of_nat N_ALL)); on]
             else []
  | AInt z => if String.eqb name "order-fe" then [(O_SedgOrderOfFiniteElement, VInt z)]
              else if String.eqb name "output-sol" then [(O_OutputSolutionInterval, VInt z); on]
              else if String.eqb name "output-chk" then [(O_OutputCheckpointInterval, VInt z); on]
              else if String.eqb name "output-tab" then [(O_OutputTableInterval, VInt z); on]
              else if String.eqb name "init-niter" then [(O_IterativeInitializationNumberOfIterations, VInt z)]
              else []
  | ADouble x => if String.eqb name "cfl" then [(O_CFL, VDouble x)]
                 else if String.eqb name "scaling" then [(O_StencilScaling, VDouble x)]
                 else if String.eqb name "tmax" then [(O_SimulationEndTime, VDouble x)]
                 else if String.eqb name "init-res" then [(O_IterativeInitializationResidual, VDouble x)]
                 else []
  | AString s => if String.eqb name "output-dir" then [(O_OutputDirectory, VString s); on] else []
  end.

(** An undocumented value of --mrt-relax stands for "dhumieres-paper". *)
Definition meaning (name : string) (v : aval) : list (option_id * cval) :=
  match v with
  | AString s =>
      match value_of (accepted name) s with
      | Some l => enums l
      | None => if String.eqb name "mrt-relax" then [(O_MRTRelaxationTimes, VEnum N_RELAX_DHUMIERES_PAPER)] else plain name v
      end
  | AInt z =>
      if String.eqb name "integrator-id" then
        match integrator_number z with
        | Some s => match value_of (documented "integrator") s with Some l => enums l | None => [] end
        | None => []
        end
      else plain name v
  | _ => plain name v
  end.

(** An explicitly given option asks for option [o] to be [v]. *)
Definition asks (a : arguments) (o : option_id) (v : cval) : Prop :=
  exists name w, a name = Some w /\ In (o, v) (meaning name w).

(** The settings that make up "standard LBM", of order n. *)
Definition preset (a : arguments) (o : option_id) (v : cval) : Prop :=
  (a "standard-lbm" <> None /\
     In (o, v) [(O_CFL, VDouble (2 * sqrt 2)); (O_SedgOrderOfFiniteElement, VInt 2); (O_AdvectionScheme, VEnum N_SEMI_LAGRANGIAN)]) \/
  (exists n, a "standard-lbm-with" = Some (AInt n) /\
     In (o, v) [(O_CFL, VDouble (IZR n * sqrt 2)); (O_SedgOrderOfFiniteElement, VInt n); (O_AdvectionScheme, VEnum N_SEMI_LAGRANGIAN);
                (O_SupportPoints, VEnum N_EQUIDISTANT_POINTS)]).

(** Explicit options go before presets. *)
Definition effective (a : arguments) (o : option_id) (v : cval) : Prop :=
  asks a o v \/ ((forall w, ~ asks a o w) /\ preset a o v).

(** What a getter returns for the value [v]: doubles go through 16 decimal digits. *)
Definition stored (v w : cval) : Prop :=
  match v with
  | VDouble x => exists y, w = VDouble y /\ Rabs (y - x) <= 1/2 * powerRZ 10 (-15) * Rabs x /\ (decimal 16 x -> y = x)
  | _ => w = v
  end.

(** ** Errors *)

(** Combinations that cannot be meant. *)
Definition conflicting (a : arguments) : Prop :=
  ((a "standard-lbm" <> None \/ a "standard-lbm-with" <> None) /\
     (a "cfl" <> None \/ (exists z, a "order-fe" = Some (AInt z) /\ z <> 2%Z) \/ (exists s, a "streaming" = Some (AString s) /\ s <> "sl"))) \/
  (a "standard-lbm" <> None /\ a "standard-lbm-with" <> None) \/
  (a "integrator" <> None /\ a "integrator-id" <> None).

(** The values of the options are accepted by the configuration (doubles: [in_domain] up to
    rounding to 16 digits). *)
Definition known_values (a : arguments) : Prop :=
  forall name s, a name = Some (AString s) -> enumerated name -> name <> "mrt-relax" -> value_of (accepted name) s <> None.
Definition in_range (a : arguments) : Prop :=
  (forall o v, asks a o v -> in_domain o v) /\ (forall n, a "standard-lbm-with" = Some (AInt n) -> 0 < n)%Z.
Definition known_number (a : arguments) : Prop :=
  forall k, a "integrator-id" = Some (AInt k) -> integrator_number k <> None.

(** The integrators by number (CFDSolverUtilities.h:77-97). *)
Definition integrator_title (k : Z) : option string :=
  match k with
  | 1 => Some "RUNGE_KUTTA_5STAGE" | 2 => Some "THETA_METHOD" | 3 => Some "EXPONENTIAL" | 4 => Some "FORWARD_EULER"
  | 5 => Some "RK_THIRD_ORDER" | 6 => Some "RK_CLASSIC_FOURTH_ORDER" | 7 => Some "BACKWARD_EULER" | 8 => Some "IMPLICIT_MIDPOINT"
  | 9 => Some "CRANK_NICOLSON" | 10 => Some "SDIRK_TWO_STAGES" | 11 => Some "HEUN_EULER" | 12 => Some "BOGACKI_SHAMPINE"
  | 13 => Some "DOPRI" | 14 => Some "FEHLBERG" | 15 => Some "CASH_KARP" | _ => None
  end%Z.

(** ** Standard LBM *)

(** In time [dt] every population moves by whole multiples of the node spacing, up to
    rounding of the CFL number to 16 digits. *)
Definition hops (st : stencil) (dt spacing : R) : Prop :=
  forall i a, (i < st_Q st)%nat -> (a < st_D st)%nat ->
    exists k : Z, Rabs (dt * st_e st i a - IZR k * spacing) <= powerRZ 10 (-15) * spacing.

(** The stencils with particle velocities in {-1, 0, 1} and maximal velocity sqrt 2. *)
Definition lattice (t : StencilType) : Prop := t = Stencil_D2Q9 \/ t = Stencil_D3Q19 \/ t = Stencil_D3Q27.

(** The command line asks for standard LBM of order [n]. *)
Definition lbm_order (a : arguments) (n : Z) : Prop :=
  (a "standard-lbm" <> None /\ n = 2%Z) \/ (a "standard-lbm-with" = Some (AInt n) /\ a "order-fe" = None).

(** ** Calls of a parser *)

(** [before p]: only options were defined so far; [after p]: importOptions was called. *)
Inductive before : parser -> Prop :=
| before_new : before new_parser
| before_define : forall d p, before p -> before (snd (define d p))
| before_positional : forall n p, before p -> before (snd (makePositional n p)).
Inductive after : parser -> Prop :=
| after_first : forall parse p, before p -> after (snd (importOptions parse p))
| after_import : forall parse p, after p -> after (snd (importOptions parse p))
| after_define : forall d p, after p -> after (snd (define d p))
| after_positional : forall n p, after p -> after (snd (makePositional n p)).
