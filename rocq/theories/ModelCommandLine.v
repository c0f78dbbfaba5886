(** Model of /repo/src/library/natrium/utilities/CommandLineParser.{h,cpp}, and of
    get_integrator_by_id, get_integrator_name and calculateTimestep in
    utilities/CFDSolverUtilities.cpp.

    Simplified: boost::program_options is a function from the defined options to the parsed
    values (or an error); assert is an exception; LOG lines have no effect. *)
From Coq Require Import String.
From Verif Require Import Prelude ModelStencils ConfigTypes ConfigData EnumData ModelConfig.
Open Scope R_scope.
Local Open Scope string_scope.

(** ** Arguments *)

(** A value in the boost variables_map: of an option without argument, or of type int,
    double, std::string. *)
Inductive aval := AFlag | AInt (z : Z) | ADouble (x : R) | AString (s : string).
(** m_varMap *)
Definition arguments : Type := string -> option aval.

(** CommandLineParser.h:177-183 (after import) *)
Definition hasArgument (a : arguments) (name : string) : bool :=
  match a name with Some _ => true | None => false end.
(** CommandLineParser.cpp:619-651 getArgument<int>, <double>, <string> (after import): a
    missing argument or another type is an exception. *)
Definition getInt (a : arguments) (name : string) : M Z :=
  match a name with Some (AInt z) => ret z | _ => throw end.
Definition getDouble (a : arguments) (name : string) : M R :=
  match a name with Some (ADouble x) => ret x | _ => throw end.
Definition getString (a : arguments) (name : string) : M string :=
  match a name with Some (AString s) => ret s | _ => throw end.

Definition when (b : bool) (c : M unit) : M unit := if b then c else ret tt.

(** [if (value == "...") ... else if ... else throw] *)
Fixpoint choose (cases : list (string * M unit)) (s : string) : M unit :=
  match cases with
  | [] => throw
  | c :: cases' => if String.eqb s (fst c) then snd c else choose cases' s
  end.

(** ** Integrators by number *)

(** CFDSolverUtilities.cpp:218-277 get_integrator_name: the reference may be bound to an
    uninitialised variable ([None]). *)
Definition get_integrator_name (time : option nat) (deal : nat) : M string :=
  match time with
  | None => undefined
  | Some 0%nat => ret "RUNGE_KUTTA_5STAGE"
  | Some 1%nat => ret "THETA_METHOD"
  | Some 2%nat => ret "EXPONENTIAL"
  | Some 3%nat => ret (nth deal ["FORWARD_EULER"; "RK_THIRD_ORDER"; "RK_CLASSIC_FOURTH_ORDER"; "BACKWARD_EULER"; "IMPLICIT_MIDPOINT";
      "CRANK_NICOLSON"; "SDIRK_TWO_STAGES"; "HEUN_EULER"; "BOGACKI_SHAMPINE"; "DOPRI"; "FEHLBERG"; "CASH_KARP"] "")
  | Some _ => ret ""
  end.

(** CFDSolverUtilities.cpp:134-216 get_integrator_by_id; [id] is a size_t, [time] the value
    of time_integrator before the call. *)
Definition get_integrator_by_id (id : Z) (time : option nat) : M (option nat * nat * string) :=
  let td := match id with
            | 1%Z => (Some N_RUNGE_KUTTA_5STAGE, N_NONE)
            | 2%Z => (Some N_THETA_METHOD, N_NONE)
            | 3%Z => (Some N_EXPONENTIAL, N_NONE)
            | 4%Z => (Some N_OTHER, N_FORWARD_EULER)
            | 5%Z => (Some N_OTHER, N_RK_THIRD_ORDER)
            | 6%Z => (Some N_OTHER, N_RK_CLASSIC_FOURTH_ORDER)
            | 7%Z => (Some N_OTHER, N_BACKWARD_EULER)
            | 8%Z => (Some N_OTHER, N_IMPLICIT_MIDPOINT)
            | 9%Z => (Some N_OTHER, N_CRANK_NICOLSON)
            | 10%Z => (Some N_OTHER, N_SDIRK_TWO_STAGES)
            | 11%Z => (Some N_OTHER, N_HEUN_EULER)
            | 12%Z => (Some N_OTHER, N_BOGACKI_SHAMPINE)
            | 13%Z => (Some N_OTHER, N_DOPRI)
            | 14%Z => (Some N_OTHER, N_FEHLBERG)
            | 15%Z => (Some N_OTHER, N_CASH_KARP)
            | _ => (time, N_NONE)
            end in
  bind (get_integrator_name (fst td) (snd td)) (fun s => ret (fst td, snd td, s)).

(** ** applyToSolverConfiguration, CommandLineParser.cpp:71-501 *)

Section Apply.
  Variable a : arguments.
  Notation has := (hasArgument a).
  Definition enum (o : option_id) (n : nat) : M unit := set o (VEnum n).

  (** 75-87 and 96-108 *)
  Definition conflicts : M unit :=
    seq (when (has "cfl") throw)
   (seq (when (has "order-fe") (bind (getInt a "order-fe") (fun z => when (negb (Z.eqb z 2)) throw)))
        (when (has "streaming") (bind (getString a "streaming") (fun s => when (negb (String.eqb s "sl")) throw)))).

  (** 73-92 *)
  Definition apply_standard_lbm : M unit :=
    when (has "standard-lbm")
      (seq conflicts
      (seq (set O_CFL (VDouble (sqrt 2 * 2)))
      (seq (set O_SedgOrderOfFiniteElement (VInt 2))
           (enum O_AdvectionScheme N_SEMI_LAGRANGIAN)))).

  (** 94-122; line 120 calls the getter for the log message *)
  Definition apply_standard_lbm_with : M unit :=
    when (has "standard-lbm-with")
      (seq conflicts
      (seq (when (has "standard-lbm") throw)
      (bind (getInt a "standard-lbm-with") (fun order =>
       seq (when (negb (Z.ltb 0 order)) throw)
      (seq (set O_CFL (VDouble (sqrt 2 * IZR order * IZR order / IZR order)))
      (seq (set O_SedgOrderOfFiniteElement (VInt order))
      (seq (enum O_SupportPoints N_EQUIDISTANT_POINTS)
      (seq (enum O_AdvectionScheme N_SEMI_LAGRANGIAN)
      (bind (get O_SedgOrderOfFiniteElement) (fun _ => ret tt)))))))))).

  (** 124-130 *)
  Definition apply_order_fe : M unit :=
    when (has "order-fe") (bind (getInt a "order-fe") (fun z => set O_SedgOrderOfFiniteElement (VInt z))).
  (** 132-137 *)
  Definition apply_cfl : M unit := when (has "cfl") (bind (getDouble a "cfl") (fun x => set O_CFL (VDouble x))).
  (** 139-143 *)
  Definition apply_output_on : M unit := when (has "output-on") (set O_SwitchOutputOff (VBool false)).
  (** 145-150 *)
  Definition apply_verbose : M unit :=
    when (has "verbose") (seq (set O_CommandLineVerbosity (VInt (Z.of_nat N_ALL))) (set O_SwitchOutputOff (VBool false))).
  (** 152-165 *)
  Definition apply_streaming : M unit :=
    when (has "streaming") (bind (getString a "streaming") (choose
      [("sedg", enum O_AdvectionScheme N_SEDG); ("sl", enum O_AdvectionScheme N_SEMI_LAGRANGIAN)])).
  (** 167-200 *)
  Definition apply_collision : M unit :=
    when (has "collision") (bind (getString a "collision") (choose
      [("bgk", enum O_CollisionScheme N_BGK_STANDARD);
       ("bgkt", enum O_CollisionScheme N_BGK_STANDARD_TRANSFORMED);
       ("inc", enum O_CollisionScheme N_BGK_INCOMPRESSIBLE);
       ("pp", enum O_CollisionScheme N_BGK_MULTIPHASE);
       ("ss", enum O_CollisionScheme N_BGK_STEADY_STATE);
       ("mrt", enum O_CollisionScheme N_MRT_STANDARD);
       ("kbcs", enum O_CollisionScheme N_KBC_STANDARD);
       ("kbcc", enum O_CollisionScheme N_KBC_CENTRAL);
       ("am4", enum O_CollisionScheme N_BGK_MULTI_AM4);
       ("bdf2", enum O_CollisionScheme N_BGK_MULTI_BDF2);
       ("reg", enum O_CollisionScheme N_BGK_REGULARIZED);
       ("est", enum O_CollisionScheme N_ENTROPIC_STABILIZED)])).

  Definition integrator (time deal : nat) : M unit := seq (enum O_TimeIntegrator time) (enum O_DealIntegrator deal).
  (** 202-260 *)
  Definition apply_integrator : M unit :=
    when (has "integrator")
      (seq (when (has "integrator-id") throw)
      (bind (getString a "integrator") (choose
        [("rk4", integrator N_RUNGE_KUTTA_5STAGE N_NONE);
         ("theta", integrator N_THETA_METHOD N_NONE);
         ("exp", integrator N_EXPONENTIAL N_NONE);
         ("ee", integrator N_OTHER N_FORWARD_EULER);
         ("rk3", integrator N_OTHER N_RK_THIRD_ORDER);
         ("rk4_2", integrator N_OTHER N_RK_CLASSIC_FOURTH_ORDER);
         ("ie", integrator N_OTHER N_BACKWARD_EULER);
         ("midpoint", integrator N_OTHER N_IMPLICIT_MIDPOINT);
         ("cn", integrator N_OTHER N_CRANK_NICOLSON);
         ("sdirk", integrator N_OTHER N_SDIRK_TWO_STAGES);
         ("heun-euler", integrator N_OTHER N_HEUN_EULER);
         ("bogacki", integrator N_OTHER N_BOGACKI_SHAMPINE);
         ("dopri", integrator N_OTHER N_DOPRI);
         ("fehlberg", integrator N_OTHER N_FEHLBERG);
         ("cash-karp", integrator N_OTHER N_CASH_KARP)]))).

  (** 262-277; the int becomes a size_t; using the uninitialised variable t is undefined *)
  Definition apply_integrator_id : M unit :=
    when (has "integrator-id")
      (seq (when (has "integrator") throw)
      (bind (getInt a "integrator-id") (fun id =>
       bind (get_integrator_by_id (to_size id) None) (fun r =>
       match fst (fst r) with
       | Some t => integrator t (snd (fst r))
       | None => undefined
       end)))).

  (** 279-285 *)
  Definition apply_scaling : M unit := when (has "scaling") (bind (getDouble a "scaling") (fun x => set O_StencilScaling (VDouble x))).
  (** 287-308 *)
  Definition apply_regularization : M unit :=
    when (has "regularization") (bind (getString a "regularization") (choose
      [("no", enum O_RegularizationScheme N_NO_REGULARIZATION);
       ("pem", enum O_RegularizationScheme N_PSEUDO_ENTROPY_MAXIMIZATION);
       ("zero", enum O_RegularizationScheme N_ZERO_HIGH_ORDER_MOMENTS);
       ("em", enum O_RegularizationScheme N_ENTROPY_MAXIMIZATION);
       ("pemwe", enum O_RegularizationScheme N_PSEUDO_ENTROPY_MAXIMIZATION_WITH_E)])).
  (** 310-325 *)
  Definition apply_equilibrium : M unit :=
    when (has "equilibrium") (bind (getString a "equilibrium") (choose
      [("bgk", enum O_EquilibriumScheme N_BGK_EQUILIBRIUM); ("quartic", enum O_EquilibriumScheme N_QUARTIC_EQUILIBRIUM)])).
  (** 327-346 *)
  Definition apply_support_points : M unit :=
    when (has "support-points") (bind (getString a "support-points") (choose
      [("gll", enum O_SupportPoints N_GAUSS_LOBATTO_POINTS);
       ("glc", enum O_SupportPoints N_GAUSS_LOBATTO_CHEBYSHEV_POINTS);
       ("gc", enum O_SupportPoints N_GAUSS_CHEBYSHEV_POINTS);
       ("equi", enum O_SupportPoints N_EQUIDISTANT_POINTS)])).

  Definition output_on : M unit := set O_SwitchOutputOff (VBool false).
  (** 348-355 *)
  Definition apply_output_dir : M unit :=
    when (has "output-dir") (bind (getString a "output-dir") (fun s => seq (set O_OutputDirectory (VString s)) output_on)).
  (** 357-364 *)
  Definition apply_output_sol : M unit :=
    when (has "output-sol") (bind (getInt a "output-sol") (fun z => seq (set O_OutputSolutionInterval (VInt z)) output_on)).
  (** 366-373 *)
  Definition apply_output_chk : M unit :=
    when (has "output-chk") (bind (getInt a "output-chk") (fun z => seq (set O_OutputCheckpointInterval (VInt z)) output_on)).
  (** 375-382 *)
  Definition apply_output_tab : M unit :=
    when (has "output-tab") (bind (getInt a "output-tab") (fun z => seq (set O_OutputTableInterval (VInt z)) output_on)).

  (** 384-422 *)
  Definition apply_stencil : M unit :=
    when (has "stencil") (bind (getString a "stencil") (choose
      [("d2q9", enum O_Stencil N_Stencil_D2Q9);
       ("d3q19", enum O_Stencil N_Stencil_D3Q19);
       ("d3q15", enum O_Stencil N_Stencil_D3Q15);
       ("d3q27", enum O_Stencil N_Stencil_D3Q27);
       ("d3q21", enum O_Stencil N_Stencil_D3Q21);
       ("d3q13", enum O_Stencil N_Stencil_D3Q13);
       ("rd3q27", enum O_Stencil N_Stencil_RD3Q27);
       ("d2q19h", enum O_Stencil N_Stencil_D2Q19H);
       ("d2q19v", enum O_Stencil N_Stencil_D2Q19V);
       ("d2q777", enum O_Stencil N_Stencil_D2Q777);
       ("d2q25h", enum O_Stencil N_Stencil_D2Q25H);
       ("d3q45", enum O_Stencil N_Stencil_D3Q45);
       ("d3q77", enum O_Stencil N_Stencil_D3Q77);
       ("d3v27", enum O_Stencil N_Stencil_D3V27)])).
  (** 424-430 *)
  Definition apply_tmax : M unit := when (has "tmax") (bind (getDouble a "tmax") (fun x => set O_SimulationEndTime (VDouble x))).
  (** 432-447 *)
  Definition apply_init : M unit :=
    when (has "init") (bind (getString a "init") (choose
      [("equi", enum O_InitializationScheme N_EQUILIBRIUM); ("iter", enum O_InitializationScheme N_ITERATIVE)])).
  (** 449-455 *)
  Definition apply_init_res : M unit :=
    when (has "init-res") (bind (getDouble a "init-res") (fun x => set O_IterativeInitializationResidual (VDouble x))).
  (** 457-463 *)
  Definition apply_init_niter : M unit :=
    when (has "init-niter") (bind (getInt a "init-niter") (fun z => set O_IterativeInitializationNumberOfIterations (VInt z))).
  (** 465-481 *)
  Definition apply_mrt_basis : M unit :=
    when (has "mrt-basis") (bind (getString a "mrt-basis") (choose
      [("dellar-d2q9", enum O_MRTBasis N_DELLAR_D2Q9);
       ("lallemand-d2q9", enum O_MRTBasis N_LALLEMAND_D2Q9);
       ("dhumieres-d3q19", enum O_MRTBasis N_DHUMIERES_D3Q19)])).
  (** 483-499; the third condition is a string literal, hence always true *)
  Definition apply_mrt_relax : M unit :=
    when (has "mrt-relax") (bind (getString a "mrt-relax") (fun relax =>
      if String.eqb relax "full" then enum O_MRTRelaxationTimes N_RELAX_FULL
      else if String.eqb relax "dellar-only-N" then enum O_MRTRelaxationTimes N_DELLAR_RELAX_ONLY_N
      else enum O_MRTRelaxationTimes N_RELAX_DHUMIERES_PAPER)).

  Definition blocks : list (M unit) :=
    [apply_standard_lbm; apply_standard_lbm_with; apply_order_fe; apply_cfl; apply_output_on; apply_verbose; apply_streaming;
     apply_collision; apply_integrator; apply_integrator_id; apply_scaling; apply_regularization; apply_equilibrium;
     apply_support_points; apply_output_dir; apply_output_sol; apply_output_chk; apply_output_tab; apply_stencil; apply_tmax;
     apply_init; apply_init_res; apply_init_niter; apply_mrt_basis; apply_mrt_relax].

  Definition applyToSolverConfiguration : M unit := fold_right seq (ret tt) blocks.
End Apply.

(** ** The parser object *)

(** An option defined by setFlag, setArgument<type> and setPositionalArgument<type>; with a
    default value po::value points to a local variable of setArgument. *)
Inductive atype := Flag | Int | Double | Str.
Record definition := { df_name : string; df_type : atype; df_default : option aval; df_positional : bool }.

Record parser := { ps_defs : list definition; ps_positional : list string; ps_imported : bool; ps_map : arguments }.

Definition flag (n : string) : definition := {| df_name := n; df_type := Flag; df_default := None; df_positional := false |}.
Definition arg (t : atype) (n : string) : definition := {| df_name := n; df_type := t; df_default := None; df_positional := false |}.

(** CommandLineParser.cpp:13-69 *)
Definition new_parser : parser :=
  {| ps_defs := [flag "help"; flag "standard-lbm"; arg Int "standard-lbm-with"; arg Int "order-fe"; arg Double "cfl"; flag "output-on";
                 flag "verbose"; arg Str "streaming"; arg Str "collision"; arg Str "integrator"; arg Int "integrator-id";
                 arg Double "scaling"; arg Str "equilibrium"; arg Str "regularization"; arg Str "support-points"; arg Str "output-dir";
                 arg Int "output-sol"; arg Int "output-chk"; arg Int "output-tab"; arg Str "stencil"; arg Double "tmax"; arg Str "init";
                 arg Int "init-niter"; arg Double "init-res"; arg Str "mrt-basis"; arg Str "mrt-relax"];
     ps_positional := []; ps_imported := false; ps_map := fun _ => None |}.

(** CommandLineParser.h:95-113: assert_clean, assert_imported.  *)
Definition define (d : definition) (p : parser) : outcome unit * parser :=
  if ps_imported p then (Throw, p)
  else (Ok tt, {| ps_defs := ps_defs p ++ [d];
                  ps_positional := if df_positional d then ps_positional p ++ [df_name d] else ps_positional p;
                  ps_imported := false; ps_map := ps_map p |}).

(** CommandLineParser.cpp:524-552 *)
Definition makePositional (n : string) (p : parser) : outcome unit * parser :=
  if ps_imported p then (Throw, p)
  else (Ok tt, {| ps_defs := ps_defs p; ps_positional := ps_positional p ++ [n]; ps_imported := false; ps_map := ps_map p |}).

(** CommandLineParser.cpp:672-687.  [parse] is boost's command_line_parser for the given
    command line with po::store; values stored before are kept.  po::notify writes every
    value with a default through the pointer given to po::value (570-573), whose target
    does not exist any more. *)
Definition importOptions (parse : list definition -> list string -> outcome arguments) (p : parser) : outcome unit * parser :=
  let p1 := {| ps_defs := ps_defs p; ps_positional := ps_positional p; ps_imported := true; ps_map := ps_map p |} in
  match parse (ps_defs p) (ps_positional p) with
  | Ok a =>
      let p2 := {| ps_defs := ps_defs p; ps_positional := ps_positional p; ps_imported := true;
                   ps_map := fun n => match ps_map p n with Some v => Some v | None => a n end |} in
      if existsb (fun d => match df_default d with Some _ => true | None => false end) (ps_defs p) then (UB, p2)
      else if hasArgument (ps_map p2) "help" then (Throw, p2) else (Ok tt, p2)
  | Throw => (Throw, p1)
  | UB => (UB, p1)
  end.

(** CommandLineParser.h:177-183 *)
Definition ps_has (n : string) (p : parser) : outcome bool := if ps_imported p then Ok (hasArgument (ps_map p) n) else Throw.

Definition type_of (v : aval) : atype := match v with AFlag => Flag | AInt _ => Int | ADouble _ => Double | AString _ => Str end.
Definition atype_eqb (s t : atype) : bool :=
  match s, t with Flag, Flag | Int, Int | Double, Double | Str, Str => true | _, _ => false end.
(** CommandLineParser.cpp:619-651 for the type [t] *)
Definition ps_get (t : atype) (n : string) (p : parser) : outcome aval :=
  if ps_imported p then
    match ps_map p n with
    | Some v => if atype_eqb (type_of v) t then Ok v else Throw
    | None => Throw
    end
  else Throw.

(** applyToSolverConfiguration: its first call of hasArgument throws before import. *)
Definition ps_apply (p : parser) : M unit := if ps_imported p then applyToSolverConfiguration (ps_map p) else throw.

(** ** Time step *)

(** CFDSolverUtilities.cpp:91-101; [dx] is the minimum vertex distance. *)
Definition calculateTimestep (dx : R) (order : Z) (st : stencil) (cFL : R) : outcome R :=
  if Z.leb 1 order then Ok (cFL * dx / (st_maxvel st * IZR order * IZR order)) else Throw.
