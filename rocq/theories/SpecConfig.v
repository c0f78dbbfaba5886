(** What a user of SolverConfiguration can do and see, and the documented domains of the
    options (the ranges in the declarations, SolverConfiguration.cpp:15-295). *)
From Coq Require Import String.
From Verif Require Import Prelude SpecText ConfigTypes ConfigData ModelConfig.
Open Scope R_scope.

(** ** Commands *)

(** A call of a setter. *)
Inductive command :=
| CSet (o : option_id) (v : cval)
| CPrandtl (x : R)
| CSutherland
| CEmbedded (coarsen refine min_cfl max_cfl refine_tol coarsen_tol : R)
| CCoords (l : list R).

Definition call (c : command) : M unit :=
  match c with
  | CSet o v => set o v
  | CPrandtl x => setPrandtlNumber x
  | CSutherland => setSutherlandLaw
  | CEmbedded a b c d e f => setEmbeddedDealIntegratorParameters a b c d e f
  | CCoords l => setWallNormalCoordinates l
  end.

(** The argument has the parameter type of the setter. *)
Definition well_typed (c : command) : Prop :=
  match c with
  | CSet o v =>
      match s_kind (setter_of o), v with
      | SetEnum _, VEnum _ | SetDouble, VDouble _ | SetInt, VInt _ | SetBool, VBool _ | SetString, VString _ => True
      | _, _ => False
      end
  | _ => True
  end.

Definition embedded (c : command) : bool := match c with CEmbedded _ _ _ _ _ _ => true | _ => false end.

(** ** Getters *)

Inductive observer := Value (o : option_id) | ReadOnly (g : read_only_id) | Coords.

Definition observe (b : observer) : M cval :=
  match b with
  | Value o => get o
  | ReadOnly g => get_read_only g
  | Coords => getWallNormalCoordinates
  end.

(** The subsections and the key of the entry that belongs to a getter. *)
Definition obs_path (b : observer) : list string :=
  match b with Value o => g_path (getter_of o) | ReadOnly g => g_path (read_only_getter_of g) | Coords => ["Output"; "Turbulence Statistics"]%string end.
Definition obs_key (b : observer) : string :=
  match b with Value o => g_key (getter_of o) | ReadOnly g => g_key (read_only_getter_of g) | Coords => "Wall normal coordinates"%string end.
(** What a getter returns. *)
Definition seen (b : observer) (h : handler) : outcome cval := fst (observe b h).

(** The getters that belong to a setter. *)
Definition belongs (b : observer) (c : command) : Prop :=
  match c with
  | CSet o _ => b = Value o
  | CPrandtl _ => b = ReadOnly G_PrandtlNumber \/ b = ReadOnly G_PrandtlNumberSet
  | CSutherland => b = ReadOnly G_SutherlandLawSet
  | CEmbedded _ _ _ _ _ _ =>
      b = ReadOnly G_EmbeddedDealIntegratorCoarsenParameter \/ b = ReadOnly G_EmbeddedDealIntegratorRefinementParameter \/
      b = ReadOnly G_EmbeddedDealIntegratorMinimumCFL \/ b = ReadOnly G_EmbeddedDealIntegratorMaximumCFL \/
      b = ReadOnly G_EmbeddedDealIntegratorRefinementTolerance \/ b = ReadOnly G_EmbeddedDealIntegratorCoarsenTolerance
  | CCoords _ => b = Coords
  end.

(** ** Histories *)

(** [h] is the state of a default-constructed configuration after some calls of setters and
    getters, some of which may have thrown; only setEmbeddedDealIntegratorParameters has
    not thrown. *)
Inductive reached : handler -> Prop :=
| reached_start : reached default_configuration
| reached_call : forall h c h', reached h -> well_typed c -> call c h = (Ok tt, h') -> reached h'
| reached_rejected : forall h c h', reached h -> well_typed c -> embedded c = false -> call c h = (Throw, h') -> reached h'
| reached_observe : forall h b, reached h -> reached (snd (observe b h)).

(** After a sequence of calls of which [cs] are the accepted ones (the last one first). *)
Inductive history : list command -> handler -> Prop :=
| history_start : history [] default_configuration
| history_accepted : forall cs c h h', history cs h -> well_typed c -> call c h = (Ok tt, h') -> history (c :: cs) h'
| history_rejected : forall cs c h h', history cs h -> well_typed c -> embedded c = false -> call c h = (Throw, h') -> history cs h'.

(** ** Domains *)

Definition ge (l : R) (x : R) : Prop := l <= x.
Definition between (l u : R) (x : R) : Prop := l <= x <= u.

Definition double_domain (o : option_id) : R -> Prop :=
  match o with
  | O_CFL | O_ReferenceTemperature | O_HeatCapacityRatioGamma | O_StencilScaling => ge (1 / 10 ^ 10)
  | O_BGKSteadyStateGamma | O_ThetaMethodTheta => between 0 1
  | O_BGKPseudopotentialG | O_BGKPseudopotentialT => between (- 10 ^ 10) (10 ^ 10)
  | O_ExponentialFilterAlpha | O_ExponentialFilterS => between 0 (10 ^ 10)
  | O_ExponentialFilterNc => between 0 50
  | O_IterativeInitializationResidual => ge (1 / 10 ^ 25)
  | O_SimulationEndTime => ge 0
  | O_ConvergenceThreshold => fun _ => True
  | _ => fun _ => False
  end.

Definition int_domain (o : option_id) (z : Z) : Prop :=
  match o with
  | O_CommandLineVerbosity => 0 <= z <= 8
  | O_FilterInterval => 1 <= z <= 10 ^ 7
  | O_RestartAtIteration => 0 <= z < 2 ^ 31
  | O_WallNormalDirection => 0 <= z <= 3
  | O_SedgOrderOfFiniteElement | O_IterativeInitializationNumberOfIterations | O_NumberOfTimeSteps
  | O_OutputCheckpointInterval | O_OutputTableInterval | O_OutputSolutionInterval => 1 <= z < 2 ^ 31
  | _ => False
  end%Z.

Definition in_domain (o : option_id) (v : cval) : Prop :=
  match v with
  | VEnum n => (n < enum_size o)%nat
  | VDouble x => double_domain o x
  | VInt z => int_domain o z
  | VBool _ | VString _ => True
  | VCoords _ => False
  end.

(** ** Values *)

(** After an accepted call [c] the getter [b] should return [v]. *)
Inductive should_return : command -> observer -> cval -> Prop :=
| sr_set : forall o v, should_return (CSet o v) (Value o) v
| sr_prandtl : forall x, should_return (CPrandtl x) (ReadOnly G_PrandtlNumber) (VDouble x)
| sr_prandtl_set : forall x, should_return (CPrandtl x) (ReadOnly G_PrandtlNumberSet) (VBool true)
| sr_sutherland : should_return CSutherland (ReadOnly G_SutherlandLawSet) (VBool true)
| sr_coarsen : forall a b c d e f, should_return (CEmbedded a b c d e f) (ReadOnly G_EmbeddedDealIntegratorCoarsenParameter) (VDouble a)
| sr_refine : forall a b c d e f, should_return (CEmbedded a b c d e f) (ReadOnly G_EmbeddedDealIntegratorRefinementParameter) (VDouble b)
| sr_min : forall a b c d e f, should_return (CEmbedded a b c d e f) (ReadOnly G_EmbeddedDealIntegratorMinimumCFL) (VDouble c)
| sr_max : forall a b c d e f, should_return (CEmbedded a b c d e f) (ReadOnly G_EmbeddedDealIntegratorMaximumCFL) (VDouble d)
| sr_refine_tol : forall a b c d e f, should_return (CEmbedded a b c d e f) (ReadOnly G_EmbeddedDealIntegratorRefinementTolerance) (VDouble e)
| sr_coarsen_tol : forall a b c d e f, should_return (CEmbedded a b c d e f) (ReadOnly G_EmbeddedDealIntegratorCoarsenTolerance) (VDouble f)
| sr_coords : forall l, should_return (CCoords l) Coords (VCoords l).

(** Integers and doubles of the same value are the same. *)
Definition same (v w : cval) : Prop :=
  match v, w with
  | VInt z, VDouble x | VDouble x, VInt z => x = IZR z
  | _, _ => v = w
  end.

(** A value that the text form of the getter [b]'s entry can hold: doubles of up to 16
    decimal digits, coordinates of up to 6; Nc is kept as a whole number. *)
Definition holds (b : observer) (v : cval) : Prop :=
  match v with
  | VDouble x => decimal 16 x /\ (b = Value O_ExponentialFilterNc -> exists z, x = IZR z)
  | VCoords l => Forall (decimal 6) l
  | _ => True
  end.
