(** applyToSolverConfiguration as a list of settings. *)
From Coq Require Import String.
From Verif Require Import Prelude ModelText SpecText ProofText ConfigTypes ConfigData EnumData ModelConfig SpecConfig ProofConfig ProofConfig2
  ProofConfig3 ModelCommandLine SpecCommandLine.
Open Scope R_scope.
Local Open Scope string_scope.

(** ** Plans *)

Definition setting : Type := option_id * cval.
Definition plan : Type := list setting * outcome unit.

Fixpoint exec (l : list setting) (r : outcome unit) (h : handler) : outcome unit * handler :=
  match l with
  | [] => (r, h)
  | x :: l' => seq (set (fst x) (snd x)) (exec l' r) h
  end.

Definition typed (x : setting) : Prop := well_typed (CSet (fst x) (snd x)).
Definition follows (c : M unit) (p : plan) : Prop :=
  Forall typed (fst p) /\ forall h, inv h -> c h = exec (fst p) (snd p) h.

Definition comp (p q : plan) : plan :=
  match snd p with
  | Ok _ => (fst p ++ fst q, snd q)%list
  | r => (fst p, r)
  end.

Lemma set_cases : forall x h, inv h -> typed x ->
  (exists h', set (fst x) (snd x) h = (Ok tt, h') /\ inv h') \/ set (fst x) (snd x) h = (Throw, h).
Proof.
  intros x h I T. destruct (call_is (CSet (fst x) (snd x)) h I T eq_refl) as [[A E]|[_ E]]; cbn [call] in E.
  - left. eexists. split; [exact E|]. exact (call_inv (CSet (fst x) (snd x)) h _ I T E).
  - right. exact E.
Qed.

Lemma exec_app : forall l l' r h, exec (l ++ l') r h = seq (exec l (Ok tt)) (exec l' r) h.
Proof.
  induction l as [|x l IH]; intros l' r h; [reflexivity|]. cbn [app exec]. unfold seq, bind.
  destruct (set (fst x) (snd x) h) as [[u| |] h']; try reflexivity. rewrite IH. reflexivity.
Qed.

Lemma follows_seq : forall c d p q, follows c p -> follows d q -> follows (seq c d) (comp p q).
Proof.
  intros c d [l r] [l' r'] [T E] [T' E']. unfold comp. cbn [fst snd] in *. destruct r as [u| |]; cbn [fst snd].
  - split; [apply Forall_app; auto|]. intros h I. cbn [fst snd]. rewrite exec_app. unfold seq at 1, bind. rewrite (E h I). destruct u.
    assert (K : forall l h, inv h -> Forall typed l -> inv (snd (exec l (Ok tt) h)) /\
                  (fst (exec l (Ok tt) h) = Ok tt \/ fst (exec l (Ok tt) h) = Throw)).
    { clear. induction l as [|x l IH]; intros h I T; [cbn; auto|]. inversion T as [|? ? Tx Tl]; subst. cbn [exec]. unfold seq, bind.
      destruct (set_cases x h I Tx) as [[h' [S I']]|S]; rewrite S; [exact (IH h' I' Tl)|cbn; auto]. }
    unfold seq, bind. destruct (K l h I T) as [Ih' K']. destruct (exec l (Ok tt) h) as [[u| |] h']; cbn [fst snd] in *; try reflexivity.
    exact (E' h' Ih').
  - split; [exact T|]. intros h I. unfold seq, bind. rewrite (E h I).
    assert (K : forall l h, Forall typed l -> inv h -> match exec l Throw h with (Ok a, h') => d h' | (Throw, h') => (Throw, h') | (UB, h') => (UB, h') end = exec l Throw h).
    { clear. induction l as [|x l IH]; intros h T I; [reflexivity|]. inversion T as [|? ? Tx Tl]; subst. cbn [exec]. unfold seq, bind.
      destruct (set_cases x h I Tx) as [[h' [S I']]|S]; rewrite S; [exact (IH h' Tl I')|reflexivity]. }
    exact (K l h T I).
  - split; [exact T|]. intros h I. unfold seq, bind. rewrite (E h I).
    assert (K : forall l h, Forall typed l -> inv h -> match exec l UB h with (Ok a, h') => d h' | (Throw, h') => (Throw, h') | (UB, h') => (UB, h') end = exec l UB h).
    { clear. induction l as [|x l IH]; intros h T I; [reflexivity|]. inversion T as [|? ? Tx Tl]; subst. cbn [exec]. unfold seq, bind.
      destruct (set_cases x h I Tx) as [[h' [S I']]|S]; rewrite S; [exact (IH h' Tl I')|reflexivity]. }
    exact (K l h T I).
Qed.

Lemma follows_ret : follows (ret tt) ([], Ok tt).
Proof. split; [constructor|]. reflexivity. Qed.
Lemma follows_throw : follows throw ([], Throw).
Proof. split; [constructor|]. reflexivity. Qed.
Lemma follows_undefined : follows undefined ([], UB).
Proof. split; [constructor|]. reflexivity. Qed.
Lemma follows_set : forall o v, typed (o, v) -> follows (set o v) ([(o, v)], Ok tt).
Proof.
  intros o v T. split; [constructor; [exact T|constructor]|]. intros h I. cbn [fst snd exec]. unfold seq, bind.
  destruct (set_cases (o, v) h I T) as [[h' [S I']]|S]; cbn [fst snd] in S; rewrite S; reflexivity.
Qed.
Lemma follows_get : forall o, follows (bind (get o) (fun _ => ret tt)) ([], Ok tt).
Proof.
  intros o. split; [constructor|]. intros h I. cbn [fst snd exec]. unfold bind.
  destruct (observe_works (Value o) h I) as [t [v [_ [_ E]]]]. cbn [observe] in E. rewrite E. reflexivity.
Qed.
Lemma follows_when : forall b c p, follows c p -> follows (when b c) (if b then p else ([], Ok tt)).
Proof. intros [] c p F; [exact F|exact follows_ret]. Qed.

(** Tables. *)
Definition choice (t : list (string * list setting)) (s : string) : plan :=
  match find (fun x => String.eqb s (fst x)) t with
  | Some x => (snd x, Ok tt)
  | None => ([], Throw)
  end.
Lemma follows_choose : forall cases t s, Forall2 (fun c x => fst c = fst x /\ follows (snd c) (snd x, Ok tt)) cases t ->
  follows (choose cases s) (choice t s).
Proof.
  induction 1 as [|c x cases t [E F] _ IH]; [exact follows_throw|]. unfold choice in *. cbn [choose find]. rewrite E.
  destruct (String.eqb s (fst x)); [exact F|exact IH].
Qed.

(** ** The plan of a command line *)

Section Plan.
  Variable a : arguments.

  Definition given (name : string) (f : aval -> plan) : plan := match a name with Some v => f v | None => ([], Ok tt) end.
  Definition as_int (f : Z -> plan) (v : aval) : plan := match v with AInt z => f z | _ => ([], Throw) end.
  Definition as_double (f : R -> plan) (v : aval) : plan := match v with ADouble x => f x | _ => ([], Throw) end.
  Definition as_string (f : string -> plan) (v : aval) : plan := match v with AString s => f s | _ => ([], Throw) end.
  Definition sets (l : list setting) : plan := (l, Ok tt).
  Definition check (b : bool) : plan := if b then ([], Ok tt) else ([], Throw).

  Definition p_conflicts : plan :=
    comp (given "cfl" (fun _ => ([], Throw)))
   (comp (given "order-fe" (as_int (fun z => check (Z.eqb z 2))))
         (given "streaming" (as_string (fun s => check (String.eqb s "sl"))))).

  Definition p_standard_lbm : plan :=
    given "standard-lbm" (fun _ => comp p_conflicts
      (sets [(O_CFL, VDouble (sqrt 2 * 2)); (O_SedgOrderOfFiniteElement, VInt 2); (O_AdvectionScheme, VEnum N_SEMI_LAGRANGIAN)])).
  Definition p_standard_lbm_with : plan :=
    given "standard-lbm-with" (fun v => comp p_conflicts (comp (given "standard-lbm" (fun _ => ([], Throw)))
      (as_int (fun n => comp (check (Z.ltb 0 n))
        (sets [(O_CFL, VDouble (sqrt 2 * IZR n * IZR n / IZR n)); (O_SedgOrderOfFiniteElement, VInt n);
               (O_SupportPoints, VEnum N_EQUIDISTANT_POINTS); (O_AdvectionScheme, VEnum N_SEMI_LAGRANGIAN)])) v))).

  (** The explicit options. *)
  Definition t_enum (o : option_id) (l : list (string * nat)) : list (string * list setting) :=
    map (fun x => (fst x, [(o, VEnum (snd x))])) l.
  Definition t_stencil : list (string * nat) :=
    [("d2q9", N_Stencil_D2Q9); ("d3q19", N_Stencil_D3Q19); ("d3q15", N_Stencil_D3Q15); ("d3q27", N_Stencil_D3Q27); ("d3q21", N_Stencil_D3Q21);
     ("d3q13", N_Stencil_D3Q13); ("rd3q27", N_Stencil_RD3Q27); ("d2q19h", N_Stencil_D2Q19H); ("d2q19v", N_Stencil_D2Q19V);
     ("d2q777", N_Stencil_D2Q777); ("d2q25h", N_Stencil_D2Q25H); ("d3q45", N_Stencil_D3Q45); ("d3q77", N_Stencil_D3Q77); ("d3v27", N_Stencil_D3V27)].
  Definition t_collision : list (string * nat) :=
    [("bgk", N_BGK_STANDARD); ("bgkt", N_BGK_STANDARD_TRANSFORMED); ("inc", N_BGK_INCOMPRESSIBLE); ("pp", N_BGK_MULTIPHASE);
     ("ss", N_BGK_STEADY_STATE); ("mrt", N_MRT_STANDARD); ("kbcs", N_KBC_STANDARD); ("kbcc", N_KBC_CENTRAL);
     ("am4", N_BGK_MULTI_AM4); ("bdf2", N_BGK_MULTI_BDF2); ("reg", N_BGK_REGULARIZED); ("est", N_ENTROPIC_STABILIZED)].
  Definition p_explicit (name : string) : aval -> plan :=
    if String.eqb name "order-fe" then as_int (fun z => sets [(O_SedgOrderOfFiniteElement, VInt z)])
    else if String.eqb name "cfl" then as_double (fun x => sets [(O_CFL, VDouble x)])
    else if String.eqb name "output-on" then fun _ => sets [on]
    else if String.eqb name "verbose" then fun _ => sets [(O_CommandLineVerbosity, VInt (Z.of_nat N_ALL)); on]
    else if String.eqb name "streaming" then as_string (choice (t_enum O_AdvectionScheme [("sedg", N_SEDG); ("sl", N_SEMI_LAGRANGIAN)]))
    else if String.eqb name "collision" then as_string (choice (t_enum O_CollisionScheme t_collision))
    else if String.eqb name "integrator" then
      fun v => comp (given "integrator-id" (fun _ => ([], Throw)))
        (as_string (choice (map (fun x => (fst x, [(O_TimeIntegrator, VEnum (fst (snd x))); (O_DealIntegrator, VEnum (snd (snd x)))])) integrators)) v)
    else if String.eqb name "integrator-id" then
      fun v => comp (given "integrator" (fun _ => ([], Throw)))
        (as_int (fun z => match integrator_number z with
                          | Some s => choice (map (fun x => (fst x, [(O_TimeIntegrator, VEnum (fst (snd x))); (O_DealIntegrator, VEnum (snd (snd x)))])) integrators) s
                          | None => ([], UB)
                          end) v)
    else if String.eqb name "scaling" then as_double (fun x => sets [(O_StencilScaling, VDouble x)])
    else if String.eqb name "regularization" then as_string (choice (t_enum O_RegularizationScheme
      [("no", N_NO_REGULARIZATION); ("pem", N_PSEUDO_ENTROPY_MAXIMIZATION); ("zero", N_ZERO_HIGH_ORDER_MOMENTS);
       ("em", N_ENTROPY_MAXIMIZATION); ("pemwe", N_PSEUDO_ENTROPY_MAXIMIZATION_WITH_E)]))
    else if String.eqb name "equilibrium" then as_string (choice (t_enum O_EquilibriumScheme [("bgk", N_BGK_EQUILIBRIUM); ("quartic", N_QUARTIC_EQUILIBRIUM)]))
    else if String.eqb name "support-points" then as_string (choice (t_enum O_SupportPoints
      [("gll", N_GAUSS_LOBATTO_POINTS); ("glc", N_GAUSS_LOBATTO_CHEBYSHEV_POINTS); ("gc", N_GAUSS_CHEBYSHEV_POINTS); ("equi", N_EQUIDISTANT_POINTS)]))
    else if String.eqb name "output-dir" then as_string (fun s => sets [(O_OutputDirectory, VString s); on])
    else if String.eqb name "output-sol" then as_int (fun z => sets [(O_OutputSolutionInterval, VInt z); on])
    else if String.eqb name "output-chk" then as_int (fun z => sets [(O_OutputCheckpointInterval, VInt z); on])
    else if String.eqb name "output-tab" then as_int (fun z => sets [(O_OutputTableInterval, VInt z); on])
    else if String.eqb name "stencil" then as_string (choice (t_enum O_Stencil t_stencil))
    else if String.eqb name "tmax" then as_double (fun x => sets [(O_SimulationEndTime, VDouble x)])
    else if String.eqb name "init" then as_string (choice (t_enum O_InitializationScheme [("equi", N_EQUILIBRIUM); ("iter", N_ITERATIVE)]))
    else if String.eqb name "init-res" then as_double (fun x => sets [(O_IterativeInitializationResidual, VDouble x)])
    else if String.eqb name "init-niter" then as_int (fun z => sets [(O_IterativeInitializationNumberOfIterations, VInt z)])
    else if String.eqb name "mrt-basis" then as_string (choice (t_enum O_MRTBasis
      [("dellar-d2q9", N_DELLAR_D2Q9); ("lallemand-d2q9", N_LALLEMAND_D2Q9); ("dhumieres-d3q19", N_DHUMIERES_D3Q19)]))
    else if String.eqb name "mrt-relax" then as_string (fun s => sets [(O_MRTRelaxationTimes, VEnum (
        if String.eqb s "full" then N_RELAX_FULL else if String.eqb s "dellar-only-N" then N_DELLAR_RELAX_ONLY_N else N_RELAX_DHUMIERES_PAPER))])
    else fun _ => ([], Throw).

  Definition names : list string :=
    ["order-fe"; "cfl"; "output-on"; "verbose"; "streaming"; "collision"; "integrator"; "integrator-id"; "scaling"; "regularization";
     "equilibrium"; "support-points"; "output-dir"; "output-sol"; "output-chk"; "output-tab"; "stencil"; "tmax"; "init"; "init-res";
     "init-niter"; "mrt-basis"; "mrt-relax"].

  Definition p_blocks : list plan := p_standard_lbm :: p_standard_lbm_with :: map (fun n => given n (p_explicit n)) names.
  Definition the_plan : plan := fold_right comp ([], Ok tt) p_blocks.

  Hypothesis Hp : parsed a.

  Lemma follows_given : forall name c f, (forall v, a name = Some v -> follows c (f v)) ->
    follows (when (hasArgument a name) c) (given name f).
  Proof.
    intros name c f H. unfold hasArgument, given. destruct (a name) as [v|] eqn:E; cbn [when]; [exact (H v eq_refl)|exact follows_ret].
  Qed.

  Lemma follows_int : forall name c f v, a name = Some v -> (forall z, follows (c z) (f z)) -> follows (bind (getInt a name) c) (as_int f v).
  Proof.
    intros name c f v E H. unfold getInt. rewrite E. destruct v as [|z|x|s]; cbn [as_int]; try exact follows_throw. exact (H z).
  Qed.
  Lemma follows_double : forall name c f v, a name = Some v -> (forall z, follows (c z) (f z)) -> follows (bind (getDouble a name) c) (as_double f v).
  Proof.
    intros name c f v E H. unfold getDouble. rewrite E. destruct v as [|z|x|s]; cbn [as_double]; try exact follows_throw. exact (H x).
  Qed.
  Lemma follows_string : forall name c f v, a name = Some v -> (forall z, follows (c z) (f z)) -> follows (bind (getString a name) c) (as_string f v).
  Proof.
    intros name c f v E H. unfold getString. rewrite E. destruct v as [|z|x|s]; cbn [as_string]; try exact follows_throw. exact (H s).
  Qed.

  Lemma follows_check : forall b, follows (when (negb b) throw) (check b).
  Proof. intros []; [exact follows_ret|exact follows_throw]. Qed.

  Lemma follows_set_seq : forall o v c l, typed (o, v) -> follows c (sets l) -> follows (seq (set o v) c) (sets ((o, v) :: l)).
  Proof. intros o v c l T F. exact (follows_seq _ _ _ _ (follows_set o v T) F). Qed.
  Lemma follows_integrator : forall t d, follows (integrator t d) (sets [(O_TimeIntegrator, VEnum t); (O_DealIntegrator, VEnum d)]).
  Proof. intros t d. apply follows_set_seq; [exact I|]. apply follows_set. exact I. Qed.

  Lemma follows_conflicts : follows (conflicts a) p_conflicts.
  Proof.
    apply follows_seq; [|apply follows_seq].
    - apply follows_given. intros v E. exact follows_throw.
    - apply follows_given. intros v E. apply follows_int; [exact E|]. intros z. apply follows_check.
    - apply follows_given. intros v E. apply follows_string; [exact E|]. intros z. apply follows_check.
  Qed.

  Lemma follows_number : forall z, (- 2 ^ 31 <= z < 2 ^ 31)%Z ->
    follows (bind (get_integrator_by_id (to_size z) None) (fun r =>
       match fst (fst r) with
       | Some t => integrator t (snd (fst r))
       | None => undefined
       end))
      (match integrator_number z with
       | Some s => choice (map (fun x => (fst x, [(O_TimeIntegrator, VEnum (fst (snd x))); (O_DealIntegrator, VEnum (snd (snd x)))])) integrators) s
       | None => ([], UB)
       end).
  Proof.
    intros z Hz.
    assert (C : integrator_number z <> None -> (1 <= z <= 15)%Z).
    { destruct z as [|p|p]; cbn [integrator_number]; try congruence. intros H. split; [lia|].
      destruct (Z_le_gt_dec (Z.pos p) 15) as [L|G]; [exact L|exfalso; apply H].
      do 4 (destruct p as [p|p|]; try reflexivity; try lia). }
    destruct (Z_le_gt_dec 1 z) as [L1|G1]; [destruct (Z_le_gt_dec z 15) as [L2|G2]|].
    - assert (S : to_size z = z) by (apply Z.mod_small; lia). rewrite S.
      assert (V : (z = 1 \/ z = 2 \/ z = 3 \/ z = 4 \/ z = 5 \/ z = 6 \/ z = 7 \/ z = 8 \/ z = 9 \/ z = 10 \/ z = 11 \/ z = 12 \/ z = 13 \/ z = 14 \/ z = 15)%Z) by lia.
      decompose [or] V; subst z; exact (follows_integrator _ _).
    - assert (N : integrator_number z = None) by (destruct (integrator_number z); [exfalso; specialize (C ltac:(discriminate)); lia|reflexivity]).
      rewrite N. assert (S : to_size z = z) by (apply Z.mod_small; lia). rewrite S. unfold get_integrator_by_id.
      destruct z as [|p|p]; try lia. do 4 (destruct p as [p|p|]; try exact follows_undefined; try lia).
    - assert (N : integrator_number z = None) by (destruct (integrator_number z); [exfalso; specialize (C ltac:(discriminate)); lia|reflexivity]).
      rewrite N. unfold to_size. destruct (Z.eq_dec z 0) as [->|Z0]; [exact follows_undefined|].
      assert (S : (z mod 2 ^ 64 = z + 2 ^ 64)%Z).
      { symmetry. apply (Z.mod_unique_pos z (2 ^ 64) (-1)); lia. }
      rewrite S. assert (B : (2 ^ 63 <= z + 2 ^ 64)%Z) by lia. unfold get_integrator_by_id.
      destruct (z + 2 ^ 64)%Z as [|p|p]; try lia. do 4 (destruct p as [p|p|]; try exact follows_undefined; try lia).
  Qed.

  Ltac table := apply follows_choose; cbn [t_enum t_collision t_stencil integrators map fst snd];
    repeat (apply Forall2_cons; [split; [reflexivity|first [apply follows_set; exact I|apply follows_integrator]]|]); apply Forall2_nil.

  Lemma follows_blocks : Forall2 follows (blocks a) p_blocks.
  Proof.
    assert (Pi : forall name v, In name ["integrator-id"] -> a name = Some v -> forall z, v = AInt z -> (- 2 ^ 31 <= z < 2 ^ 31)%Z).
    { intros name v [<-|[]] E. apply (Hp (arg Int "integrator-id") v); [|exact E]. cbn. tauto. }
    unfold blocks, p_blocks, names. cbn [map].
    repeat apply Forall2_cons; try apply Forall2_nil.
    - apply follows_given. intros v E. apply follows_seq; [exact follows_conflicts|].
      apply follows_set_seq; [exact I|]. apply follows_set_seq; [exact I|]. apply follows_set; exact I.
    - apply follows_given. intros v E. apply follows_seq; [exact follows_conflicts|].
      apply follows_seq; [apply follows_given; intros w Ew; exact follows_throw|].
      apply follows_int; [exact E|]. intros n. apply follows_seq; [apply follows_check|].
      apply follows_set_seq; [exact I|]. apply follows_set_seq; [exact I|]. apply follows_set_seq; [exact I|]. apply follows_set_seq; [exact I|].
      exact (follows_get _).
    - apply follows_given. intros v E. apply follows_int; [exact E|]. intros z. apply follows_set; exact I.
    - apply follows_given. intros v E. apply follows_double; [exact E|]. intros z. apply follows_set; exact I.
    - apply follows_given. intros v E. apply follows_set; exact I.
    - apply follows_given. intros v E. apply follows_set_seq; [exact I|]. apply follows_set; exact I.
    - apply follows_given. intros v E. apply follows_string; [exact E|]. intros s. table.
    - apply follows_given. intros v E. apply follows_string; [exact E|]. intros s. table.
    - apply follows_given. intros v E. apply follows_seq; [apply follows_given; intros w Ew; exact follows_throw|].
      apply follows_string; [exact E|]. intros s. table.
    - apply follows_given. intros v E. apply follows_seq; [apply follows_given; intros w Ew; exact follows_throw|].
      specialize (Pi "integrator-id" v ltac:(left; reflexivity) E). unfold getInt. rewrite E.
      destruct v as [|z|x|s]; cbn [as_int]; try exact follows_throw. exact (follows_number z (Pi z eq_refl)).
    - apply follows_given. intros v E. apply follows_double; [exact E|]. intros z. apply follows_set; exact I.
    - apply follows_given. intros v E. apply follows_string; [exact E|]. intros s. table.
    - apply follows_given. intros v E. apply follows_string; [exact E|]. intros s. table.
    - apply follows_given. intros v E. apply follows_string; [exact E|]. intros s. table.
    - apply follows_given. intros v E. apply follows_string; [exact E|]. intros s. apply follows_set_seq; [exact I|]. apply follows_set; exact I.
    - apply follows_given. intros v E. apply follows_int; [exact E|]. intros s. apply follows_set_seq; [exact I|]. apply follows_set; exact I.
    - apply follows_given. intros v E. apply follows_int; [exact E|]. intros s. apply follows_set_seq; [exact I|]. apply follows_set; exact I.
    - apply follows_given. intros v E. apply follows_int; [exact E|]. intros s. apply follows_set_seq; [exact I|]. apply follows_set; exact I.
    - apply follows_given. intros v E. apply follows_string; [exact E|]. intros s. table.
    - apply follows_given. intros v E. apply follows_double; [exact E|]. intros z. apply follows_set; exact I.
    - apply follows_given. intros v E. apply follows_string; [exact E|]. intros s. table.
    - apply follows_given. intros v E. apply follows_double; [exact E|]. intros z. apply follows_set; exact I.
    - apply follows_given. intros v E. apply follows_int; [exact E|]. intros z. apply follows_set; exact I.
    - apply follows_given. intros v E. apply follows_string; [exact E|]. intros s. table.
    - apply follows_given. intros v E. apply follows_string; [exact E|]. intros s.
      destruct (String.eqb s "full"); [apply follows_set; exact I|]. destruct (String.eqb s "dellar-only-N"); apply follows_set; exact I.
  Qed.

  Lemma follows_apply : follows (applyToSolverConfiguration a) the_plan.
  Proof.
    unfold applyToSolverConfiguration, the_plan. induction follows_blocks as [|c p cs ps F _ IH]; [exact follows_ret|].
    cbn [fold_right]. apply follows_seq; assumption.
  Qed.
End Plan.
