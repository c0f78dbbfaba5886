(** C29-C33: the command line. *)
From Coq Require Import String Qreals.
From Verif Require Import Prelude ModelStencils SpecText ConfigTypes ConfigData EnumData ModelConfig SpecConfig ModelCommandLine SpecCommandLine
  ProofConfig2 ProofCommandLine4 ProofCommandLine5 ProofCommandLine6.
Open Scope R_scope.
Local Open Scope string_scope.

(** ** C29 Enumerated options *)

(** A documented value reaches its options, whatever else is on the command line. *)
Theorem C29_documented : forall a name s l h h', parsed a -> reached h -> a name = Some (AString s) -> value_of (documented name) s = Some l ->
  applyToSolverConfiguration a h = (Ok tt, h') -> forall o n, In (o, n) l -> seen (Value o) h' = Ok (VEnum n).
Proof. exact documented_applied. Qed.
Print Assumptions C29_documented.

(** Alone on the command line it is accepted and sets nothing else. *)
Theorem C29_documented_only : forall name s l h, reached h -> value_of (documented name) s = Some l ->
  exists h', applyToSolverConfiguration (only name (AString s)) h = (Ok tt, h') /\
    (forall o n, In (o, n) l -> seen (Value o) h' = Ok (VEnum n)) /\
    (forall b, (forall o n, In (o, n) l -> b <> Value o) -> seen b h' = seen b h).
Proof. exact documented_only. Qed.
Print Assumptions C29_documented_only.

(** Other values are rejected, except for --mrt-relax and three values of --stencil. *)
Theorem C29_rejected_partial : forall a name s h, parsed a -> reached h -> a name = Some (AString s) -> enumerated name ->
  value_of (documented name) s = None -> name <> "mrt-relax" -> ~ (name = "stencil" /\ In s ["d3q21"; "d3q13"; "rd3q27"]) ->
  fst (applyToSolverConfiguration a h) <> Ok tt /\ (known_number a -> fst (applyToSolverConfiguration a h) = Throw).
Proof. exact unknown_rejected. Qed.
Print Assumptions C29_rejected_partial.

(** --mrt-relax accepts every string, and takes an unknown one for dhumieres-paper. *)
Theorem C29_mrt_relax_accepts : forall s h, reached h -> exists h', applyToSolverConfiguration (only "mrt-relax" (AString s)) h = (Ok tt, h') /\
  (value_of (documented "mrt-relax") s = None -> seen (Value O_MRTRelaxationTimes) h' = Ok (VEnum N_RELAX_DHUMIERES_PAPER)).
Proof. exact mrt_relax_accepts. Qed.
Print Assumptions C29_mrt_relax_accepts.

Theorem C29_mrt_relax_refuted : exists s h h', value_of (documented "mrt-relax") s = None /\ reached h /\
  applyToSolverConfiguration (only "mrt-relax" (AString s)) h = (Ok tt, h') /\ seen (Value O_MRTRelaxationTimes) h' = Ok (VEnum N_RELAX_DHUMIERES_PAPER).
Proof. exact mrt_relax_witness. Qed.
Print Assumptions C29_mrt_relax_refuted.

Theorem C29_stencil_refuted : exists s h h', value_of (documented "stencil") s = None /\ reached h /\
  applyToSolverConfiguration (only "stencil" (AString s)) h = (Ok tt, h') /\ seen (Value O_Stencil) h' = Ok (VEnum N_Stencil_D3Q13).
Proof. exact stencil_witness. Qed.
Print Assumptions C29_stencil_refuted.

Example C29_nonvacuous :
  value_of (documented "integrator") "dopri" = Some [(O_TimeIntegrator, N_OTHER); (O_DealIntegrator, N_DOPRI)] /\
  value_of (documented "collision") "mrt" = Some [(O_CollisionScheme, N_MRT_STANDARD)] /\
  enumerated "collision" /\ value_of (documented "collision") "MRT" = None /\ parsed (only "collision" (AString "MRT")) /\
  known_number (only "collision" (AString "MRT")).
Proof.
  split; [reflexivity|]. split; [reflexivity|]. split; [discriminate|]. split; [reflexivity|].
  split; [apply only_parsed; discriminate|discriminate].
Qed.

(** ** C30 Applying a command line *)

(** Given options reach the configuration (doubles to 16 digits), explicit ones before
    presets; all other getters return what they returned before. *)
Theorem C30_applied : forall a h, parsed a -> reached h -> forall h', applyToSolverConfiguration a h = (Ok tt, h') ->
  (forall o v, effective a o v -> exists w, seen (Value o) h' = Ok w /\ stored v w) /\
  (forall b, (forall o v, b = Value o -> ~ effective a o v) -> seen b h' = seen b h).
Proof. exact applied. Qed.
Print Assumptions C30_applied.

(** Every command line without conflicts and with values in the documented ranges is accepted. *)
Theorem C30_succeeds : forall a h, parsed a -> reached h -> ~ conflicting a -> known_values a -> in_range a -> known_number a ->
  exists h', applyToSolverConfiguration a h = (Ok tt, h').
Proof. exact succeeds. Qed.
Print Assumptions C30_succeeds.

Theorem C30_idempotent : forall a h h', parsed a -> reached h -> applyToSolverConfiguration a h = (Ok tt, h') ->
  exists h'', applyToSolverConfiguration a h' = (Ok tt, h'') /\ forall b, seen b h'' = seen b h'.
Proof. exact idempotent. Qed.
Print Assumptions C30_idempotent.

Theorem C30_conflict_rejected : forall a h, parsed a -> reached h -> conflicting a -> fst (applyToSolverConfiguration a h) = Throw.
Proof. exact conflict_rejected. Qed.
Print Assumptions C30_conflict_rejected.

(** The conflicts of --standard-lbm with --cfl, --order-fe and --streaming change nothing. *)
Theorem C30_conflict_unchanged_partial : forall a h, parsed a -> reached h -> (a "standard-lbm" <> None \/ a "standard-lbm-with" <> None) ->
  a "cfl" <> None \/ (exists z, a "order-fe" = Some (AInt z) /\ z <> 2%Z) \/ (exists s, a "streaming" = Some (AString s) /\ s <> "sl") ->
  applyToSolverConfiguration a h = (Throw, h).
Proof. exact lbm_conflict. Qed.
Print Assumptions C30_conflict_unchanged_partial.

(** --standard-lbm --standard-lbm-with 4 throws, and has changed the advection scheme. *)
Theorem C30_atomic_refuted : exists a h h', parsed a /\ reached h /\ conflicting a /\ applyToSolverConfiguration a h = (Throw, h') /\
  seen (Value O_AdvectionScheme) h = Ok (VEnum N_SEDG) /\ seen (Value O_AdvectionScheme) h' = Ok (VEnum N_SEMI_LAGRANGIAN).
Proof. exact atomic_witness. Qed.
Print Assumptions C30_atomic_refuted.

(** Whatever the outcome, the configuration is one that setters can produce (see C26-C28). *)
Theorem C30_usable : forall a h, parsed a -> reached h -> reached (snd (applyToSolverConfiguration a h)).
Proof. exact usable. Qed.
Print Assumptions C30_usable.

(** --standard-lbm --stencil d3q15 is a command line as in the theorems. *)
Example C30_nonvacuous : parsed lbm_d3q15 /\ reached default_configuration /\ ~ conflicting lbm_d3q15 /\ known_values lbm_d3q15 /\
  in_range lbm_d3q15 /\ known_number lbm_d3q15 /\ effective lbm_d3q15 O_CFL (VDouble (2 * sqrt 2)) /\
  parsed both_lbm /\ conflicting both_lbm.
Proof.
  assert (NC : ~ conflicting lbm_d3q15).
  { unfold conflicting, lbm_d3q15, also, only. cbn. intros [[_ [H|[(z & H & _)|(s & H & _)]]]|[[_ H]|[H _]]]; congruence. }
  split; [exact d3q15_parsed|]. split; [exact reached_start|]. split; [exact NC|]. split; [|split; [|split; [discriminate|split; [|split]]]].
  - intros n s H _ _. unfold lbm_d3q15, also, only in H. destruct (String.eqb_spec n "stencil") as [->|].
    + injection H as <-. discriminate.
    + destruct (String.eqb n "standard-lbm"); discriminate.
  - split; [|discriminate]. intros o v H. apply also_asks in H. destruct H as [H|H].
    + cbn in H. destruct H as [H|[]]. injection H as <- <-. cbv; lia.
    + apply only_asks in H. destruct H.
  - apply (lbm_effective lbm_d3q15 2 d3q15_parsed NC). left. split; [discriminate|reflexivity].
  - exact both_parsed.
  - right. left. split; discriminate.
Qed.

(** ** C31 Standard LBM *)

(** After --standard-lbm (order 2) or --standard-lbm-with n, on D2Q9, D3Q19 and D3Q27 with
    cells of width dx, the time step moves every population from node to node. *)
Theorem C31_hops_partial : forall a n h h' t s dx, parsed a -> reached h -> applyToSolverConfiguration a h = (Ok tt, h') -> lbm_order a n ->
  lattice t -> 0 < s -> 0 < dx ->
  exists cfl dt, seen (Value O_CFL) h' = Ok (VDouble cfl) /\ seen (Value O_SedgOrderOfFiniteElement) h' = Ok (VInt n) /\
    calculateTimestep dx n (stencil_of t s) cfl = Ok dt /\ hops (stencil_of t s) dt (dx / IZR n).
Proof. exact lbm_hops. Qed.
Print Assumptions C31_hops_partial.

(** On D3Q15 the populations move by about 0.82 node spacings. *)
Theorem C31_d3q15_refuted : exists a h h' cfl, parsed a /\ reached h /\ a "standard-lbm" <> None /\ applyToSolverConfiguration a h = (Ok tt, h') /\
  seen (Value O_Stencil) h' = Ok (VEnum N_Stencil_D3Q15) /\
  seen (Value O_CFL) h' = Ok (VDouble cfl) /\ seen (Value O_SedgOrderOfFiniteElement) h' = Ok (VInt 2) /\
  forall s dx dt, 0 < s -> 0 < dx -> calculateTimestep dx 2 (stencil_of Stencil_D3Q15 s) cfl = Ok dt -> ~ hops (stencil_of Stencil_D3Q15 s) dt (dx / 2).
Proof. exact d3q15_witness. Qed.
Print Assumptions C31_d3q15_refuted.

(** --standard-lbm-with 3 --order-fe 2 is accepted; the populations move by 1.5 spacings. *)
Theorem C31_order_refuted : exists a h h' cfl, parsed a /\ reached h /\ a "standard-lbm-with" = Some (AInt 3) /\ applyToSolverConfiguration a h = (Ok tt, h') /\
  seen (Value O_CFL) h' = Ok (VDouble cfl) /\ seen (Value O_SedgOrderOfFiniteElement) h' = Ok (VInt 2) /\
  forall s dx dt, 0 < s -> 0 < dx -> calculateTimestep dx 2 (stencil_of Stencil_D2Q9 s) cfl = Ok dt -> ~ hops (stencil_of Stencil_D2Q9 s) dt (dx / 2).
Proof. exact lbm_3_2_witness. Qed.
Print Assumptions C31_order_refuted.

(** Some population does move: direction 1 of D2Q9 by one spacing. *)
Example C31_nonvacuous : parsed (only "standard-lbm" AFlag) /\ lbm_order (only "standard-lbm" AFlag) 2 /\ lattice Stencil_D2Q9 /\
  st_e (stencil_of Stencil_D2Q9 1) 1 0 = 1.
Proof.
  split; [exact lbm_parsed|]. split; [left; split; [discriminate|reflexivity]|]. split; [left; reflexivity|].
  cbn. unfold tbl, tblQ. cbn. unfold Q2R. cbn. lra.
Qed.

(** ** C32 Protocol *)

Theorem C32_define_before : forall d n p, before p ->
  (fst (define d p) = Ok tt /\ ps_defs (snd (define d p)) = (ps_defs p ++ [d])%list /\
   ps_positional (snd (define d p)) = (ps_positional p ++ if df_positional d then [df_name d] else [])%list) /\
  (fst (makePositional n p) = Ok tt /\ ps_defs (snd (makePositional n p)) = ps_defs p /\ ps_positional (snd (makePositional n p)) = (ps_positional p ++ [n])%list).
Proof. exact define_before. Qed.
Print Assumptions C32_define_before.

Theorem C32_define_after : forall d n p, after p -> define d p = (Throw, p) /\ makePositional n p = (Throw, p).
Proof. exact define_after. Qed.
Print Assumptions C32_define_after.

Theorem C32_read_before : forall n t p h, before p -> ps_has n p = Throw /\ ps_get t n p = Throw /\ ps_apply p h = (Throw, h).
Proof. exact read_before. Qed.
Print Assumptions C32_read_before.

(** After a successful import the parser returns what was parsed. *)
Theorem C32_read_after : forall parse p p', before p -> importOptions parse p = (Ok tt, p') ->
  exists a, parse (ps_defs p) (ps_positional p) = Ok a /\
    (forall n, ps_has n p' = Ok (match a n with Some _ => true | None => false end)) /\
    (forall n t v, ps_get t n p' = Ok v <-> a n = Some v /\ type_of v = t) /\
    (forall h, ps_apply p' h = applyToSolverConfiguration a h).
Proof. exact read_after. Qed.
Print Assumptions C32_read_after.

(** Importing with an option that has a default value writes through a dangling pointer. *)
Theorem C32_default_undefined : forall parse p a, before p -> Exists (fun d => df_default d <> None) (ps_defs p) ->
  parse (ps_defs p) (ps_positional p) = Ok a -> fst (importOptions parse p) = UB.
Proof. exact default_undefined. Qed.
Print Assumptions C32_default_undefined.

Example C32_nonvacuous :
  let d := {| df_name := "Re"; df_type := Double; df_default := None; df_positional := true |} in
  let p := snd (define d new_parser) in
  let parse := fun (_ : list definition) (_ : list string) => Ok (only "Re" (ADouble 100)) in
  before p /\ fst (importOptions parse p) = Ok tt /\ after (snd (importOptions parse p)) /\
  Exists (fun d => df_default d <> None)
    (ps_defs (snd (define {| df_name := "Re"; df_type := Double; df_default := Some (ADouble 1); df_positional := true |} new_parser))).
Proof.
  intros d p parse. assert (B : before p) by (apply before_define; exact before_new).
  split; [exact B|]. split; [reflexivity|]. split; [apply after_first; exact B|].
  cbn [define ps_imported new_parser snd ps_defs]. apply Exists_app. right. constructor. discriminate.
Qed.

(** ** C33 Integrators by number *)

(** --integrator-id k is --integrator with the k-th documented value. *)
Theorem C33_number : forall k s h, reached h -> integrator_number k = Some s ->
  applyToSolverConfiguration (only "integrator-id" (AInt k)) h = applyToSolverConfiguration (only "integrator" (AString s)) h.
Proof. exact number_same. Qed.
Print Assumptions C33_number.

(** get_integrator_by_id returns the integrator and the name it has in the documentation. *)
Theorem C33_title : forall k h, integrator_title k <> None -> exists t d name,
  get_integrator_by_id k None h = (Ok (Some t, d, name), h) /\ get_integrator_name (Some t) d h = (Ok name, h) /\ integrator_title k = Some name /\
  exists s, integrator_number k = Some s /\ value_of (documented "integrator") s = Some [(O_TimeIntegrator, t); (O_DealIntegrator, d)].
Proof. exact number_title. Qed.
Print Assumptions C33_title.

(** Any other int reads an uninitialised variable. *)
Theorem C33_other_undefined : forall k h, reached h -> (- 2 ^ 31 <= k < 2 ^ 31)%Z -> integrator_number k = None ->
  applyToSolverConfiguration (only "integrator-id" (AInt k)) h = (UB, h).
Proof. exact number_undefined. Qed.
Print Assumptions C33_other_undefined.

Theorem C33_other_refuted : exists k h, reached h /\ integrator_number k = None /\
  fst (applyToSolverConfiguration (only "integrator-id" (AInt k)) h) <> Throw.
Proof.
  exists 16%Z, default_configuration. split; [exact reached_start|]. split; [reflexivity|].
  rewrite number_undefined; [discriminate|exact reached_start|lia|reflexivity].
Qed.
Print Assumptions C33_other_refuted.

Example C33_nonvacuous : reached default_configuration /\ integrator_number 13 = Some "dopri" /\ integrator_title 13 = Some "DOPRI" /\
  integrator_number 0 = None /\ integrator_number (-1) = None.
Proof. split; [exact reached_start|]. repeat split. Qed.
