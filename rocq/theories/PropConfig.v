(** C26-C28, C46: SolverConfiguration. *)
From Coq Require Import String.
From Verif Require Import Prelude ModelText SpecText ProofText ConfigTypes ConfigData ModelConfig SpecConfig ProofConfig ProofConfig2 ProofConfig3 ProofConfig4.
Open Scope R_scope.

(** ** C26: setters and getters round-trip

    Holds for enumerators, integers, booleans, strings, for doubles of at most 16 decimal
    digits and coordinates of at most 6; Nc must be whole.  Other doubles are rounded, see the
    refutations. *)

Theorem C26_round_trip_partial : forall c b v h h',
  reached h -> well_typed c -> call c h = (Ok tt, h') -> should_return c b v -> holds b v ->
  exists w, seen b h' = Ok w /\ same w v.
Proof. exact round_trip. Qed.
Print Assumptions C26_round_trip_partial.

(** Over any history the getter returns the value of the last accepted call of its setter. *)
Theorem C26_last_set_partial : forall later c earlier b v h,
  history (later ++ c :: earlier) h -> should_return c b v -> holds b v ->
  (forall c', In c' later -> ~ belongs b c') ->
  exists w, seen b h = Ok w /\ same w v.
Proof. exact last_set. Qed.
Print Assumptions C26_last_set_partial.

(** The setters accept the documented domains. *)
Theorem C26_domain_accepted : forall o v h,
  reached h -> well_typed (CSet o v) -> in_domain o v -> exists h', set o v h = (Ok tt, h').
Proof. exact (fun o v h R => domain_accepted o v h (reached_inv h R)). Qed.
Print Assumptions C26_domain_accepted.

(** ... and nothing else, as far as no rounding is involved. *)
Theorem C26_domain_only : forall o v h h',
  reached h -> well_typed (CSet o v) -> (forall x, v = VDouble x -> decimal 16 x) -> set o v h = (Ok tt, h') -> in_domain o v.
Proof. exact domain_only. Qed.
Print Assumptions C26_domain_only.

(** Doubles come back with a relative error of at most half a unit in the 16th digit. *)
Theorem C26_double_accuracy : forall o x h h',
  reached h -> well_typed (CSet o (VDouble x)) -> set o (VDouble x) h = (Ok tt, h') -> o <> O_ExponentialFilterNc ->
  exists y, seen (Value o) h' = Ok (VDouble y) /\ Rabs (y - x) <= 1/2 * powerRZ 10 (-15) * Rabs x.
Proof. exact double_accuracy. Qed.
Print Assumptions C26_double_accuracy.

(** A double that comes back as a different double: y is closer to the double z than to x. *)
Theorem C26_double_refuted : exists h x y z h', reached h /\
  double x /\ double z /\ set O_CFL (VDouble x) h = (Ok tt, h') /\ seen (Value O_CFL) h' = Ok (VDouble y) /\
  y <> x /\ Rabs (y - z) < Rabs (y - x).
Proof. exact double_witness. Qed.
Print Assumptions C26_double_refuted.

(** setExponentialFilterNc(1.5) is accepted, getExponentialFilterNc() returns 1. *)
Theorem C26_filter_nc_refuted : exists h h', reached h /\
  set O_ExponentialFilterNc (VDouble (3 / 2)) h = (Ok tt, h') /\ seen (Value O_ExponentialFilterNc) h' = Ok (VInt 1).
Proof. exact nc_witness. Qed.
Print Assumptions C26_filter_nc_refuted.

(** Coordinates keep 6 digits only. *)
Theorem C26_coordinates_refuted : exists h h', reached h /\
  setWallNormalCoordinates [1234567 / 10 ^ 7] h = (Ok tt, h') /\ seen Coords h' = Ok (VCoords [123457 / 10 ^ 6]).
Proof. exact coords_witness. Qed.
Print Assumptions C26_coordinates_refuted.

(** A history with two accepted calls and a rejected one in between. *)
Example C26_example : exists h,
  history [CSet O_CollisionScheme (VEnum 8); CSet O_CFL (VDouble (4 / 10 ^ 1)); CSet O_CollisionScheme (VEnum 3)] h /\
  seen (Value O_CollisionScheme) h = Ok (VEnum 8) /\ seen (Value O_CFL) h = Ok (VDouble (4 / 10 ^ 1)).
Proof. exact history_example. Qed.

(** ** C27: options are independent *)

(** An accepted call changes no getter that does not belong to its setter (setPrandtlNumber
    has two: the number and its flag). *)
Theorem C27_independent : forall c b h h',
  reached h -> well_typed c -> call c h = (Ok tt, h') -> ~ belongs b c -> seen b h' = seen b h.
Proof. exact independent. Qed.
Print Assumptions C27_independent.

(** Getters whose setters have not been called successfully return the default. *)
Theorem C27_default_kept : forall cs h b,
  history cs h -> (forall c, In c cs -> ~ belongs b c) -> seen b h = seen b default_configuration.
Proof. exact (fun cs h b H => history_default cs h H b). Qed.
Print Assumptions C27_default_kept.

Example C27_example :
  ~ belongs (Value O_StencilScaling) (CSet O_CFL (VDouble 1)) /\ ~ belongs (ReadOnly G_SutherlandLawSet) (CPrandtl 1) /\
  seen (Value O_StencilScaling) default_configuration = Ok (VDouble 1).
Proof. split; [discriminate|]. split; [intros [H|H]; discriminate|reflexivity]. Qed.

(** ** C28: a rejected value leaves the configuration unchanged and usable

    Holds for every setter but setEmbeddedDealIntegratorParameters. *)

Theorem C28_rejected_unchanged_partial : forall c h h',
  reached h -> well_typed c -> embedded c = false -> call c h = (Throw, h') -> h' = h.
Proof. exact rejected_unchanged. Qed.
Print Assumptions C28_rejected_unchanged_partial.

(** All getters work after any history, and do not change the configuration. *)
Theorem C28_getters_work : forall b h, reached h -> exists v, observe b h = (Ok v, h).
Proof. exact getters_work. Qed.
Print Assumptions C28_getters_work.

(** No setter leaves a subsection that has not been entered. *)
Theorem C28_setters_defined : forall c h, reached h -> well_typed c -> fst (call c h) <> UB.
Proof. exact setters_defined. Qed.
Print Assumptions C28_setters_defined.

(** setEmbeddedDealIntegratorParameters has no try/catch: after a rejected value (here the
    refinement parameter 2) the subsections stay open and every getter throws. *)
Theorem C28_embedded_refuted : exists c h h',
  reached h /\ well_typed c /\ call c h = (Throw, h') /\ forall b, seen b h' = Throw.
Proof. exact embedded_witness. Qed.
Print Assumptions C28_embedded_refuted.

Theorem C28_embedded_unusable : forall a b c d e f h h',
  reached h -> setEmbeddedDealIntegratorParameters a b c d e f h = (Throw, h') -> forall g, seen g h' = Throw.
Proof. exact (fun a b c d e f h h' R => embedded_unusable (CEmbedded a b c d e f) h h' R eq_refl). Qed.
Print Assumptions C28_embedded_unusable.

Example C28_example : call (CSet O_CFL (VDouble (-1))) default_configuration = (Throw, default_configuration).
Proof. exact rejected_example. Qed.

(** ** C46: parameter files *)

(** A configuration written by print_parameters and read into any configuration. *)
Theorem C46_file_round_trip : forall h0 h, reached h0 -> reached h -> exists h',
  readFromXMLFile (print_parameters h) h0 = (Ok tt, h') /\ forall b, seen b h' = seen b h.
Proof. exact file_round_trip. Qed.
Print Assumptions C46_file_round_trip.

(** Options without an entry in the file keep their values. *)
Theorem C46_file_untouched : forall file h h' b, reached h -> readFromXMLFile file h = (Ok tt, h') ->
  (forall w, In w file -> fst w <> (obs_path b, obs_key b)) -> seen b h' = seen b h.
Proof. exact file_untouched. Qed.
Print Assumptions C46_file_untouched.

(** After a rejected file the getters still work. *)
Theorem C46_file_rejected : forall file h h', reached h -> readFromXMLFile file h = (Throw, h') -> forall b, exists v, seen b h' = Ok v.
Proof. exact file_rejected. Qed.
Print Assumptions C46_file_rejected.

(** The constructor taking a file name: it throws for every file with an entry, even one
    written by a default configuration; from an empty one it makes a configuration without
    any entries. *)
Theorem C46_constructor_throws : forall file, file <> [] -> xml_configuration file = Throw.
Proof. exact constructor_throws. Qed.
Print Assumptions C46_constructor_throws.

Theorem C46_constructor_refuted : exists h, reached h /\ xml_configuration (print_parameters h) = Throw.
Proof. exact (ex_intro _ default_configuration (conj reached_start eq_refl)). Qed.
Print Assumptions C46_constructor_refuted.

Theorem C46_constructor_empty_refuted : exists h, xml_configuration [] = Ok h /\ forall b, seen b h = Throw.
Proof. exact constructor_empty. Qed.
Print Assumptions C46_constructor_empty_refuted.

Example C46_example : exists h', readFromXMLFile [(["General"], "Stencil", TStr "D3Q19")]%string default_configuration = (Ok tt, h') /\
  seen (Value O_Stencil) h' = Ok (VEnum 1).
Proof. eexists. split; reflexivity. Qed.
