(** C59-C64: the discontinuous Galerkin advection operator. *)
From Verif Require Import Prelude BigSum ModelStencils SpecStencils ModelSemiLagrangian ModelSEDG SpecSEDG SpecSEDGRun ModelTimeIntegration ProofSEDGStencil ProofSEDGMesh ProofSEDGWitness ProofSEDGFlow ProofSEDGRun.
Local Open Scope R_scope.

(** ** C59: on every mesh the operator can be assembled, and transport alone keeps the integral of every population. *)
Theorem C59_assembles : forall (cell : Type) (S : space cell) qn fd t scaling velocity cells central s0,
  sp_dim S = st_D (stencil_of t scaling) -> scaling <> 0 -> good_mesh S qn fd cells -> supported S velocity cells ->
  exists s, reassemble S (stencil_of t scaling) central velocity cells s0 = Ok s.
Proof. intros cell S qn fd t scaling velocity cells central s0 Hd Hs G Sup. exact (assembles S qn fd t scaling velocity cells Hd Hs G Sup central s0). Qed.
Print Assumptions C59_assembles.
Example C59_assembles_ex : good_mesh (strip true) (fun i => i) strip_fd two /\ supported (strip true) still two.
Proof. split; [apply strip_good|]. apply strip_supported; discriminate. Qed.

(** Any other boundary condition is refused. *)
Theorem C59_other_boundaries : forall (cell : Type) (S : space cell) t scaling central velocity cells c f b, In c cells -> (f < faces_per_cell S)%nat ->
  at_face S c f = Outside b -> velocity b = None -> forall s s', reassemble S (stencil_of t scaling) central velocity cells s <> Ok s'.
Proof. exact @unsupported. Qed.
Print Assumptions C59_other_boundaries.
Example C59_other_boundaries_ex : forall s', reassemble (strip true) S9 false (fun _ => None) two empty_system <> Ok s'.
Proof. intros s'. apply (unsupported (strip true) Stencil_D2Q9 1 false (fun _ => None) two true 2 0); [left; reflexivity|cbn; lia|reflexivity|reflexivity]. Qed.

Theorem C59_mass : forall (cell : Type) (S : space cell) qn fd t scaling velocity cells s F a,
  sp_dim S = st_D (stencil_of t scaling) -> scaling <> 0 -> good_mesh S qn fd cells -> no_walls S cells ->
  reassemble S (stencil_of t scaling) false velocity cells empty_system = Ok s -> (1 <= a < st_Q (stencil_of t scaling))%nat ->
  integral S qn cells (rate s F) a = 0.
Proof.
  intros cell S qn fd t scaling velocity cells s F a Hd Hs G Nw E Ha.
  refine (periodic_mass S qn fd t scaling velocity cells Hd Hs G _ s E F a Nw Ha).
  intros c f b Hc Hf Eb. destruct (Nw c f Hc Hf) as (c' & f' & E'). congruence.
Qed.
Print Assumptions C59_mass.
Example C59_mass_ex : good_mesh (strip false) (fun i => i) strip_fd two /\ no_walls (strip false) two /\
  exists s, reassemble (strip false) S9 false still two empty_system = Ok s /\ rate s step_function 1 0 = -2.
Proof. split; [apply strip_good|]. split; [exact strip_periodic|exact step_example]. Qed.

(** Any number of Runge-Kutta streaming steps. *)
Theorem C59_run : forall (cell : Type) (S : space cell) qn fd t scaling velocity cells N s,
  sp_dim S = st_D (stencil_of t scaling) -> scaling <> 0 -> good_mesh S qn fd cells -> no_walls S cells ->
  (forall c i, In c cells -> (i < dofs_per_cell S)%nat -> (dof_index S c i < N)%nat) ->
  reassemble S (stencil_of t scaling) false velocity cells empty_system = Ok s -> forall former m z z' a, (1 <= a < st_Q (stencil_of t scaling))%nat ->
  stream_times (rk5_step ((st_Q (stencil_of t scaling) - 1) * N)) former (flat_matrix N s) (flat_vector N s) m z = Ok z' ->
  integral S qn cells (populations N (sg_f z')) a = integral S qn cells (populations N (sg_f z)) a.
Proof. intros cell S qn fd t scaling velocity cells N s Hd Hs G Nw HN E. exact (run_mass S qn fd t scaling velocity cells N Hd Hs G Nw HN s E). Qed.
Print Assumptions C59_run.
Example C59_run_ex : forall c i, In c two -> (i < dofs_per_cell (strip false))%nat -> (dof_index (strip false) c i < 8)%nat.
Proof. intros [|] i _ Hi; cbn [strip dofs_per_cell dof_index] in *; lia. Qed.

(** Not with central fluxes: they add what they should subtract. *)
Theorem C59_central_refuted : exists (s : system) F, good_mesh (strip false) (fun i => i) strip_fd two /\ no_walls (strip false) two /\
  reassemble (strip false) S9 true still two empty_system = Ok s /\ integral (strip false) (fun i => i) two (rate s F) 1 <> 0.
Proof.
  destruct central_mass as (s & E & V). exists s, saw. split; [apply strip_good|]. split; [exact strip_periodic|]. split; [exact E|]. rewrite V. lra.
Qed.
Print Assumptions C59_central_refuted.

(** ** C60: without jumps the operator is minus the derivative along the direction, of the interpolated populations. *)
Theorem C60_derivative : forall (cell : Type) (S : space cell) qn fd t scaling velocity cells s F c i a,
  sp_dim S = st_D (stencil_of t scaling) -> scaling <> 0 -> good_mesh S qn fd cells -> no_walls S cells ->
  reassemble S (stencil_of t scaling) false velocity cells empty_system = Ok s -> (forall b, continuous S fd cells (F b)) ->
  In c cells -> (i < dofs_per_cell S)%nat -> (1 <= a < st_Q (stencil_of t scaling))%nat ->
  rate s F a (dof_index S c i) = - sumf (sp_dim S) (fun k => st_e (stencil_of t scaling) a k * slope S qn c (fun j => F a (dof_index S c j)) i k).
Proof.
  intros cell S qn fd t scaling velocity cells s F c i a Hd Hs G Nw E Ct Hc Hi Ha.
  refine (continuous_derivative S qn fd t scaling velocity cells Hd Hs G _ s E F c i a Nw Ct Hc Hi Ha).
  intros d f b Hdd Hf Eb. destruct (Nw d f Hdd Hf) as (c' & f' & E'). congruence.
Qed.
Print Assumptions C60_derivative.
Example C60_derivative_ex : (forall a, continuous (strip false) strip_fd two (hat a)) /\ slope (strip false) (fun i => i) true (fun j => hat 1 (dof_index (strip false) true j)) 0 0 = 1.
Proof. split; [exact hat_continuous|exact hat_slope]. Qed.

(** Uniform populations stay; between walls if the difference of opposite populations suits their velocity. *)
Theorem C60_uniform : forall (cell : Type) (S : space cell) qn fd t scaling velocity cells s E,
  sp_dim S = st_D (stencil_of t scaling) -> scaling <> 0 -> good_mesh S qn fd cells -> supported S velocity cells ->
  reassemble S (stencil_of t scaling) false velocity cells empty_system = Ok s ->
  (forall c f b u q a, In c cells -> (f < faces_per_cell S)%nat -> (q < n_face_points S)%nat -> (1 <= a < st_Q (stencil_of t scaling))%nat ->
     at_face S c f = Outside b -> velocity b = Some u -> E a - E (opposite (stencil_of t scaling) a) = wall_shift S (stencil_of t scaling) (u (face_point S c f q)) a) ->
  forall c i a, In c cells -> (i < dofs_per_cell S)%nat -> (1 <= a < st_Q (stencil_of t scaling))%nat -> rate s (fun b _ => E b) a (dof_index S c i) = 0.
Proof. intros cell S qn fd t scaling velocity cells s E Hd Hs G Sup Es. exact (uniform_steady S qn fd t scaling velocity cells Hd Hs G Sup s Es E). Qed.
Print Assumptions C60_uniform.
Example C60_uniform_ex : exists s, reassemble (strip true) S9 false (sliding 1) two empty_system = Ok s /\ rate s (fun a _ => carried 1 1 a) 5 0 = 0.
Proof. destruct density_witness as (s & E & V & _). exists s. split; [exact E|exact V]. Qed.

Theorem C60_central_refuted : exists s : system, good_mesh (strip false) (fun i => i) strip_fd two /\ no_walls (strip false) two /\
  reassemble (strip false) S9 true still two empty_system = Ok s /\ rate s (fun _ _ => 1) 1 0 <> 0.
Proof.
  destruct central_constant as (s & E & V). exists s. split; [apply strip_good|]. split; [exact strip_periodic|]. split; [exact E|]. rewrite V. lra.
Qed.
Print Assumptions C60_central_refuted.

(** ** C61: transport never amplifies: the squared populations decrease at the rate of the squared jumps at the faces. *)
Theorem C61_energy : forall (cell : Type) (S : space cell) qn fd t scaling velocity cells s F a,
  sp_dim S = st_D (stencil_of t scaling) -> scaling <> 0 -> good_mesh S qn fd cells -> no_walls S cells ->
  reassemble S (stencil_of t scaling) false velocity cells empty_system = Ok s -> (1 <= a < st_Q (stencil_of t scaling))%nat ->
  inner S qn cells (F a) (rate s F a) = - (1 / 4) * jumps S fd (stencil_of t scaling) velocity cells F a.
Proof.
  intros cell S qn fd t scaling velocity cells s F a Hd Hs G Nw E Ha.
  refine (periodic_energy S qn fd t scaling velocity cells Hd Hs G _ s E F a Nw Ha).
  intros c f b Hc Hf Eb. destruct (Nw c f Hc Hf) as (c' & f' & E'). congruence.
Qed.
Print Assumptions C61_energy.
Example C61_energy_ex : good_mesh (strip false) (fun i => i) strip_fd two /\ no_walls (strip false) two /\
  exists s, reassemble (strip false) S9 false still two empty_system = Ok s /\ rate s step_function 1 0 = -2.
Proof. exact C59_mass_ex. Qed.

(** With walls at rest, for the sum over the directions, with any weights that opposite directions share. *)
Theorem C61_walls : forall (cell : Type) (S : space cell) qn fd t scaling velocity cells s omega F,
  sp_dim S = st_D (stencil_of t scaling) -> scaling <> 0 -> good_mesh S qn fd cells -> supported S velocity cells -> resting_walls S velocity cells ->
  (forall c f q, In c cells -> (f < faces_per_cell S)%nat -> (q < n_face_points S)%nat -> 0 <= face_JxW S c f q) ->
  (forall a, (1 <= a < st_Q (stencil_of t scaling))%nat -> omega (opposite (stencil_of t scaling) a) = omega a /\ 0 <= omega a) ->
  reassemble S (stencil_of t scaling) false velocity cells empty_system = Ok s ->
  over_directions (stencil_of t scaling) (fun a => omega a * inner S qn cells (F a) (rate s F a)) <= 0.
Proof.
  intros cell S qn fd t scaling velocity cells s omega F Hd Hs G Sup Rw HJ Ho E. exact (wall_decay S qn fd t scaling velocity cells Hd Hs G Sup s E omega F Rw Ho HJ).
Qed.
Print Assumptions C61_walls.
Example C61_walls_ex : supported (strip true) still two /\ resting_walls (strip true) still two /\ (forall c f q, 0 <= face_JxW (strip true) c f q).
Proof.
  split; [apply strip_supported; discriminate|]. split; [|intros; cbn; lra]. intros c f b u x k _ _ _ E. unfold still in E.
  assert (X : u = fun _ _ => 0) by congruence. rewrite X. reflexivity.
Qed.

(** ** C62: between walls the mass changes by what the walls displace; a fluid of density 1 that moves with its walls stays. *)
Theorem C62_mass : forall (cell : Type) (S : space cell) qn fd t scaling velocity cells s F,
  sp_dim S = st_D (stencil_of t scaling) -> scaling <> 0 -> closed_form t = true -> good_mesh S qn fd cells -> supported S velocity cells ->
  reassemble S (stencil_of t scaling) false velocity cells empty_system = Ok s ->
  over_directions (stencil_of t scaling) (integral S qn cells (rate s F)) = - wall_flux S velocity cells.
Proof. intros cell S qn fd t scaling velocity cells s F Hd Hs Hc G Sup E. exact (wall_mass S qn fd t scaling velocity cells Hd Hs G Sup s E F Hc). Qed.
Print Assumptions C62_mass.
Example C62_mass_ex : good_mesh (strip true) (fun i => i) strip_fd two /\ supported (strip true) blowing two /\ wall_flux (strip true) blowing two = -2.
Proof. split; [apply strip_good|]. split; [apply strip_supported; discriminate|exact blowing_flux]. Qed.

Theorem C62_carried : forall (cell : Type) (S : space cell) qn fd t scaling velocity cells s u, scaling <> 0 -> sp_dim S = st_D (stencil_of t scaling) -> good_mesh S qn fd cells ->
  supported S velocity cells ->
  (forall c f b v q k, In c cells -> (f < faces_per_cell S)%nat -> (q < n_face_points S)%nat -> (k < sp_dim S)%nat -> at_face S c f = Outside b -> velocity b = Some v ->
    v (face_point S c f q) k = u k) ->
  reassemble S (stencil_of t scaling) false velocity cells empty_system = Ok s ->
  forall c i a, In c cells -> (i < dofs_per_cell S)%nat -> (1 <= a < st_Q (stencil_of t scaling))%nat ->
  rate s (fun b _ => equilibrium1 (stencil_of t scaling) u b) a (dof_index S c i) = 0.
Proof. exact @carried_steady. Qed.
Print Assumptions C62_carried.
Example C62_carried_ex : forall c f b v q k, In c two -> (f < faces_per_cell (strip true))%nat -> (q < n_face_points (strip true))%nat -> (k < sp_dim (strip true))%nat ->
  at_face (strip true) c f = Outside b -> sliding 1 b = Some v -> v (face_point (strip true) c f q) k = match k with 0%nat => 1 | _ => 0 end.
Proof. intros c f b v q k _ _ _ _ _ E. unfold sliding in E. assert (X : v = fun _ k => match k with 0%nat => 1 | _ => 0 end) by congruence. rewrite X. reflexivity. Qed.

(** The walls take the density to be 1: a denser fluid that moves with them is slowed down. *)
Theorem C62_density_refuted : exists s, reassemble (strip true) S9 false (sliding 1) two empty_system = Ok s /\ rate s (fun a _ => carried 2 1 a) 5 0 <> 0.
Proof. destruct density_witness as (s & E & _ & V). exists s. split; [exact E|]. rewrite V. lra. Qed.
Print Assumptions C62_density_refuted.
(** Walls whose velocity depends on time keep the velocity of the time of assembly ([sliding t] is the velocity at time t). *)
Theorem C62_frozen_refuted : exists s s', reassemble (strip true) S9 false (sliding 0) two empty_system = Ok s /\ reassemble (strip true) S9 false (sliding 1) two empty_system = Ok s' /\
  rate s' (fun a _ => carried 1 1 a) 5 0 = 0 /\ rate s (fun a _ => carried 1 1 a) 5 0 <> 0.
Proof. destruct frozen_witness as (s & s' & E & E' & V & V'). exists s, s'. split; [exact E|]. split; [exact E'|]. split; [exact V|]. rewrite V'. lra. Qed.
Print Assumptions C62_frozen_refuted.

(** ** C63: assembling again gives the same operator: refuted, every call adds the operator once more. *)
Theorem C63_again_refuted : exists s s', reassemble (strip false) S9 false still two empty_system = Ok s /\ reassemble (strip false) S9 false still two s = Ok s' /\
  rate s' step_function 1 0 <> rate s step_function 1 0.
Proof. destruct twice as (s & s' & E & E' & V & V'). exists s, s'. split; [exact E|]. split; [exact E'|]. rewrite V, V'. lra. Qed.
Print Assumptions C63_again_refuted.
Theorem C63_adds : forall (cell : Type) (S : space cell) qn fd t scaling velocity cells central s0 s1 s,
  sp_dim S = st_D (stencil_of t scaling) -> scaling <> 0 -> good_mesh S qn fd cells -> supported S velocity cells ->
  reassemble S (stencil_of t scaling) central velocity cells empty_system = Ok s1 -> reassemble S (stencil_of t scaling) central velocity cells s0 = Ok s ->
  forall F a i, rate s F a i = rate s0 F a i + rate s1 F a i.
Proof. intros cell S qn fd t scaling velocity cells central s0 s1 s Hd Hs G Sup. exact (repeated S qn fd t scaling velocity cells Hd Hs G Sup central s0 s1 s). Qed.
Print Assumptions C63_adds.
Example C63_adds_ex : exists s s', reassemble (strip false) S9 false still two empty_system = Ok s /\ reassemble (strip false) S9 false still two s = Ok s' /\
  rate s step_function 1 0 = -2 /\ rate s' step_function 1 0 = -4.
Proof. exact twice. Qed.

(** ** C64: the short constructor gives upwind fluxes and the time step it was given: refuted for every time step but 0. *)
Theorem C64_short_constructor_refuted : exists dt, 0 < dt /\ sedg_constructor_short dt <> sedg_constructor true false dt.
Proof.
  exists 1. split; [lra|]. unfold sedg_constructor_short, sedg_constructor. destruct (Req_EM_T 1 0) as [X|_]; [lra|]. destruct (Rle_dec 0 0) as [_|X]; [|lra]. destruct (Rle_dec 0 1) as [_|X]; [|lra].
  intros H. assert (X : true = false) by congruence. discriminate.
Qed.
Print Assumptions C64_short_constructor_refuted.
Theorem C64_short_constructor : forall dt, sedg_constructor_short dt = sedg_constructor true false dt <-> dt = 0.
Proof.
  intros dt. unfold sedg_constructor_short, sedg_constructor. destruct (Rle_dec 0 0) as [_|X]; [|lra]. destruct (Req_EM_T dt 0) as [->|N].
  - destruct (Rle_dec 0 0) as [_|X]; [|lra]. split; reflexivity.
  - split; [|contradiction]. destruct (Rle_dec 0 dt); intros H; [assert (X : true = false) by congruence|]; discriminate.
Qed.
Print Assumptions C64_short_constructor.
Example C64_short_constructor_ex : sedg_constructor_short 1 = Ok (true, 0).
Proof. unfold sedg_constructor_short, sedg_constructor. destruct (Req_EM_T 1 0) as [X|_]; [lra|]. destruct (Rle_dec 0 0) as [_|X]; [reflexivity|lra]. Qed.
