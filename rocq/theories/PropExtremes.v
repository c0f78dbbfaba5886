(** C135: streaming creates no new extremes. *)
From Verif Require Import Prelude ModelStencils ModelSemiLagrangian ModelWalls ModelSimulationSL SpecSemiLagrangian SpecStream SpecExtremes SpecLattice
  ProofPhysical ProofSEDGMesh ProofSemiLagrangian5 ProofStream ProofStream2 ProofLattice3 ProofExtremes ProofExtremes2.
Local Open Scope R_scope.

(** Linear elements, on every mesh with every kind of boundary, after any number of streaming steps: populations stay in every range that contains 0.
    In particular they stay nonnegative, and their largest absolute value does not grow. *)
Theorem C135_linear : forall (cell : Type) (M : mesh cell) e opp dt node dofs Q cells z lo hi,
  assemble M e opp dt (2 ^ dim M) node dofs Q (linear_shape (dim M)) cells = Some (Ok z) -> lo <= 0 <= hi ->
  forall k f, (forall n a, lo <= f n a <= hi) -> forall n a, lo <= Nat.iter k (sl_stream Q z) f n a <= hi.
Proof. exact @stream_range. Qed.
Print Assumptions C135_linear.
Example C135_linear_ex : exists z, assemble (torus 2 (fun _ => 2%Z) (fun _ => 1) (fun _ _ => (pt2 0 0, pt2 0 0))) (fun a => pt2 (INR (a mod 2)) 0) (fun a => a) 20
    (2 ^ 2) corner dofs22 5 (linear_shape 2) grid22 = Some (Ok z).
Proof. exact torus_linear. Qed.

(** Without boundaries: in every range, up to the entries that are left out of the matrix. *)
Theorem C135_closed : forall (cell : Type) (M : mesh cell) ok same e opp dt, (0 < dim M)%nat -> closed_mesh M ok same ->
  forall node dofs Q cells, let n := (2 ^ dim M)%nat in (forall c, In c cells -> ok c) -> (forall j, (j < n)%nat -> inside (dim M) (node j)) ->
  within_limit M n node e dt Q cells -> dofs_agree M same n node dofs cells ->
  exists z, assemble M e opp dt n node dofs Q (linear_shape (dim M)) cells = Some (Ok z) /\
  forall f lo hi, (forall i a, lo <= f i a <= hi) -> forall c j a, In c cells -> (j < n)%nat -> (a < Q)%nat ->
    lo - INR n * (1 / 10 ^ 10 * Rabs lo) <= sl_stream Q z f (dofs c j) a <= hi + INR n * (1 / 10 ^ 10 * Rabs hi).
Proof. exact @closed_range. Qed.
Print Assumptions C135_closed.
(** A mesh of parallelograms. *)
Example C135_closed_ex : closed_mesh (sheared (1 / 2)) two_by_two (sheared_same (1 / 2)) /\ (forall c, In c grid22 -> two_by_two c) /\ (forall j, (j < 4)%nat -> inside 2 (corner j)) /\
  within_limit (sheared (1 / 2)) 4 corner axes (1 / 2) 5 grid22 /\ dofs_agree (sheared (1 / 2)) (sheared_same (1 / 2)) 4 corner dofs22 grid22.
Proof. destruct sheared_setup as (A & B & C & D & _). split; [apply sheared_closed|]. auto. Qed.

(** Elements of any order, with a time step aligned with the grid: exactly. *)
Theorem C135_aligned : forall D p N h plane e opp dt Q n g shape dofs cells m, lattice_mesh D p N h e dt Q n g shape dofs cells m ->
  exists z, assemble (torus D N h plane) e opp dt n (fun j i => INR (g j i) / INR p) dofs Q shape cells = Some (Ok z) /\
  forall f lo hi, (forall i a, lo <= f i a <= hi) -> forall c j a, In c cells -> (j < n)%nat -> (a < Q)%nat -> lo <= sl_stream Q z f (dofs c j) a <= hi.
Proof. exact aligned_range. Qed.
Print Assumptions C135_aligned.
Example C135_aligned_ex : lattice_mesh 2 1 (fun _ => 2%Z) (fun _ => 1) (st_e S9) 1 9 4 g22 bilinear dofs22 grid22 e9z.
Proof. exact lattice22. Qed.

(** Elements of order 2 and any other time step: a population between 0 and 1 becomes negative in one step. *)
Theorem C135_quadratic_refuted : exists (M : mesh index) e opp dt node dofs Q cells z f n a,
  assemble M e opp dt 9 node dofs Q biquadratic cells = Some (Ok z) /\ (a < Q)%nat /\ (forall i b, 0 <= f i b <= 1) /\ sl_stream Q z f n a < - (1/10).
Proof.
  destruct new_minimum as (z & Hz & H).
  exists (torus 2 (fun _ => 2%Z) (fun _ => 1) (fun _ _ => (pt2 0 0, pt2 0 0))), right, (fun a => a), (1/4), node33, dofs33, 2%nat, grid22, z, one_column, 2%nat, 1%nat.
  split; [exact Hz|]. split; [lia|]. split; [exact one_column_range|exact H].
Qed.
Print Assumptions C135_quadratic_refuted.
