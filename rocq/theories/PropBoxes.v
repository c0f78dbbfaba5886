(** C150: Gauss-Lobatto elements of any order on boxes: what the theorems on the discontinuous Galerkin operator ask of deal.II. *)
From Verif Require Import Prelude BigSum ModelStencils SpecStencils ModelSemiLagrangian ModelSEDG SpecSEDG SpecSEDGRun ModelTimeIntegration ModelElements SpecElements ModelBoxes SpecBoxes ProofBoxes ProofBoxes2 ProofElementsEx ProofBoxesEx ProofLobatto ProofSEDGFlow ProofSEDGMesh ProofSEDGRun PropSEDG.
Local Open Scope R_scope.

(** Number of the degree of freedom at point [q] of face [f]. *)
Definition face_dof (n D f q : nat) : nat := ins (S n) D (f / 2) (if Nat.even f then 0 else n)%nat q.

(** Any order, two and three dimensions, boxes of any sizes: shape functions and quadrature points belong to each other, sums by
    parts are exact, constants have no slope, neighbours see the same face. *)
Theorem C150_mesh : forall (cell : Type) n D x w size points dofs behind (cells : list cell), (D = 2 \/ D = 3)%nat -> gauss_lobatto n x w -> box_mesh n D size dofs behind cells ->
  good_mesh (box_space x w n D size points dofs behind) (fun i => i) (face_dof n D) cells.
Proof. intros cell n D x w size points dofs behind cells HD HL HM. exact (boxes_good n D x w size points dofs behind cells HD HL HM). Qed.
Print Assumptions C150_mesh.
Example C150_mesh_ex : box_mesh 2 2 pair_size pair_dofs pair_behind [true; false] /\ gauss_lobatto 1 INR (fun _ => 1 / 2) /\
  gauss_lobatto 2 (fun i => INR i / 2) (fun i => if Nat.eqb i 1 then 2 / 3 else 1 / 6) /\
  gauss_lobatto 3 (sample_lobatto 4) (fun i => match i with 1%nat | 2%nat => 5 / 12 | _ => 1 / 12 end).
Proof. split; [exact pair_mesh|]. split; [exact trapezoidal|]. split; [exact simpson|exact four_points]. Qed.

(** The slope computed from the values of a polynomial of the order of the element is its derivative. *)
Theorem C150_slope : forall (cell : Type) n D x w size points dofs behind (cells : list cell), (D = 2 \/ D = 3)%nat -> gauss_lobatto n x w -> box_mesh n D size dofs behind cells ->
  forall c F i k, In c cells -> polynomial n D F -> (i < S n ^ D)%nat -> (k < D)%nat ->
  let node := el_node (tensor_element x n D) in
  derivable_pt_lim (fun t => F (fun d => if Nat.eqb d k then t else node i d)) (node i k)
    (size c k * slope (box_space x w n D size points dofs behind) (fun i => i) c (fun j => F (node j)) i k).
Proof. intros cell n D x w size points dofs behind cells HD HL HM. exact (slope_exact n D x w size points dofs behind cells HD HL HM). Qed.
Print Assumptions C150_slope.
Example C150_slope_ex : polynomial 1 2 (fun u => u 0%nat * u 1%nat).
Proof. exact xy_polynomial. Qed.

(** Transport is exact for continuous populations that are polynomials of the order of the element on every cell ([G c]: the
    polynomial in reference coordinates, [dG k]: its derivative at point [i]). *)
Theorem C150_exact : forall (cell : Type) n D x w size points dofs behind (cells : list cell), (D = 2 \/ D = 3)%nat -> gauss_lobatto n x w -> box_mesh n D size dofs behind cells ->
  let S := box_space x w n D size points dofs behind in let node := el_node (tensor_element x n D) in
  forall t scaling velocity s F G a c i dG, D = st_D (stencil_of t scaling) -> scaling <> 0 -> no_walls S cells ->
  reassemble S (stencil_of t scaling) false velocity cells empty_system = Ok s -> (forall b, continuous S (face_dof n D) cells (F b)) ->
  (1 <= a < st_Q (stencil_of t scaling))%nat -> In c cells -> (i < Datatypes.S n ^ D)%nat ->
  polynomial n D G -> (forall j, (j < Datatypes.S n ^ D)%nat -> F a (dofs c j) = G (node j)) ->
  (forall k, (k < D)%nat -> derivable_pt_lim (fun t => G (fun d => if Nat.eqb d k then t else node i d)) (node i k) (dG k)) ->
  rate s F a (dofs c i) = - sumf D (fun k => st_e (stencil_of t scaling) a k * (dG k / size c k)).
Proof.
  intros cell n D x w size points dofs behind cells HD HL HM S node t scaling velocity s F G a c i dG Hd Hs Nw E Ct Ha Hc Hi HG HF HdG.
  assert (X := C60_derivative cell S (fun i => i) (face_dof n D) t scaling velocity cells s F c i a Hd Hs (C150_mesh cell n D x w size points dofs behind cells HD HL HM) Nw E Ct Hc Hi Ha).
  change (dof_index S c i) with (dofs c i) in X. rewrite X. f_equal. change (sp_dim S) with D. apply sumf_ext. intros k Hk. f_equal.
  assert (P := bm_size _ _ _ _ _ _ HM c k Hc Hk).
  assert (Y := slope_exact n D x w size points dofs behind cells HD HL HM c G i k Hc HG Hi Hk).
  assert (Z := lim_unique _ _ _ _ (HdG k Hk) Y). set (sl := slope (box_space x w n D size points dofs behind) (fun i => i) c (fun j => G (el_node (tensor_element x n D) j)) i k) in Z.
  replace (dG k / size c k) with sl by (rewrite Z; field; lra). unfold sl, slope. apply sumf_ext.
  intros j Hj. change (dof_index S c j) with (dofs c j). rewrite HF by exact Hj. reflexivity.
Qed.
Print Assumptions C150_exact.
Example C150_exact_ex : no_walls (box_space (fun i => INR i / 2) (fun i => if Nat.eqb i 1 then 2 / 3 else 1 / 6) 2 2 pair_size (fun _ _ _ _ => 0) pair_dofs pair_behind) [true; false] /\
  exists s, reassemble (box_space (fun i => INR i / 2) (fun i => if Nat.eqb i 1 then 2 / 3 else 1 / 6) 2 2 pair_size (fun _ _ _ _ => 0) pair_dofs pair_behind) (stencil_of Stencil_D2Q9 1) false (fun _ => None) [true; false] empty_system = Ok s.
Proof.
  assert (Nw : no_walls (box_space (fun i => INR i / 2) (fun i => if Nat.eqb i 1 then 2 / 3 else 1 / 6) 2 2 pair_size (fun _ _ _ _ => 0) pair_dofs pair_behind) [true; false]).
  { intros c f _ Hf. cbn in Hf. destruct f as [|[|[|[|f]]]]; [| | | |lia]; do 2 eexists; reflexivity. }
  split; [exact Nw|]. apply (C59_assembles bool _ (fun i => i) (face_dof 2 2) Stencil_D2Q9 1); [reflexivity|lra| |].
  - apply C150_mesh; [left; reflexivity|exact simpson|exact pair_mesh].
  - intros c f b Hc Hf E. destruct (Nw c f Hc Hf) as (c' & f' & E'). congruence.
Qed.

(** Any number of Runge-Kutta streaming steps keeps the integral of every population, and streaming does not amplify. *)
Theorem C150_run : forall (cell : Type) n D x w size points dofs behind (cells : list cell), (D = 2 \/ D = 3)%nat -> gauss_lobatto n x w -> box_mesh n D size dofs behind cells ->
  let S := box_space x w n D size points dofs behind in
  forall t scaling velocity N s, D = st_D (stencil_of t scaling) -> scaling <> 0 -> no_walls S cells ->
  (forall c i, In c cells -> (i < Datatypes.S n ^ D)%nat -> (dofs c i < N)%nat) ->
  reassemble S (stencil_of t scaling) false velocity cells empty_system = Ok s ->
  (forall former m z z' a, (1 <= a < st_Q (stencil_of t scaling))%nat ->
    stream_times (rk5_step ((st_Q (stencil_of t scaling) - 1) * N)) former (flat_matrix N s) (flat_vector N s) m z = Ok z' ->
    integral S (fun i => i) cells (populations N (sg_f z')) a = integral S (fun i => i) cells (populations N (sg_f z)) a) /\
  forall F a, (1 <= a < st_Q (stencil_of t scaling))%nat ->
    inner S (fun i => i) cells (F a) (rate s F a) = - (1 / 4) * jumps S (face_dof n D) (stencil_of t scaling) velocity cells F a.
Proof.
  intros cell n D x w size points dofs behind cells HD HL HM S t scaling velocity N s Hd Hs Nw HN E.
  assert (G := C150_mesh cell n D x w size points dofs behind cells HD HL HM). split.
  - exact (C59_run cell S (fun i => i) (face_dof n D) t scaling velocity cells N s Hd Hs G Nw HN E).
  - intros F a Ha. exact (C61_energy cell S (fun i => i) (face_dof n D) t scaling velocity cells s F a Hd Hs G Nw E Ha).
Qed.
Print Assumptions C150_run.
Example C150_run_ex : forall c i, In c [true; false] -> (i < 3 ^ 2)%nat -> (pair_dofs c i < 18)%nat.
Proof. intros [|] i _ Hi; cbn in *; lia. Qed.

(** The rule asked for exists for every number of points and is determined by its properties, points and weights; its points are
    as the elements of C149 need them. *)
Theorem C150_rule : forall n, (1 <= n)%nat ->
  (exists x w, gauss_lobatto n x w) /\
  (forall x w y v, gauss_lobatto n x w -> gauss_lobatto n y v -> forall i, (i <= n)%nat -> x i = y i /\ w i = v i) /\
  forall x w, gauss_lobatto n x w -> ordered_points n x /\ x 0%nat = 0 /\ x n = 1.
Proof.
  intros n Hn. split; [exact (lobatto_exists n Hn)|]. split; [intros x w y v; exact (lobatto_unique n x w y v Hn)|exact (lobatto_ordered n)].
Qed.
Print Assumptions C150_rule.
Example C150_rule_ex : forall x w, gauss_lobatto 3 x w -> x 1%nat = 1 / 2 * (1 - / sqrt 5) /\ w 1%nat = 5 / 12.
Proof. intros x w H. exact (lobatto_unique 3 x w _ _ ltac:(lia) H four_points 1%nat ltac:(lia)). Qed.
