(** C149: the finite elements and the mapping chosen by the configuration. *)
From Verif Require Import Prelude ModelSemiLagrangian SpecSemiLagrangian SpecLattice ModelBenchmarks ModelTurbChannel ModelElements SpecElements ProofSemiLagrangian3 ProofSemiLagrangian4 ProofSemiLagrangian5 ProofElements ProofElements2 ProofElementsEx.
Local Open Scope R_scope.

(** Every name: the support points lie in the unit interval and are different from each other. *)
Theorem C149_points : forall lobatto, lobatto_points lobatto -> forall name order, (1 <= order)%nat -> ordered_points order (support_points lobatto name order).
Proof. exact points_ordered. Qed.
Print Assumptions C149_points.
Example C149_points_ex : lobatto_points sample_lobatto /\ sample_lobatto 4 1 = 1 / 2 * (1 - / sqrt 5).
Proof. split; [exact sample_lobatto_ok|reflexivity]. Qed.

(** Every element that is made, in any dimension: one shape function is 1 and all others 0 at every support point, they sum up
    to one everywhere, and they reproduce all polynomials of the order of the element in each coordinate. *)
Theorem C149_shape : forall lobatto name order dg D el, lobatto_points lobatto -> (1 <= order)%nat -> make_fe_by_name lobatto name order dg D = Ok el ->
  el_dofs el = (S order ^ D)%nat /\
  (forall k, (k < el_dofs el)%nat -> inside D (el_node el k)) /\
  (forall j k, (j < el_dofs el)%nat -> (k < el_dofs el)%nat -> el_shape el j (el_node el k) = delta j k) /\
  (forall u, sumf (el_dofs el) (fun k => el_shape el k u) = 1) /\
  forall F u, polynomial order D F -> sumf (el_dofs el) (fun k => el_shape el k u * F (el_node el k)) = F u.
Proof. exact fe_works. Qed.
Print Assumptions C149_shape.
Example C149_shape_ex : exists el, make_fe_by_name sample_lobatto GaussLobattoPoints 3 false 2 = Ok el /\ polynomial 1 2 (fun u => u 0%nat * u 1%nat).
Proof.
  eexists. split; [|exact xy_polynomial]. rewrite (fe_by_name sample_lobatto sample_lobatto_ok GaussLobattoPoints 3 false 2) by lia. reflexivity.
Qed.

(** Which configurations give an operator: with discontinuous elements Gauss-Lobatto points and quadrature only, with
    continuous ones (semi-Lagrangian) all points except Gauss-Chebyshev. *)
Theorem C149_accepted : forall lobatto, lobatto_points lobatto -> forall q name order dt dg D, (1 <= order)%nat -> 0 <= dt -> (D = 2 \/ D = 3)%nat ->
  (operator_element lobatto q name order dt dg D <> Throw <->
     if dg then q = QGaussLobatto /\ name = GaussLobattoPoints else name <> GaussChebyshevPoints) /\
  (forall el, operator_element lobatto q name order dt dg D = Ok el -> make_fe_by_name lobatto name order dg D = Ok el) /\
  operator_element lobatto q name order dt dg D <> UB.
Proof. exact operator_total. Qed.
Print Assumptions C149_accepted.
Example C149_accepted_ex : operator_element sample_lobatto QGauss EquidistantPoints 2 0 false 3 <> Throw.
Proof. apply (operator_total sample_lobatto sample_lobatto_ok); [lia|lra|lia|congruence]. Qed.

(** "Every set of support points can be used with the semi-Lagrangian scheme" (all are offered by the configuration): not
    Gauss-Chebyshev, at no order. *)
Theorem C149_chebyshev_refuted : exists name, forall lobatto q order dt D, lobatto_points lobatto -> (1 <= order)%nat -> 0 <= dt -> (D = 2 \/ D = 3)%nat ->
  operator_element lobatto q name order dt false D = Throw.
Proof.
  exists GaussChebyshevPoints. intros lobatto q order dt D L H T HD. destruct (operator_total lobatto L q GaussChebyshevPoints order dt false D H T HD) as ([A _] & _ & B).
  destruct (operator_element lobatto q GaussChebyshevPoints order dt false D); [exfalso; apply A; congruence|reflexivity|congruence].
Qed.
Print Assumptions C149_chebyshev_refuted.

(** With the elements that are made, one semi-Lagrangian streaming step on periodic Cartesian meshes moves every field that is
    a polynomial of the order of the element on each cell (C48 without its hypothesis on the shape functions). *)
Theorem C149_stream : forall lobatto name order el D N h plane e opp dt dofs Q cells, lobatto_points lobatto -> (1 <= order)%nat ->
  make_fe_by_name lobatto name order false D = Ok el ->
  (0 < D)%nat -> (forall i, (i < D)%nat -> (2 <= N i)%Z) -> (forall i, (i < D)%nat -> 0 < h i) ->
  (forall c, In c cells -> in_grid D N c) -> short_paths D h e dt Q ->
  let M := torus D N h plane in consistent_dofs D N h M (el_dofs el) (el_node el) dofs cells ->
  exists z, assemble M e opp dt (el_dofs el) (el_node el) dofs Q (el_shape el) cells = Some (Ok z) /\
  forall a F f B eps, (1 <= a < Q)%nat ->
    (forall c k, in_grid D N c -> (k < el_dofs el)%nat -> f (a - 1)%nat (dofs c k) = F (to_real M c (el_node el k)) /\ Rabs (F (to_real M c (el_node el k))) <= B) ->
    (forall c, in_grid D N c -> exists G, polynomial order D G /\ forall u, F (to_real M c u) = G u) ->
    (forall x y, nearly_congruent D N h x y -> Rabs (F x - F y) <= eps) ->
    forall c j, In c cells -> (j < el_dofs el)%nat ->
    Rabs (apply_row z f (a - 1) (dofs c j) - F (fun i => to_real M c (el_node el j) i - dt * e a i)) <= INR (el_dofs el) * (1 / 10 ^ 10 * B) + eps.
Proof.
  intros lobatto name order el D N h plane e opp dt dofs Q cells L H E HD HN Hh Hc Hs M Hdof.
  destruct (fe_works lobatto name order false D el L H E) as (_ & In & _ & _ & Rep).
  destruct (torus_stream D N h plane e opp dt (el_dofs el) (el_node el) dofs Q (el_shape el) cells HD HN Hh Hc In Hs Hdof) as (z & Ez & Hz).
  exists z. split; [exact Ez|]. intros a F f B eps Ha Hf HF He c j Hcj Hj. apply Hz; try assumption.
  intros c' Hc'. apply (torus_reproduces D N h plane order el F c' Rep). exact (HF c' Hc').
Qed.
Print Assumptions C149_stream.
Example C149_stream_ex : exists el, make_fe_by_name sample_lobatto EquidistantPoints 1 false 2 = Ok el /\
  short_paths 2 (fun _ => 1) (fun a => pt2 (INR (a mod 2)) 0) 20 5 /\
  exists G, polynomial 1 2 G /\ forall u, (fun x : point => x 0%nat * x 1%nat) (to_real (torus 2 (fun _ => 2%Z) (fun _ => 1) (fun _ _ => (pt2 0 0, pt2 0 0))) (fun _ => 0%Z) u) = G u.
Proof.
  eexists. split; [rewrite (fe_by_name sample_lobatto sample_lobatto_ok EquidistantPoints 1 false 2) by lia; reflexivity|]. split; [apply torus_setup|].
  exists (fun u => u 0%nat * u 1%nat). split; [exact xy_polynomial|]. intros u. cbn [torus to_real]. ring.
Qed.

(** With equidistant points the degrees of freedom are the sites of a lattice: the hypotheses of C130 on shape functions and
    points hold for the element that is made at every order. *)
Theorem C149_lattice : forall lobatto D p el N h e dt Q dofs cells m, lobatto_points lobatto -> (1 <= p)%nat ->
  make_fe_by_name lobatto EquidistantPoints p false D = Ok el ->
  (0 < D)%nat -> INR p <= 10 ^ 10 -> (forall i, (i < D)%nat -> (2 <= N i)%Z) -> (forall i, (i < D)%nat -> 0 < h i) ->
  (forall c, In c cells -> in_grid D N c) ->
  (forall c, in_grid D N c -> exists c', In c' cells /\ (forall i, (i < D)%nat -> c' i = c i) /\ forall j, dofs c' j = dofs c j) ->
  (forall c c' j j', In c cells -> In c' cells -> (j < el_dofs el)%nat -> (j' < el_dofs el)%nat -> dofs c j = dofs c' j' ->
     same_site D p N (site p (fun j i => digit (S p) i j) c j) (site p (fun j i => digit (S p) i j) c' j')) ->
  (forall a i, (a < Q)%nat -> (i < D)%nat -> dt * e a i = IZR (m a i) * (h i / INR p)) -> (forall i, m 0%nat i = 0%Z) -> short_paths D h e dt Q ->
  lattice_mesh D p N h e dt Q (el_dofs el) (fun j i => digit (S p) i j) (el_shape el) dofs cells m /\
  el_node el = fun j i => INR (digit (S p) i j) / INR p.
Proof. exact equidistant_lattice. Qed.
Print Assumptions C149_lattice.
Example C149_lattice_ex : exists el, make_fe_by_name sample_lobatto EquidistantPoints 2 false 2 = Ok el /\ el_node el 5 0%nat = 1 /\ el_node el 5 1%nat = 1 / 2.
Proof.
  eexists. split; [rewrite (fe_by_name sample_lobatto sample_lobatto_ok EquidistantPoints 2 false 2) by lia; reflexivity|].
  cbn [tensor_element el_node support_points]. replace (digit 3 0 5) with 2%nat by reflexivity. replace (digit 3 1 5) with 1%nat by reflexivity. cbn [INR]. split; field.
Qed.

(** The problems that call themselves Cartesian are: their cells, after the transformation of the grid, are mapped by the
    Cartesian mapping as by the multilinear mapping of their vertices. *)
Theorem C149_mapping : forall f a h vertex dg, let D := match f with FChannel _ => 3%nat | _ => 2%nat end in
  (forall k, (k < 2 ^ D)%nat -> flagged_grid f (box_vertex a h k) = Ok (vertex k)) ->
  forall u i, (i < D)%nat -> mapping true dg D vertex u i = mapping_q1 D vertex u i.
Proof. intros f a h vertex dg D H u i Hi. exact (separable_mapping D (flagged_grid f) a h vertex dg (flagged_separable f) H u i Hi). Qed.
Print Assumptions C149_mapping.
(** SinusoidalShear2D, which does not, is not: with the Cartesian mapping the wall would be at 1 instead of 1.49. *)
Example C149_mapping_ex : (forall k, (k < 4)%nat -> sinus_point 1 (49 / 100) 1 (box_vertex (fun _ => 0) (fun i => match i with O => 1 / 4 | _ => 1 end) k) = Ok (sinus_vertex k)) /\
  mapping true false 2 sinus_vertex (fun _ => 1) 1%nat = 1 /\ mapping false false 2 sinus_vertex (fun _ => 1) 1%nat = 149 / 100.
Proof. exact sinus_differs. Qed.

(** Lid-driven cavity: the transformation of each coordinate keeps the order and both walls. *)
Theorem C149_cavity : forall a b, 0 < a -> a < b -> b < 1 ->
  cavity_trafo 0 a b = Ok 0 /\ cavity_trafo 1 a b = Ok 1 /\
  forall x y, 0 <= x -> x < y -> y <= 1 -> exists X Y, cavity_trafo x a b = Ok X /\ cavity_trafo y a b = Ok Y /\ 0 <= X /\ X < Y /\ Y <= 1.
Proof. exact cavity_order. Qed.
Print Assumptions C149_cavity.
Example C149_cavity_ex : exists q, cavity_grid (1, 0) = Ok q /\ q = (1, 0).
Proof.
  destruct (cavity_order (2 / 10) (9 / 10) ltac:(lra) ltac:(lra) ltac:(lra)) as (_ & A & _).
  destruct (cavity_order (15 / 100) (85 / 100) ltac:(lra) ltac:(lra) ltac:(lra)) as (B & _ & _).
  eexists. split; [|reflexivity]. unfold cavity_grid. cbn [fst snd]. rewrite A. cbn [obind]. rewrite B. reflexivity.
Qed.
