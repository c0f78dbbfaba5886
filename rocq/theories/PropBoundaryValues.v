(** Properties C112, C113, C118-C122: Grad's function, prescribed values, lines of interfaces, flow variables at a boundary. *)
From Coq Require Import QArith Qreals.
From Verif Require Import Prelude StencilData ModelStencils SpecStencils SpecCollision ModelConfigNames ModelEquilibria ModelCollision
  ProofOldCollision ProofWick ProofCollideNode ModelGrads ProofGrads ModelPrescribed SpecPrescribed ProofPrescribed ProofPrescribed2 ModelLines SpecLines ProofLines.
Local Open Scope R_scope.

(** ** C112: Grad's function has the prescribed density, momentum and pressure tensor. *)
Theorem C112_moments : forall t s rho j P f, closed_form t = true -> s <> 0 ->
  grads_function (st_D (stencil_of t s)) (st_Q (stencil_of t s)) (stencil_of t s) rho j P = Ok f ->
  mass (stencil_of t s) f = rho /\ (forall a, (a < st_D (stencil_of t s))%nat -> momentum (stencil_of t s) f a = j a) /\
  (forall a b, (a < st_D (stencil_of t s))%nat -> (b < st_D (stencil_of t s))%nat -> moment2 (stencil_of t s) f a b = (P a b + P b a) / 2).
Proof. exact grads_all. Qed.
Print Assumptions C112_moments.

Theorem C112_succeeds : forall t s rho j P, 0 < rho ->
  exists f, grads_function (st_D (stencil_of t s)) (st_Q (stencil_of t s)) (stencil_of t s) rho j P = Ok f.
Proof. exact grads_succeeds. Qed.
Print Assumptions C112_succeeds.
Example C112_ex : exists f, grads_function 3 19 (D3Q19 2) (3/2) (fun a => INR a) (fun a b => INR (a + b)) = Ok f /\ moment2 (D3Q19 2) f 1 2 = 3.
Proof.
  destruct (grads_succeeds Stencil_D3Q19 2 (3/2) (fun a => INR a) (fun a b => INR (a + b))) as [f Hf]; [lra|]. exists f. split; [exact Hf|].
  destruct (grads_all Stencil_D3Q19 2 _ _ _ f eq_refl ltac:(lra) Hf) as (_ & _ & H). change (stencil_of Stencil_D3Q19 2) with (D3Q19 2) in H.
  rewrite H by (cbn; lia). cbn. lra.
Qed.

(** With the moments of the equilibrium it is the equilibrium of the BGK collision. *)
Theorem C112_equilibrium : forall st rho u f, st_cs2 st <> 0 ->
  grads_function (st_D st) (st_Q st) st rho (fun a => rho * u a) (fun a b => rho * st_cs2 st * delta a b + rho * u a * u b) = Ok f ->
  forall i, f i = BGKEquilibrium_generic st rho u i.
Proof. exact grads_equilibrium. Qed.
Print Assumptions C112_equilibrium.
Example C112_equilibrium_ex : exists f, grads_function 2 9 (D2Q9 1) 1 (fun a => 1 * INR a) (fun a b => 1 * st_cs2 (D2Q9 1) * delta a b + 1 * INR a * INR b) = Ok f.
Proof. apply (grads_succeeds Stencil_D2Q9 1 1). lra. Qed.

(** ** C113: a boundary reports the values it was constructed with, and no others. *)
Theorem C113_pressure_partial : forall p, let b := boundary_values (pv_of_pressure p) in
  pv_flags b = boundary_p /\ reports (pv_pressure b) p /\ absent (pv_velocity b) /\ absent (pv_temperature b) /\ absent (pv_gradient b).
Proof. exact pressure_reports. Qed.
Print Assumptions C113_pressure_partial.

Theorem C113_velocity_partial : forall dim u, let b := boundary_values (pv_of_velocity dim u) in
  pv_flags b = boundary_u /\ reports_vector (pv_velocity b) dim u /\ absent (pv_pressure b) /\ absent (pv_temperature b) /\ absent (pv_gradient b).
Proof. exact velocity_reports. Qed.
Print Assumptions C113_velocity_partial.

Theorem C113_vector_partial : forall dim u v, pv_of_vector dim u = Ok v -> let b := boundary_values v in
  length u = dim /\ pv_flags b = boundary_u /\ reports_vector (pv_velocity b) dim (fun k => nth k u 0) /\ absent (pv_pressure b) /\ absent (pv_temperature b) /\ absent (pv_gradient b).
Proof. exact vector_reports. Qed.
Print Assumptions C113_vector_partial.
Theorem C113_vector_accepted : forall dim u, (exists v, pv_of_vector dim u = Ok v) <-> length u = dim.
Proof. exact vector_accepts. Qed.
Print Assumptions C113_vector_accepted.

Theorem C113_gradient_partial : forall g, let b := boundary_values (pv_of_gradient g) in
  pv_flags b = boundary_du_dx /\ (exists G, pv_gradient b = Some G /\ forall x i k, G x i k = g i k) /\
  absent (pv_pressure b) /\ absent (pv_velocity b) /\ absent (pv_temperature b).
Proof. exact gradient_reports. Qed.
Print Assumptions C113_gradient_partial.

Theorem C113_function_partial : forall dim f v, (1 < dim)%nat -> pv_function dim f = Ok v -> let b := boundary_values v in
  absent (pv_temperature b) /\ absent (pv_gradient b) /\
  ((n_components f = 1%nat /\ pv_flags b = boundary_p /\ pv_pressure b = Some f /\ absent (pv_velocity b)) \/
   (n_components f = dim /\ pv_flags b = boundary_u /\ pv_velocity b = Some f /\ absent (pv_pressure b))).
Proof. exact function_reports. Qed.
Print Assumptions C113_function_partial.
Theorem C113_function_accepted : forall dim f, (exists v, pv_function dim f = Ok v) <-> n_components f = 1%nat \/ n_components f = dim.
Proof. exact function_accepts. Qed.
Print Assumptions C113_function_accepted.
Example C113_ex : (exists v, pv_of_vector 2 [3; 4] = Ok v /\ reports_vector (pv_velocity (boundary_values v)) 2 (fun k => nth k [3; 4] 0)) /\
  pv_of_vector 3 [3; 4] = Throw /\ pv_function 3 (BoundaryVelocity 2 (fun _ => 1)) = Throw.
Proof.
  split; [|split; reflexivity]. destruct (proj2 (vector_accepts 2 [3; 4]) eq_refl) as [v Hv]. exists v. split; [exact Hv|]. apply (vector_reports 2 [3; 4] v Hv).
Qed.

(** Pressure, velocity and temperature: the first two are reported, *)
Theorem C113_pUT_partial : forall dim p u T, let b := boundary_values (pv_of_pUT dim p u T) in
  pv_flags b = boundary_pUT /\ reports (pv_pressure b) p /\ reports_vector (pv_velocity b) dim u /\ absent (pv_gradient b) /\ absent (pv_temperature b).
Proof. exact pUT_reports. Qed.
Print Assumptions C113_pUT_partial.
(** the temperature is replaced by the pressure and then lost. *)
Theorem C113_temperature_refuted : exists dim p u T, reports (pv_temperature (pv_of_pUT dim p u T)) p /\ ~ reports (pv_temperature (pv_of_pUT dim p u T)) T /\
  forall T', ~ reports (pv_temperature (boundary_values (pv_of_pUT dim p u T))) T'.
Proof.
  exists 2%nat, 1, (fun _ => 0), 2. split; [apply pUT_temperature|]. split.
  - intros (f & E & H). injection E as <-. specialize (H (fun _ => 0)). cbn in H. injection H. lra.
  - intros T' (f & E & _). discriminate.
Qed.
Print Assumptions C113_temperature_refuted.

(** ** C118: checkParallelLines accepts parallel lines of equal length and orients the second one like the first one. *)
Theorem C118_accepts : forall b1 e1 b2 e2 c, all_distinct b1 e1 b2 e2 -> sub e2 b2 = scale c (sub e1 b1) -> 99/100 <= Rabs c <= 101/100 ->
  exists b2' e2', checkParallelLines b1 e1 b2 e2 = ((true, (b2', e2')), None) /\
    ((b2', e2') = (b2, e2) \/ (b2', e2') = (e2, b2)) /\ sub e2' b2' = scale (Rabs c) (sub e1 b1).
Proof. exact check_parallel. Qed.
Print Assumptions C118_accepts.
Example C118_accepts_ex : all_distinct (0, 0) (1, 0) (1, 1) (0, 1) /\ sub (0, 1) (1, 1) = scale (-1) (sub (1, 0) (0, 0)).
Proof.
  split.
  - unfold all_distinct. repeat split; intros X; injection X; intros; lra.
  - unfold sub, scale. cbn [fst snd]. f_equal; ring.
Qed.

(** What is accepted: a deviation of 1 % in length and of arccos 0.99 (8 degrees) in direction. *)
Theorem C118_decides_partial : forall b1 e1 b2 e2,
  fst (fst (checkParallelLines b1 e1 b2 e2)) = true <->
  all_distinct b1 e1 b2 e2 /\ Rabs (distance b1 e1 - distance b2 e2) <= distance b1 e1 / 100 /\ almost_parallel b1 e1 b2 e2.
Proof. exact check_decides. Qed.
Print Assumptions C118_decides_partial.
Theorem C118_orients : forall b1 e1 b2 e2 b2' e2' m, checkParallelLines b1 e1 b2 e2 = ((true, (b2', e2')), m) ->
  ((b2', e2') = (b2, e2) \/ (b2', e2') = (e2, b2)) /\ 99/100 * (distance b1 e1 * distance b2' e2') < dot2 (sub e1 b1) (sub e2' b2').
Proof. exact check_orients. Qed.
Print Assumptions C118_orients.
Theorem C118_reason : forall b1 e1 b2 e2 l m, checkParallelLines b1 e1 b2 e2 = ((false, l), m) ->
  l = (b2, e2) /\ exists e, m = Some e /\
  match e with
  | PointsEqual => ~ all_distinct b1 e1 b2 e2
  | LengthsDiffer => all_distinct b1 e1 b2 e2 /\ distance b1 e1 / 100 < Rabs (distance b1 e1 - distance b2 e2)
  | NotParallel => all_distinct b1 e1 b2 e2 /\ ~ almost_parallel b1 e1 b2 e2
  end.
Proof. exact check_rejects. Qed.
Print Assumptions C118_reason.
Theorem C118_parallel_refuted : exists b1 e1 b2 e2, fst (fst (checkParallelLines b1 e1 b2 e2)) = true /\ ~ parallel b1 e1 b2 e2.
Proof. exists (0, 0), (10, 0), (0, 1), (10, 2). exact tilt. Qed.
Print Assumptions C118_parallel_refuted.

(** ** C119: getInterfacialLinesByBoundaryIndicator finds the end points of the two interfaces and says if they are lines. *)
Theorem C119_lines_partial : forall id1 id2 faces A1 B1 A2 B2, id1 <> id2 ->
  separated (vertices id1 faces) -> on_segment A1 B1 (vertices id1 faces) -> 1000 * fst A1 + snd A1 < 1000 * fst B1 + snd B1 ->
  separated (vertices id2 faces) -> on_segment A2 B2 (vertices id2 faces) -> 1000 * fst A2 + snd A2 < 1000 * fst B2 + snd B2 ->
  getInterfacialLines id1 id2 faces = Ok (true, ((A1, B1), (A2, B2))).
Proof. exact interfaces_ok. Qed.
Print Assumptions C119_lines_partial.
Definition two_walls : list face := [(1%nat, ((0, 0), (0, 1))); (2%nat, ((2, 0), (2, 1))); (1%nat, ((0, 1), (0, 2))); (2%nat, ((2, 1), (2, 2)))].
Example C119_lines_partial_ex : separated (vertices 1 two_walls) /\ on_segment (0, 0) (0, 2) (vertices 1 two_walls).
Proof.
  unfold separated, on_segment. cbn [two_walls vertices flat_map Nat.eqb fst snd app In]. split.
  - intros v w Hv Hw. destruct Hv as [<-|[<-|[<-|[<-|[]]]]]; destruct Hw as [<-|[<-|[<-|[<-|[]]]]]; cbn [fst snd];
    first [left; reflexivity | right; match goal with |- _ < Rabs ?z => first [rewrite (Rabs_right z) by lra | rewrite (Rabs_left z) by lra] end; lra].
  - split; [tauto|]. split; [tauto|]. intros v Hv. destruct Hv as [<-|[<-|[<-|[<-|[]]]]]; cbn [fst snd]; [exists 0|exists (1/2)|exists (1/2)|exists 1]; repeat split; lra.
Qed.
(** An indicator without faces is not reported, the end points of an empty map are read; *)
Theorem C119_missing_refuted : exists id1 id2 faces, vertices id1 faces <> [] /\ vertices id2 faces = [] /\ getInterfacialLines id1 id2 faces = UB.
Proof.
  exists 1%nat, 3%nat, two_walls. split; [discriminate|]. split; [reflexivity|]. apply interfaces_missing. right; reflexivity.
Qed.
Print Assumptions C119_missing_refuted.
(** different end points with the same key are taken for one; *)
Theorem C119_key_refuted : exists id1 id2 faces, vertices id1 faces = [(0, 1000); (1, 0)] /\ vertices id2 faces = [(2, 0); (2, 1)] /\ getInterfacialLines id1 id2 faces = UB.
Proof. exists 1%nat, 2%nat, steep. split; [reflexivity|]. split; [reflexivity|]. exact steep_undefined. Qed.
Print Assumptions C119_key_refuted.
(** and a kink of 6 degrees is a line. *)
Theorem C119_straight_refuted : exists id1 id2 faces l, getInterfacialLines id1 id2 faces = Ok (true, l) /\ ~ straight (vertices id1 faces).
Proof. exists 1%nat, 2%nat, kink, (((0, 0), (2, 0)), ((0, 1), (2, 1))). exact kink_accepted. Qed.
Print Assumptions C119_straight_refuted.

(** ** C120: the density, velocity and time derivatives at a boundary point are those of the finite element solution. *)
Theorem C120_values : forall st nu dt n f phi gphi hphi shape x, shapes (st_D st) n shape x phi gphi hphi ->
  forall flags z y, fe_reinit st nu dt n f phi gphi hphi flags z = Ok y ->
  let rho d := mass st (fun q => f q d) in
  let j d i := momentum st (fun q => f q d) i in
  let u d i := j d i / rho d in
    served flags /\ fe_upToDate y = flags /\
    (has boundary_rho flags = true -> fe_rho y = fe_field n shape rho x) /\
    (has boundary_u flags = true ->
      (forall i, (i < st_D st)%nat -> fe_u y i = fe_field n shape (fun d => u d i) x) /\ (forall d, (d < n)%nat -> rho d <> 0) /\
      sqrt (sumf (st_D st) (fun i => (fe_u y i * fe_rho y - fe_field n shape (fun d => j d i) x) ^ 2)) < 1 / 10 ^ 10) /\
    (has boundary_drho_dt flags = true -> continuity_equation (st_D st) (fun i => fe_field n shape (fun d => j d i)) x (fe_drhodt y)) /\
    (has boundary_du_dt flags = true -> fe_rho y <> 0 /\
      momentum_equation (st_D st) (st_cs2 st) nu (fe_field n shape rho) (fun k => fe_field n shape (fun d => u d k)) x (fe_dudt y)).
Proof. exact fe_inv. Qed.
Print Assumptions C120_values.
Example C120_values_ex : shapes (st_D (D2Q9 1)) 2 tent (fun _ => 1/2) tent_phi tent_grad (fun _ _ _ => 0) /\
  exists y, fe_reinit (D2Q9 1) 1 1 2 sheared tent_phi tent_grad (fun _ _ _ => 0) 27 fe_zero = Ok y.
Proof. split; [exact tent_shapes|apply sheared_ok]. Qed.

(** ** C121: every quantity a boundary asks for is delivered. *)
Theorem C121_delivered_partial : forall st nu dt n f phi gphi hphi shape x, shapes (st_D st) n shape x phi gphi hphi ->
  forall flags z, served flags -> 0 < nu -> 0 < dt ->
  let rho d := mass st (fun q => f q d) in
  let j d i := momentum st (fun q => f q d) i in
  (has boundary_u flags = true -> (forall d, (d < n)%nat -> rho d <> 0) /\ fe_field n shape rho x <> 0 /\
      (forall i, (i < st_D st)%nat -> fe_field n shape (fun d => j d i / rho d) x * fe_field n shape rho x = fe_field n shape (fun d => j d i) x)) ->
  exists y, fe_reinit st nu dt n f phi gphi hphi flags z = Ok y.
Proof. exact fe_succeeds. Qed.
Print Assumptions C121_delivered_partial.
Example C121_delivered_partial_ex : served (N.lor boundary_rho boundary_u).
Proof. cbn. tauto. Qed.
(** The velocity without the density is never delivered; *)
Theorem C121_other_requests : forall st nu dt n f phi gphi hphi flags z y, ~ served flags -> fe_reinit st nu dt n f phi gphi hphi flags z <> Ok y.
Proof. exact fe_other. Qed.
Print Assumptions C121_other_requests.
Theorem C121_velocity_refuted : forall st nu dt n f phi gphi hphi z, (forall y, fe_reinit st nu dt n f phi gphi hphi boundary_u z <> Ok y) /\
  (forall y, fe_reinit st nu dt n f phi gphi hphi boundary_du_dx z <> Ok y) /\ (forall y, fe_reinit st nu dt n f phi gphi hphi boundary_p z <> Ok y).
Proof. intros. repeat split; intros y; apply fe_other; cbn; intros H; repeat destruct H as [H|H]; try discriminate; contradiction. Qed.
Print Assumptions C121_velocity_refuted.
(** and density and velocity are refused where both vary. *)
Theorem C121_varying_density_refuted : exists f phi, (forall d, (d < 2)%nat -> 1 <= mass (D2Q9 1) (fun q => f q d)) /\ (phi 0%nat + phi 1%nat = 1) /\
  forall z, fe_reinit (D2Q9 1) 1 1 2 f phi (fun _ _ => 0) (fun _ _ _ => 0) (N.lor boundary_rho boundary_u) z = Throw.
Proof.
  exists uneven, (fun _ => 1/2). split; [|split; [lra|exact uneven_throws]].
  intros d Hd. unfold mass. destruct d as [|[|d]]; [| |lia]; cbn [D2Q9 st_Q sumf uneven]; lra.
Qed.
Print Assumptions C121_varying_density_refuted.

(** ** C122: is_angle_small compares the angle with the threshold in degrees. *)
Theorem C122_default_partial : forall v w, is_angle_small v w 0 = true <-> 99/100 * (norm2 v * norm2 w) < dot2 v w.
Proof. exact angle0. Qed.
Print Assumptions C122_default_partial.
Theorem C122_refuses_refuted : exists v w deg, 0 < deg < 90 /\ angle_below v w deg /\ is_angle_small v w deg = false.
Proof. exists (1, 0), (1, 0), (PI * PI / 90). exact threshold_refuses. Qed.
Print Assumptions C122_refuses_refuted.
Theorem C122_accepts_refuted : exists v w deg, 0 < deg < 90 /\ ~ angle_below v w deg /\ is_angle_small v w deg = true.
Proof. exists (1, 0), (0, 1), (PI * PI / 180). exact threshold_accepts. Qed.
Print Assumptions C122_accepts_refuted.
