(** Support points, choice of the element, mappings. *)
From Verif Require Import Prelude BigSum ModelSemiLagrangian SpecSemiLagrangian ModelStencils SpecLattice ModelSEDG ModelBenchmarks SpecBenchmarks ModelTurbChannel ModelElements SpecElements ProofSemiLagrangian ProofElements.
Local Open Scope R_scope.

Lemma INR_div_unit i n : (1 <= n)%nat -> (i <= n)%nat -> 0 <= INR i / INR n <= 1.
Proof.
  intros Hn Hi. assert (P : 0 < INR n) by (apply lt_0_INR; lia). assert (A := pos_INR i). assert (B := le_INR i n Hi). split.
  - apply Rmult_le_pos; [exact A|]. left. apply Rinv_0_lt_compat. exact P.
  - apply Rmult_le_reg_r with (INR n); [exact P|]. unfold Rdiv. rewrite Rmult_assoc, Rinv_l by lra. lra.
Qed.
Lemma INR_div_lt i j n : (1 <= n)%nat -> (i < j)%nat -> INR i / INR n < INR j / INR n.
Proof.
  intros Hn H. assert (P : 0 < INR n) by (apply lt_0_INR; lia). apply Rmult_lt_compat_r; [apply Rinv_0_lt_compat; exact P|]. apply lt_INR. exact H.
Qed.
Lemma cos_turn s : cos (PI * (1 + s)) = - cos (PI * s).
Proof. replace (PI * (1 + s)) with (PI * s + PI) by ring. apply neg_cos. Qed.
Lemma half_cos_unit s : 0 <= 1 / 2 * (1 + cos (PI * (1 + s))) <= 1.
Proof. assert (A := COS_bound (PI * (1 + s))). lra. Qed.
Lemma half_cos_lt s t : 0 <= s -> s < t -> t <= 1 -> 1 / 2 * (1 + cos (PI * (1 + s))) < 1 / 2 * (1 + cos (PI * (1 + t))).
Proof.
  intros A B C. rewrite !cos_turn. assert (P := PI_RGT_0). enough (cos (PI * t) < cos (PI * s)) by lra.
  apply cos_decreasing_1; nra.
Qed.
Theorem points_ordered lobatto : lobatto_points lobatto -> forall name order, (1 <= order)%nat -> ordered_points order (support_points lobatto name order).
Proof.
  intros L name order H. destruct name; cbn [support_points].
  - exact (proj1 (L order H)).
  - split; [intros; apply half_cos_unit|]. intros i j Hij. assert (A := INR_div_unit (2 * i + 1) (2 * order + 2) ltac:(lia) ltac:(lia)).
    assert (B := INR_div_unit (2 * j + 1) (2 * order + 2) ltac:(lia) ltac:(lia)). assert (C := INR_div_lt (2 * i + 1) (2 * j + 1) (2 * order + 2) ltac:(lia) ltac:(lia)).
    apply half_cos_lt; lra.
  - split; [intros; apply half_cos_unit|]. intros i j Hij. assert (A := INR_div_unit i order ltac:(lia) ltac:(lia)).
    assert (B := INR_div_unit j order ltac:(lia) ltac:(lia)). assert (C := INR_div_lt i j order ltac:(lia) ltac:(lia)). apply half_cos_lt; lra.
  - split; [intros; apply INR_div_unit; lia|]. intros i j Hij. apply INR_div_lt; lia.
Qed.
Lemma ordered_distinct n x : ordered_points n x -> distinct n x.
Proof. intros [_ H] i j L E. specialize (H i j L). lra. Qed.

(** ** The element *)
Definition serves (name : support_name) (dg : bool) : bool := match name, dg with GaussChebyshevPoints, false => false | _, _ => true end.
Lemma ends lobatto name order : lobatto_points lobatto -> (1 <= order)%nat -> name <> GaussChebyshevPoints ->
  support_points lobatto name order 0%nat = 0 /\ support_points lobatto name order order = 1.
Proof.
  intros L H N. destruct name; cbn [support_points]; [| congruence | |].
  - split; apply (L order H).
  - assert (P : 0 < INR order) by (apply lt_0_INR; lia). split.
    + replace (PI * (1 + INR 0 / INR order)) with PI by (cbn [INR]; field; lra). rewrite cos_PI. lra.
    + replace (PI * (1 + INR order / INR order)) with (2 * PI) by (field; lra). rewrite cos_2PI. lra.
  - assert (P : 0 < INR order) by (apply lt_0_INR; lia). split; [cbn [INR]|]; field; lra.
Qed.
Lemma chebyshev_inside lobatto order : 0 < support_points lobatto GaussChebyshevPoints order 0%nat.
Proof.
  cbn [support_points]. rewrite cos_turn. assert (P : 0 < INR (2 * order + 2)) by (apply lt_0_INR; lia).
  assert (A : 0 < INR (2 * 0 + 1) / INR (2 * order + 2) < 1).
  { cbn [Nat.mul Nat.add INR]. split; [apply Rmult_lt_0_compat; [lra|apply Rinv_0_lt_compat; exact P]|].
    apply Rmult_lt_reg_r with (INR (2 * order + 2)); [exact P|]. unfold Rdiv. rewrite Rmult_assoc, Rinv_l by lra.
    assert (B : 2 <= INR (2 * order + 2)) by (replace 2 with (INR 2) by (cbn; lra); apply le_INR; lia). lra. }
  assert (Q := PI_RGT_0). assert (B : cos (PI * (INR (2 * 0 + 1) / INR (2 * order + 2))) < cos 0) by (apply cos_decreasing_1; nra).
  rewrite cos_0 in B. lra.
Qed.
Theorem fe_by_name lobatto : lobatto_points lobatto -> forall name order dg D, (1 <= order)%nat ->
  make_fe_by_name lobatto name order dg D = if serves name dg then Ok (tensor_element (support_points lobatto name order) order D) else Throw.
Proof.
  intros L name order dg D H. unfold make_fe_by_name. destruct dg; [destruct name; reflexivity|].
  destruct name eqn:En; try (
    match goal with |- context[support_points lobatto ?nm order 0%nat] => destruct (ends lobatto nm order L H ltac:(congruence)) as [E0 E1]; rewrite E0, E1 end;
    destruct (Req_EM_T 0 0) as [_|X]; [|congruence]; destruct (Req_EM_T 1 1) as [_|X]; [|congruence]; reflexivity).
  cbn [serves]. destruct (Req_EM_T (support_points lobatto GaussChebyshevPoints order 0%nat) 0) as [E|_]; [|reflexivity].
  exfalso. assert (A := chebyshev_inside lobatto order). lra.
Qed.
Theorem fe_works lobatto name order dg D el : lobatto_points lobatto -> (1 <= order)%nat -> make_fe_by_name lobatto name order dg D = Ok el ->
  el_dofs el = (S order ^ D)%nat /\
  (forall k, (k < el_dofs el)%nat -> inside D (el_node el k)) /\
  (forall j k, (j < el_dofs el)%nat -> (k < el_dofs el)%nat -> el_shape el j (el_node el k) = delta j k) /\
  (forall u, sumf (el_dofs el) (fun k => el_shape el k u) = 1) /\
  forall F u, polynomial order D F -> sumf (el_dofs el) (fun k => el_shape el k u * F (el_node el k)) = F u.
Proof.
  intros L H E. rewrite (fe_by_name lobatto L name order dg D H) in E. destruct (serves name dg); [|discriminate E].
  injection E as <-. assert (O := points_ordered lobatto L name order H). assert (Hd := ordered_distinct _ _ O).
  split; [reflexivity|]. split; [|split; [|split]].
  - intros k Hk d Hd'. cbn [tensor_element el_node]. apply (proj1 O). assert (A := digit_lt (S order) d k ltac:(lia)). lia.
  - intros j k Hj Hk. apply (tensor_delta _ _ _ Hd); try assumption. reflexivity.
  - intros u. apply (tensor_unity _ _ _ Hd).
  - intros F u HF. apply (tensor_reproduces _ _ _ Hd). exact HF.
Qed.

Theorem operator_total lobatto : lobatto_points lobatto -> forall q name order dt dg D, (1 <= order)%nat -> 0 <= dt -> (D = 2 \/ D = 3)%nat ->
  (operator_element lobatto q name order dt dg D <> Throw <->
     if dg then q = QGaussLobatto /\ name = GaussLobattoPoints else name <> GaussChebyshevPoints) /\
  (forall el, operator_element lobatto q name order dt dg D = Ok el -> make_fe_by_name lobatto name order dg D = Ok el) /\
  operator_element lobatto q name order dt dg D <> UB.
Proof.
  intros L q name order dt dg D H T HD. unfold operator_element.
  destruct (Nat.leb_spec 1 order); [|lia]. destruct (Rle_dec 0 dt) as [_|X]; [|lra]. destruct (Nat.ltb_spec 1 D); [|lia]. destruct (Nat.ltb_spec D 4); [|lia].
  rewrite (fe_by_name lobatto L name order dg D H). split; [|split].
  - destruct dg, name, q; cbn [serves obind]; (split; [intros A; try congruence; try (split; congruence)|intros A; try congruence; try (destruct A; congruence)]).
  - intros el. destruct dg, name, q; cbn [serves obind]; intros A; congruence.
  - destruct dg, name, q; cbn [serves obind]; congruence.
Qed.

(** ** Streaming *)
Lemma torus_reproduces D N h plane n el F c :
  (forall F u, polynomial n D F -> sumf (el_dofs el) (fun k => el_shape el k u * F (el_node el k)) = F u) ->
  (exists G, polynomial n D G /\ forall u, F (to_real (torus D N h plane) c u) = G u) ->
  reproduces (torus D N h plane) (el_dofs el) (el_node el) (el_shape el) F c.
Proof.
  intros H (G & HG & E) u _. rewrite E, <- (H G u HG). apply sumf_ext. intros k _. rewrite E. reflexivity.
Qed.

(** ** Lattices *)
Theorem equidistant_lattice lobatto D p el N h e dt Q dofs cells m : lobatto_points lobatto -> (1 <= p)%nat ->
  make_fe_by_name lobatto EquidistantPoints p false D = Ok el ->
  (0 < D)%nat -> INR p <= 10 ^ 10 -> (forall i, (i < D)%nat -> (2 <= N i)%Z) -> (forall i, (i < D)%nat -> 0 < h i) ->
  (forall c, In c cells -> in_grid D N c) ->
  (forall c, in_grid D N c -> exists c', In c' cells /\ (forall i, (i < D)%nat -> c' i = c i) /\ forall j, dofs c' j = dofs c j) ->
  (forall c c' j j', In c cells -> In c' cells -> (j < el_dofs el)%nat -> (j' < el_dofs el)%nat -> dofs c j = dofs c' j' ->
     same_site D p N (site p (fun j i => digit (S p) i j) c j) (site p (fun j i => digit (S p) i j) c' j')) ->
  (forall a i, (a < Q)%nat -> (i < D)%nat -> dt * e a i = IZR (m a i) * (h i / INR p)) -> (forall i, m 0%nat i = 0%Z) -> short_paths D h e dt Q ->
  lattice_mesh D p N h e dt Q (el_dofs el) (fun j i => digit (S p) i j) (el_shape el) dofs cells m /\
  el_node el = fun j i => INR (digit (S p) i j) / INR p.
Proof.
  intros L Hp E. rewrite (fe_by_name lobatto L _ p false D Hp) in E. cbn [serves] in E. injection E as <-. intros.
  assert (Hd := ordered_distinct _ _ (points_ordered lobatto L EquidistantPoints p Hp)).
  split; [|reflexivity]. constructor; try assumption; try lia.
  - intros j i _ _. assert (A := digit_lt (S p) i j ltac:(lia)). lia.
  - intros w Hw. exists (number (S p) D w). assert (A : forall d, (d < D)%nat -> (w d < S p)%nat) by (intros d Hd'; specialize (Hw d Hd'); lia). split.
    + cbn [tensor_element el_dofs]. apply number_lt. exact A.
    + intros i Hi. apply digit_number; assumption.
  - intros j k u Hj Hk Hu. apply (tensor_delta _ _ _ Hd); try assumption.
Qed.

(** ** Mappings *)
Lemma q1_weight D k u : prodf D (fun d => if Nat.eqb (digit 2 d k) 0 then 1 - u d else u d) = el_shape (tensor_element INR 1 D) k u.
Proof.
  cbn [tensor_element el_shape]. apply prodf_ext. intros d _. assert (A := digit_lt 2 d k ltac:(lia)).
  unfold lagrange. cbn [prodf]. destruct (digit 2 d k) as [|[|z]]; [| |lia]; cbn [Nat.eqb INR]; field.
Qed.
Lemma pow2_digit i d : digit 2 d (2 ^ i) = if Nat.eqb d i then 1%nat else 0%nat.
Proof.
  destruct (Nat.lt_trichotomy d i) as [L|[->|L]].
  - destruct (Nat.eqb_spec d i); [lia|]. replace (2 ^ i)%nat with (1 * 2 ^ i + 0)%nat by lia. rewrite digit_low by lia. unfold digit. rewrite Nat.div_0_l; [reflexivity|]. assert (P := pow_pos_nat 2 d ltac:(lia)). lia.
  - rewrite Nat.eqb_refl. replace (2 ^ i)%nat with (1 * 2 ^ i + 0)%nat by lia. apply digit_high; [lia|]. assert (P := pow_pos_nat 2 i ltac:(lia)). lia.
  - destruct (Nat.eqb_spec d i); [lia|]. unfold digit. rewrite Nat.div_small; [reflexivity|]. apply Nat.pow_lt_mono_r; lia.
Qed.
Lemma digit_0 m d : digit m d 0 = 0%nat.
Proof. unfold digit. destruct (Nat.eq_dec (m ^ d) 0) as [E|E]; [rewrite E; cbn; destruct m; [reflexivity|apply Nat.mod_0_l; lia]|]. rewrite Nat.div_0_l by exact E. destruct m; [reflexivity|apply Nat.mod_0_l; lia]. Qed.
Theorem cartesian_q1 D vertex (G : nat -> nat -> R) : (forall k i, (k < 2 ^ D)%nat -> (i < D)%nat -> vertex k i = G i (digit 2 i k)) ->
  forall u i, (i < D)%nat -> mapping_cartesian vertex u i = mapping_q1 D vertex u i.
Proof.
  intros H u i Hi. unfold mapping_q1, mapping_cartesian.
  assert (P := pow_pos_nat 2 D ltac:(lia)). assert (P2 : (2 ^ i < 2 ^ D)%nat) by (apply Nat.pow_lt_mono_r; lia).
  set (p := fun (d : nat) (t : R) => if Nat.eqb d i then G i 0%nat + t * (G i 1%nat - G i 0%nat) else 1).
  assert (Sel : forall v : nat -> R, prodf D (fun d => p d (v d)) = G i 0%nat + v i * (G i 1%nat - G i 0%nat)).
  { intros v. unfold p. clear - Hi. induction D as [|D' IH]; [lia|]. cbn [prodf]. destruct (Nat.eq_dec i D') as [->|N].
    - rewrite Nat.eqb_refl. rewrite prodf_one; [ring|]. intros d Hd. destruct (Nat.eqb_spec d D'); [lia|reflexivity].
    - rewrite IH by lia. destruct (Nat.eqb_spec D' i); [lia|]. ring. }
  assert (T : sumf (el_dofs (tensor_element INR 1 D)) (fun k => el_shape (tensor_element INR 1 D) k u * prodf D (fun d => p d (el_node (tensor_element INR 1 D) k d))) = prodf D (fun d => p d (u d))).
  { apply (tensor_product INR 1 D).
    - intros a b L E. assert (a = 0%nat) by lia. assert (b = 1%nat) by lia. subst. cbn [INR] in E. lra.
    - intros d _. unfold p. destruct (Nat.eqb d i); [|apply deg_const]. exists (G i 0%nat), (fun _ => G i 1%nat - G i 0%nat). split; [exists (G i 1%nat - G i 0%nat); reflexivity|reflexivity]. }
  rewrite !H by assumption. rewrite digit_0, pow2_digit, Nat.eqb_refl. rewrite (Sel u) in T. rewrite <- T.
  cbn [tensor_element el_dofs]. apply sumf_ext. intros k Hk. rewrite q1_weight. f_equal. rewrite (H k i Hk Hi).
  rewrite (Sel (el_node (tensor_element INR 1 D) k)). cbn [tensor_element el_node]. assert (A := digit_lt 2 i k ltac:(lia)).
  destruct (digit 2 i k) as [|[|z]]; [cbn; ring|cbn; ring|lia].
Qed.
Theorem separable_mapping D T a h vertex dg : separable D T -> (forall k, (k < 2 ^ D)%nat -> T (box_vertex a h k) = Ok (vertex k)) ->
  forall u i, (i < D)%nat -> mapping true dg D vertex u i = mapping_q1 D vertex u i.
Proof.
  intros [g Hg] H u i Hi. unfold mapping. destruct dg; cbn [andb negb]; [reflexivity|].
  apply (cartesian_q1 D vertex (fun i z => g i (a i + INR z * h i))); [|exact Hi].
  intros k j Hk Hj. rewrite (Hg _ _ (H k Hk) j Hj). reflexivity.
Qed.
Theorem flagged_separable f : separable (match f with FChannel _ => 3 | _ => 2 end) (flagged_grid f).
Proof.
  destruct f as [|tX tY|tX tY|un|c|]; unfold separable; cbn [flagged_grid].
  - exists (fun _ t => t). intros p q E. injection E as <-. reflexivity.
  - exists (fun i t => match i with O => shear_trans t tX | _ => shear_trans t tY end). intros p q E. injection E as <-. intros [|[|i]] Hi; [reflexivity|reflexivity|lia].
  - exists (fun i t => match i with O => vortex_trans t tX | _ => vortex_trans t tY end). intros p q E. injection E as <-. intros [|[|i]] Hi; [reflexivity|reflexivity|lia].
  - exists (fun i t => match i with O => t | _ => if un then couette2_trans t else t end). intros p q E. injection E as <-. intros [|[|i]] Hi; [| |lia]; destruct un; reflexivity.
  - exists (fun i t => match i with O => ch_length c * t | S O => trans (ch_height c) (ch_density c) t | _ => ch_width c * t end).
    intros p q E. injection E as <-. intros [|[|[|i]]] Hi; [reflexivity|reflexivity|reflexivity|lia].
  - exists (fun i t => match cavity_trafo t (match i with O => 2 / 10 | _ => 15 / 100 end) (match i with O => 9 / 10 | _ => 85 / 100 end) with Ok z => z | _ => 0 end).
    intros p q E. unfold cavity_grid in E. cbn [fst snd] in E.
    destruct (cavity_trafo (p 0%nat) (2 / 10) (9 / 10)) as [X| |] eqn:E0; cbn [obind] in E; try discriminate E.
    destruct (cavity_trafo (p 1%nat) (15 / 100) (85 / 100)) as [Y| |] eqn:E1; cbn [obind] in E; try discriminate E.
    injection E as <-. intros [|[|i]] Hi; [rewrite E0; reflexivity|rewrite E1; reflexivity|lia].
Qed.

(** ** The lid-driven cavity *)
Lemma shifted_sine_cos x : shifted_sine x = 1 / 2 * (1 - cos (PI * x)).
Proof. unfold shifted_sine. replace (PI * x - 1 / 2 * PI) with (- (PI / 2 - PI * x)) by field. rewrite sin_neg, sin_shift. ring. Qed.
Lemma shifted_sine_lt x y : 0 <= x -> x < y -> y <= 1 -> shifted_sine x < shifted_sine y.
Proof.
  intros A B C. rewrite !shifted_sine_cos. assert (P := PI_RGT_0). enough (cos (PI * y) < cos (PI * x)) by lra. apply cos_decreasing_1; nra.
Qed.
Theorem cavity_order a b : 0 < a -> a < b -> b < 1 ->
  cavity_trafo 0 a b = Ok 0 /\ cavity_trafo 1 a b = Ok 1 /\
  forall x y, 0 <= x -> x < y -> y <= 1 -> exists X Y, cavity_trafo x a b = Ok X /\ cavity_trafo y a b = Ok Y /\ 0 <= X /\ X < Y /\ Y <= 1.
Proof.
  intros A B C. assert (S := shifted_sine_lt a b ltac:(lra) B ltac:(lra)).
  assert (V : forall x, 0 <= x <= 1 -> cavity_trafo x a b = Ok ((shifted_sine ((b - a) * x + a) - shifted_sine a) / (shifted_sine b - shifted_sine a))).
  { intros x Hx. unfold cavity_trafo. destruct (Rlt_dec 0 a); [|lra]. destruct (Rlt_dec b 1); [|lra]. destruct (Rle_dec 0 x); [|lra]. destruct (Rle_dec x 1); [|lra]. reflexivity. }
  assert (M : forall x y, 0 <= x -> x < y -> y <= 1 -> (shifted_sine ((b - a) * x + a) - shifted_sine a) / (shifted_sine b - shifted_sine a) < (shifted_sine ((b - a) * y + a) - shifted_sine a) / (shifted_sine b - shifted_sine a)).
  { intros x y X Y Z. apply Rmult_lt_compat_r; [apply Rinv_0_lt_compat; lra|]. assert (T := shifted_sine_lt ((b - a) * x + a) ((b - a) * y + a) ltac:(nra) ltac:(nra) ltac:(nra)). lra. }
  assert (V0 : (shifted_sine ((b - a) * 0 + a) - shifted_sine a) / (shifted_sine b - shifted_sine a) = 0).
  { replace ((b - a) * 0 + a) with a by ring. field. lra. }
  assert (V1 : (shifted_sine ((b - a) * 1 + a) - shifted_sine a) / (shifted_sine b - shifted_sine a) = 1).
  { replace ((b - a) * 1 + a) with b by ring. field. lra. }
  split; [rewrite V by lra; rewrite V0; reflexivity|]. split; [rewrite V by lra; rewrite V1; reflexivity|].
  intros x y X Y Z. do 2 eexists. split; [apply V; lra|]. split; [apply V; lra|]. split; [|split].
  - destruct (Rle_lt_or_eq_dec 0 x X) as [L|<-]; [|lra]. assert (T := M 0 x ltac:(lra) L ltac:(lra)). lra.
  - apply M; lra.
  - destruct (Rle_lt_or_eq_dec y 1 Z) as [L| ->]; [|lra]. assert (T := M y 1 ltac:(lra) L ltac:(lra)). lra.
Qed.
