(** Whole runs of the semi-Lagrangian solver with a grid-aligned time step. *)
From Coq Require Import FunctionalExtensionality.
From Verif Require Import Prelude BigSum ModelStencils SpecStencils ModelConfigNames ModelEquilibria ModelCollision ModelRun ModelCheckpoint ModelSemiLagrangian ModelWalls ModelSimulationSL
  SpecCollision SpecSetup SpecCollideAll SpecRun SpecSimulation SpecSemiLagrangian SpecStream SpecLattice
  ProofCollideAll ProofRestart ProofRestart2 ProofSimulation2 ProofSemiLagrangian ProofLattice.
Local Open Scope R_scope.

(** ** Sums over a periodic lattice do not change under shifts *)
Lemma cycle_one L (H : Z -> R) : (forall y, H (y + Z.of_nat L)%Z = H y) -> sumf L (fun x => H (Z.of_nat x + 1)%Z) = sumf L (fun x => H (Z.of_nat x)).
Proof.
  intros P. assert (E : forall l, sumf l (fun x => H (Z.of_nat x + 1)%Z) + H 0%Z = sumf l (fun x => H (Z.of_nat x)) + H (Z.of_nat l)).
  { induction l as [|l IH]; [cbn; ring|]. cbn [sumf]. replace (Z.of_nat l + 1)%Z with (Z.of_nat (S l)) by lia. lra. }
  specialize (E L). rewrite <- (P 0%Z) in E. cbn [Z.add] in E. lra.
Qed.
Lemma cycle_nat L (H : Z -> R) k : (forall y, H (y + Z.of_nat L)%Z = H y) -> sumf L (fun x => H (Z.of_nat x + Z.of_nat k)%Z) = sumf L (fun x => H (Z.of_nat x)).
Proof.
  intros P. induction k as [|k IH].
  - apply sumf_ext. intros x _. f_equal. lia.
  - rewrite <- IH. rewrite <- (cycle_one L (fun y => H (y + Z.of_nat k)%Z)).
    + apply sumf_ext. intros x _. f_equal. lia.
    + intros y. rewrite <- (P (y + Z.of_nat k)%Z). f_equal. lia.
Qed.
Lemma cycle L (H : Z -> R) s : (forall y, H (y + Z.of_nat L)%Z = H y) -> sumf L (fun x => H (Z.of_nat x - s)%Z) = sumf L (fun x => H (Z.of_nat x)).
Proof.
  intros P. destruct (Z_le_gt_dec s 0) as [Hs|Hs].
  - rewrite <- (cycle_nat L H (Z.to_nat (- s)) P). apply sumf_ext. intros x _. f_equal. lia.
  - rewrite <- (cycle_nat L (fun y => H (y - s)%Z) (Z.to_nat s)).
    + apply sumf_ext. intros x _. f_equal. lia.
    + intros y. rewrite <- (P (y - s)%Z). f_equal. lia.
Qed.

Section Sites.
  Context (p : nat) (N : nat -> Z).
  Notation over := (over_sites p N).
  Lemma over_ext d F G : (forall x, F x = G x) -> over d F = over d G.
  Proof. revert F G. induction d as [|d IH]; intros F G H; cbn [over_sites]; [apply H|]. apply sumf_ext. intros x _. apply IH. intros y. apply H. Qed.
  Lemma over_plus d F G : over d (fun x => F x + G x) = over d F + over d G.
  Proof.
    revert F G. induction d as [|d IH]; intros F G; cbn [over_sites]; [reflexivity|]. rewrite <- sumf_plus. apply sumf_ext. intros x _. apply IH.
  Qed.
  Lemma over_scal d k F : over d (fun x => k * F x) = k * over d F.
  Proof. revert F. induction d as [|d IH]; intros F; cbn [over_sites]; [reflexivity|]. rewrite <- sumf_scal. apply sumf_ext. intros x _. apply (IH (fun y => F (move y d (Z.of_nat x)))). Qed.
  Lemma over_sum d Q (f : index -> nat -> R) : over d (fun x => sumf Q (f x)) = sumf Q (fun a => over d (fun x => f x a)).
  Proof.
    induction Q as [|Q IH]; cbn [sumf].
    - rewrite (over_ext d _ (fun _ => 0 * 0)) by (intros; ring). rewrite over_scal. ring.
    - rewrite over_plus, IH. reflexivity.
  Qed.
  Lemma over_shift d F s : (forall i, (i < d)%nat -> (0 <= N i)%Z) -> lattice_field d p N F -> over d (fun x => F (fun i => x i - s i)%Z) = over d F.
  Proof.
    revert F. induction d as [|d IH]; intros F HN P; cbn [over_sites].
    - apply P. intros i Hi. lia.
    - transitivity (sumf (Z.to_nat (period p N d)) (fun x => over d (fun y => F (move y d (Z.of_nat x - s d)%Z)))).
      + apply sumf_ext. intros x _. rewrite <- (IH (fun y => F (move y d (Z.of_nat x - s d)%Z)) (fun i Hi => HN i (Nat.lt_lt_succ_r _ _ Hi))).
        * apply over_ext. intros y. f_equal. apply functional_extensionality. intros i. unfold move. destruct (Nat.eqb_spec i d) as [->|]; reflexivity.
        * intros y y' H. apply P. intros i Hi. unfold move. destruct (Nat.eqb_spec i d) as [->|Hne]; [exists 0%Z; ring|apply H; lia].
      + apply (cycle _ (fun z => over d (fun y => F (move y d z)))). intros z. apply over_ext. intros y. apply P. intros i Hi. unfold move.
        destruct (Nat.eqb_spec i d) as [->|Hne]; [|exists 0%Z; ring]. exists 1%Z. rewrite Z2Nat.id; [ring|]. unfold period. specialize (HN d ltac:(lia)). nia.
  Qed.
End Sites.

(** Every site carries a degree of freedom. *)
Lemma every_site D p N h e dt Q n g shape dofs cells m : lattice_mesh D p N h e dt Q n g shape dofs cells m ->
  forall x, exists c j, in_grid D N c /\ (j < n)%nat /\ same_site D p N x (site p g c j).
Proof.
  intros LM x. assert (Hp := lm_order _ _ _ _ _ _ _ _ _ _ _ _ _ LM).
  destruct (lm_every _ _ _ _ _ _ _ _ _ _ _ _ _ LM (fun i => Z.to_nat (x i mod Z.of_nat p))) as (j & Hj & Ej).
  { intros i Hi. assert (B := Z.mod_pos_bound (x i) (Z.of_nat p) ltac:(lia)). lia. }
  exists (fun i => (x i / Z.of_nat p) mod N i)%Z, j. split; [|split; [exact Hj|]].
  - intros i Hi. apply Z.mod_pos_bound. assert (B := lm_cells _ _ _ _ _ _ _ _ _ _ _ _ _ LM i Hi). lia.
  - intros i Hi. exists ((x i / Z.of_nat p) / N i)%Z. unfold site, period. rewrite Ej by exact Hi.
    assert (B := Z.mod_pos_bound (x i) (Z.of_nat p) ltac:(lia)). rewrite Z2Nat.id by lia.
    assert (C := lm_cells _ _ _ _ _ _ _ _ _ _ _ _ _ LM i Hi).
    assert (E1 := Z.div_mod (x i) (Z.of_nat p) ltac:(lia)). assert (E2 := Z.div_mod (x i / Z.of_nat p) (N i) ltac:(lia)). nia.
Qed.
(** The lattice field is determined by the vector. *)
Lemma holds_unique D p N h e dt Q n g shape dofs cells m {A : Type} (f : nat -> A) F F' : lattice_mesh D p N h e dt Q n g shape dofs cells m ->
  holds D p N n g dofs f F -> holds D p N n g dofs f F' -> forall x, F x = F' x.
Proof.
  intros LM [P H] [P' H'] x. destruct (every_site _ _ _ _ _ _ _ _ _ _ _ _ _ LM x) as (c & j & G & Hj & S).
  rewrite (P _ _ S), (P' _ _ S), <- H, <- H' by assumption. reflexivity.
Qed.

Section Run.
  Context (D p : nat) (N : nat -> Z) (h : nat -> R) (plane : index -> nat -> point * point) (e : nat -> point) (opp : nat -> nat) (dt : R)
          (n : nat) (g : nat -> nat -> nat) (shape : nat -> point -> R) (dofs : index -> nat -> nat) (cells : list index) (m : nat -> index).
  Context (k : T_collision) (q : T_equilibrium) (gd : genData) (st : stencil) (scaling : R) (nodes : list nat) (filt : (nat -> nat -> R) -> nat -> nat -> R) (c : run_config).
  Notation Q := (st_Q st).
  Hypothesis LM : lattice_mesh D p N h e dt Q n g shape dofs cells m.
  Hypothesis Hnd : NoDup nodes.
  Hypothesis Hown : forall cl j, In cl cells -> (j < n)%nat -> In (dofs cl j) nodes.
  Hypothesis Hsl : rc_semi_lagrangian c = true.
  Hypothesis Hfl : rc_filtering c = false.
  Hypothesis Hnc : rc_compressible c = false.
  Variable z : list entry.
  Hypothesis Hz : assemble (torus D N h plane) e opp dt n (fun j i => INR (g j i) / INR p) dofs Q shape cells = Some (Ok z).
  Notation o := (sl_ops k q gd st scaling nodes z filt).
  Notation holds_fields := (holds_fields D p N n g dofs).
  Notation holds := (holds D p N n g dofs).

  Lemma stream_holds f L : holds f (lf L) -> holds (sl_stream Q z f) (lf (lb_stream Q m L)).
  Proof.
    intros H. destruct (aligned_shift D p N h plane e opp dt Q n g shape dofs cells m LM) as (z' & Hz' & S). rewrite Hz in Hz'. injection Hz' as <-. apply S. exact H.
  Qed.
  Lemma collide_holds x y L : so_collide o x = Ok y -> holds_fields x L ->
    holds_fields y (lb_collide k q gd L) /\ forall s, exists out, collide_node k q gd false (lf L s) (lu L s) = Ok out.
  Proof.
    intros E [[P1 H1] [P2 H2]]. cbn [sl_ops cfd_ops so_collide] in E. destruct (all_node_by_node k q gd false nodes x y Hnd E) as [A _].
    assert (B : forall cl j, in_grid D N cl -> (j < n)%nat -> exists out, collide_node k q gd false (lf L (site p g cl j)) (lu L (site p g cl j)) = Ok out /\
      fl_f y (dofs cl j) = no_f out /\ fl_u y (dofs cl j) = no_u out).
    { intros cl j G Hj. destruct (lm_all _ _ _ _ _ _ _ _ _ _ _ _ _ LM cl G) as (c' & Hc' & _ & Ed).
      destruct (A (dofs cl j)) as (out & Eo & Ef & _ & Eu). { rewrite <- (Ed j). apply Hown; assumption. }
      rewrite H1, H2 in Eo by assumption. exists out. auto. }
    split.
    - split; (split; [intros s s' Hs; unfold lb_collide; cbn [lf lu]; rewrite (P1 _ _ Hs), (P2 _ _ Hs); reflexivity|]);
        intros cl j G Hj; destruct (B cl j G Hj) as (out & Eo & Ef & Eu); unfold lb_collide; cbn [lf lu]; rewrite Eo; assumption.
    - intros s. destruct (every_site _ _ _ _ _ _ _ _ _ _ _ _ _ LM s) as (cl & j & G & Hj & Ss). destruct (B cl j G Hj) as (out & Eo & _).
      exists out. rewrite (P1 _ _ Ss), (P2 _ _ Ss). exact Eo.
  Qed.

  (** A moment that every collision changes by [dm]. *)
  Variables (w : nat -> R) (dm : R).
  Hypothesis Hcol : forall f u out, collide_node k q gd false f u = Ok out -> sumf Q (fun a => no_f out a * w a) = sumf Q (fun a => f a * w a) + dm.
  Definition amount (L : lattice) : R := over_sites p N D (fun s => sumf Q (fun a => lf L s a * w a)).
  Definition volume : R := over_sites p N D (fun _ => 1).
  Lemma amount_stream L : lattice_field D p N (lf L) -> amount (lb_stream Q m L) = amount L.
  Proof.
    intros P. unfold amount. rewrite (over_sum p N D Q (fun s a => lf (lb_stream Q m L) s a * w a)), (over_sum p N D Q (fun s a => lf L s a * w a)).
    apply sumf_ext. intros a Ha. rewrite (over_ext p N D (fun s => lf (lb_stream Q m L) s a * w a) (fun s => (fun x => lf L x a * w a) (fun i => s i - m a i)%Z)).
    - apply (over_shift p N D (fun x => lf L x a * w a)).
      + intros i Hi. assert (B := lm_cells _ _ _ _ _ _ _ _ _ _ _ _ _ LM i Hi). lia.
      + intros s s' Hs. rewrite (P _ _ Hs). reflexivity.
    - intros s. cbn [lb_stream lf]. destruct (Nat.ltb_spec a Q); [reflexivity|lia].
  Qed.
  Lemma amount_collide L : (forall s, exists out, collide_node k q gd false (lf L s) (lu L s) = Ok out) -> amount (lb_collide k q gd L) = amount L + dm * volume.
  Proof.
    intros H. unfold amount, volume. rewrite <- over_scal, <- over_plus. apply over_ext. intros s. destruct (H s) as [out E]. unfold lb_collide. cbn [lf]. rewrite E.
    rewrite (Hcol _ _ _ E). ring.
  Qed.
  Lemma evolve_holds steps : forall i t d x y L0 j, evolve c o steps i t d x = Ok y -> holds_fields x (lb_run k q gd Q m j L0) ->
    holds_fields y (lb_run k q gd Q m (j + steps) L0) /\
    amount (lb_run k q gd Q m (j + steps) L0) = amount (lb_run k q gd Q m j L0) + INR steps * (dm * volume).
  Proof.
    induction steps as [|s IH]; intros i t d x y L0 j E H.
    - cbn [evolve] in E. injection E as <-. rewrite Nat.add_0_r. split; [exact H|]. cbn [INR]. ring.
    - cbn [evolve] in E. unfold filtered in E. rewrite Hfl in E. cbn [andb] in E.
      destruct (so_collide o (advected c o t d x)) as [x'| |] eqn:Ez; cbn [obind] in E; try discriminate.
      cbn [sl_ops cfd_ops so_processors fold_left] in E.
      assert (HS : holds_fields (advected c o t d x) (lb_stream Q m (lb_run k q gd Q m j L0))).
      { unfold advected. rewrite Hsl. destruct H as [H1 H2]. split; [apply stream_holds; exact H1|exact H2]. }
      destruct (collide_holds _ _ _ Ez HS) as [HC HO].
      destruct (IH _ _ _ _ _ L0 (S j) E HC) as [A B]. replace (j + S s)%nat with (S j + s)%nat by lia. split; [exact A|]. rewrite B.
      cbn [lb_run]. rewrite (amount_collide _ HO), amount_stream by (apply H). rewrite S_INR. ring.
  Qed.
  Lemma run_holds fuel s0 s1 tr L0 : run c o fuel s0 = Some (Ok (s1, tr)) -> holds_fields (sv_x s0) L0 ->
    (holds_fields (sv_x s1) (lb_run k q gd Q m (sv_i s1 - sv_start s0) L0) /\
     amount (lb_run k q gd Q m (sv_i s1 - sv_start s0) L0) = amount L0 + (INR (sv_i s1 - sv_start s0) + 1) * (dm * volume)) /\
    forall i stat d, In (EvCheckpoint i stat d) tr -> holds d (lf (lb_run k q gd Q m (i - sv_start s0) L0)) /\
      amount (lb_run k q gd Q m (i - sv_start s0) L0) = amount L0 + (INR (i - sv_start s0) + 1) * (dm * volume).
  Proof.
    intros E H. destruct (run_evolution c o fuel s0 s1 tr (or_introl Hsl) Hnc E) as (y & Hy & Hev & HF).
    destruct (collide_holds _ _ _ Hy H) as [HC HO]. change (lb_collide k q gd L0) with (lb_run k q gd Q m 0 L0) in HC.
    assert (A0 : amount (lb_run k q gd Q m 0 L0) = amount L0 + dm * volume) by (apply amount_collide; exact HO).
    split.
    - destruct (evolve_holds _ _ _ _ _ _ _ _ Hev HC) as [A B]. rewrite Nat.add_0_l in A, B. split; [exact A|]. rewrite B, A0. ring.
    - intros i stat d Hin. destruct (HF i stat d Hin) as (_ & _ & _ & _ & xn & Hx & ->).
      destruct (evolve_holds _ _ _ _ _ _ _ _ Hx HC) as [A B]. rewrite Nat.add_0_l in A, B. split; [exact (proj1 A)|]. rewrite B, A0. ring.
  Qed.
End Run.
