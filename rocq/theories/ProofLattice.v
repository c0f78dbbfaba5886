(** Semi-Lagrangian streaming with a grid-aligned time step is a shift on the lattice. *)
From Coq Require Import FunctionalExtensionality.
From Verif Require Import Prelude BigSum ModelStencils ModelConfigNames ModelEquilibria ModelCollision ModelRun ModelCheckpoint ModelSemiLagrangian ModelWalls ModelSimulationSL
  SpecSemiLagrangian SpecStream SpecLattice ProofSemiLagrangian ProofSemiLagrangian2 ProofSemiLagrangian3 ProofSemiLagrangian4 ProofStream.
Local Open Scope R_scope.

Lemma same_site_refl D p N x : same_site D p N x x.
Proof. intros i Hi. exists 0%Z. lia. Qed.
Lemma same_site_sym D p N x y : same_site D p N x y -> same_site D p N y x.
Proof. intros H i Hi. destruct (H i Hi) as [k E]. exists (- k)%Z. rewrite E. ring. Qed.
Lemma same_site_trans D p N x y z : same_site D p N x y -> same_site D p N y z -> same_site D p N x z.
Proof. intros H1 H2 i Hi. destruct (H1 i Hi) as [k E]. destruct (H2 i Hi) as [k' E']. exists (k + k')%Z. rewrite E, E'. ring. Qed.
Lemma same_site_shift D p N x y s : same_site D p N x y -> same_site D p N (fun i => x i - s i)%Z (fun i => y i - s i)%Z.
Proof. intros H i Hi. destruct (H i Hi) as [k E]. exists k. rewrite E. ring. Qed.

(** A multiple of 1/p near the unit interval lies in it and is not moved by the snapping. *)
Lemma lattice_snap p w : (0 < p)%nat -> INR p <= 10 ^ 10 -> - (1 / 10 ^ 10) < IZR w / INR p < 1 + 1 / 10 ^ 10 ->
  (0 <= w <= Z.of_nat p)%Z /\ snap (IZR w / INR p) = IZR w / INR p.
Proof.
  intros Hp Hr [H1 H2]. assert (P : 0 < INR p) by (apply lt_0_INR; exact Hp). assert (I := Rinv_0_lt_compat _ P).
  set (T := 10 ^ 10) in *. assert (PT : 0 < T) by (unfold T; apply pow_lt; lra).
  assert (Q1 : INR p / T <= 1). { apply (Rmult_le_reg_r T); [exact PT|]. unfold Rdiv. rewrite Rmult_assoc, Rinv_l by lra. lra. }
  assert (Q2 : / T <= / INR p) by (apply Rinv_le_contravar; assumption).
  assert (B : (0 <= w <= Z.of_nat p)%Z).
  { split.
    - apply Z.lt_succ_r, lt_IZR. rewrite succ_IZR. replace (IZR w) with (IZR w / INR p * INR p) by (field; lra).
      apply (Rmult_lt_compat_r (INR p)) in H1; [|exact P]. replace (- (1 / T) * INR p) with (- (INR p / T)) in H1 by (field; lra). lra.
    - apply Z.lt_succ_r, lt_IZR. rewrite succ_IZR, <- INR_IZR_INZ. replace (IZR w) with (IZR w / INR p * INR p) by (field; lra).
      apply (Rmult_lt_compat_r (INR p)) in H2; [|exact P]. replace ((1 + 1 / T) * INR p) with (INR p + INR p / T) in H2 by (field; lra). lra. }
  split; [exact B|]. unfold snap. fold T in H1. change tol with (1 / T).
  assert (E : (if Rlt_dec (Rabs (IZR w / INR p)) (1 / T) then 0 else IZR w / INR p) = IZR w / INR p).
  { destruct (Rlt_dec (Rabs (IZR w / INR p)) (1 / T)) as [L|L]; [|reflexivity]. destruct (Z.eq_dec w 0) as [->|Hw]; [field; lra|]. exfalso.
    assert (W : 1 <= IZR w) by (apply IZR_le; lia). rewrite Rabs_pos_eq in L by (unfold Rdiv; nra). unfold Rdiv in L. nra. }
  cbv zeta. rewrite E. destruct (Rlt_dec (Rabs (IZR w / INR p - 1)) (1 / T)) as [L|L]; [|reflexivity]. destruct (Z.eq_dec w (Z.of_nat p)) as [->|Hw].
  - rewrite <- INR_IZR_INZ. field. lra.
  - exfalso. assert (W : IZR w <= INR p - 1) by (rewrite INR_IZR_INZ; change 1 with (IZR 1); rewrite <- minus_IZR; apply IZR_le; lia).
    assert (W2 : IZR w / INR p <= 1 - / INR p). { replace (1 - / INR p) with ((INR p - 1) * / INR p) by (field; lra). unfold Rdiv. nra. }
    rewrite Rabs_left1 in L by lra. unfold Rdiv in *. lra.
Qed.

Section Shift.
  Context (D p : nat) (N : nat -> Z) (h : nat -> R) (plane : index -> nat -> point * point) (e : nat -> point) (opp : nat -> nat) (dt : R)
          (Q n : nat) (g : nat -> nat -> nat) (shape : nat -> point -> R) (dofs : index -> nat -> nat) (cells : list index) (m : nat -> index).
  Hypothesis LM : lattice_mesh D p N h e dt Q n g shape dofs cells m.
  Let node : nat -> point := fun j i => INR (g j i) / INR p.
  Let M := torus D N h plane.
  Let dirs := List.seq 1 (Q - 1).
  Let HD := lm_dim _ _ _ _ _ _ _ _ _ _ _ _ _ LM.
  Let HN := lm_cells _ _ _ _ _ _ _ _ _ _ _ _ _ LM.
  Let Hh := lm_width _ _ _ _ _ _ _ _ _ _ _ _ _ LM.
  Let Hp := lm_order _ _ _ _ _ _ _ _ _ _ _ _ _ LM.

  Lemma order_pos : 0 < INR p.
  Proof. apply lt_0_INR. exact Hp. Qed.
  Lemma nodes_inside j : (j < n)%nat -> inside D (node j).
  Proof.
    intros Hj i Hi. unfold node. assert (P := order_pos). assert (G := le_INR _ _ (lm_points _ _ _ _ _ _ _ _ _ _ _ _ _ LM j i Hj Hi)).
    assert (G0 := pos_INR (g j i)). assert (I := Rinv_0_lt_compat _ P). unfold Rdiv. split; [nra|].
    rewrite <- (Rinv_r (INR p)) by lra. nra.
  Qed.
  Definition found_exactly (x : point) (c : index) (u : point) : Prop :=
    in_grid D N c /\ exists v, u = snap_point v /\ nearly_inside D v /\ congruent D N h (to_real M c v) x.
  Lemma tracker_row_exact el : In el (trackers M e dt n node dofs dirs cells []) ->
    exists c2 u, found_exactly (departurePoint el) c2 u /\
      outputs M e opp dt (event_entries M shape dofs n) el
        (row_entries n (dest_direction el) (dest_direction el) (dest_index el) (dofs c2) (fun j => shape j u)).
  Proof.
    intros Hin.
    destruct (tracker_good D N h plane e dt n node dofs Q cells HD Hh (lm_listed _ _ _ _ _ _ _ _ _ _ _ _ _ LM) nodes_inside (lm_short _ _ _ _ _ _ _ _ _ _ _ _ _ LM) el Hin) as (t & Hg & Hd).
    assert (H0 := trackers_fresh _ _ _ _ _ _ _ _ _ _ Hin).
    destruct (torus_all D N h plane e opp dt HD HN Hh [el]) as (l & Hl & F).
    { intros x [<-|[]]. split; [exact H0|]. exists t. auto. }
    inversion F as [|? ev ? l' Ha F']; subst. inversion F'; subst. clear F F'.
    destruct Ha as (el' & -> & (S1 & S2 & S3) & G & Hn & Hc).
    change (51 * length [el])%nat with 51%nat in Hl.
    assert (Hf : follow M e opp dt el = Ok [Found el']) by (unfold follow, M; rewrite Hl; reflexivity).
    set (u := fun i => departurePoint el' i / h i - IZR (currentCell el' i)).
    assert (Hin' : inside D (snap_point u)) by (intros i Hi; apply snap_inside; apply (Hn i Hi)).
    exists (currentCell el'), (snap_point u). split; [split; [exact G|]|].
    - exists u. split; [reflexivity|]. split; [exact Hn|]. intros i Hi. destruct (Hc i Hi) as [k Ek]. exists k. rewrite <- Ek. unfold M, torus. cbn [to_real].
      assert (P := Hh i Hi). unfold u. field. lra.
    - exists [Found el']. split; [exact Hf|]. cbn [collect event_entries]. unfold shapeValues, M, torus. cbn [to_unit dim].
      fold u. rewrite (proj2 (all_inside_iff D (snap_point u)) Hin'). cbn [obind]. rewrite app_nil_r.
      assert (Hcur : currentDirection el = dest_direction el).
      { apply trackers_origin in Hin. destruct Hin as (c & j & a & _ & _ & _ & _ & ->). reflexivity. }
      rewrite S1, S2, S3, Hcur. reflexivity.
  Qed.

  (** The row of the matrix has the single entry 1. *)
  Lemma shift_rows : exists z, assemble M e opp dt n node dofs Q shape cells = Some (Ok z) /\
    forall c j a, In c cells -> (j < n)%nat -> (1 <= a < Q)%nat ->
    exists c2 k, in_grid D N c2 /\ (k < n)%nat /\ same_site D p N (site p g c2 k) (fun i => site p g c j i - m a i)%Z /\
      forall f, apply_row z f (a - 1) (dofs c j) = f (a - 1)%nat (dofs c2 k).
  Proof.
    destruct (rows_assembled M e opp dt n node dofs Q shape cells found_exactly tracker_row_exact) as (z & Hz & Hrow).
    exists z. split; [exact Hz|]. intros c j a Hc Hj Ha.
    destruct (Hrow c j a Hc Hj Ha) as (c' & j' & c2 & u & Hc' & Hj' & Ed & (G & v & -> & Hv & Hs) & Hap).
    assert (P := order_pos).
    assert (W : forall i, (i < D)%nat -> exists k : Z, v i = IZR (site p g c' j' i - m a i + k * period p N i - Z.of_nat p * c2 i) / INR p).
    { intros i Hi. destruct (Hs i Hi) as [k Ek]. exists k. unfold M, torus in Ek. cbn [to_real] in Ek. unfold minus_dtealpha, node in Ek.
      assert (Hw := Hh i Hi). assert (St := lm_step _ _ _ _ _ _ _ _ _ _ _ _ _ LM a i ltac:(lia) Hi).
      unfold site, period. rewrite minus_IZR, plus_IZR, minus_IZR, plus_IZR, !mult_IZR, <- !INR_IZR_INZ.
      apply (Rmult_eq_reg_r (h i)); [|lra].
      replace (e a i * - dt) with (- (dt * e a i)) in Ek by ring. rewrite St in Ek.
      replace (v i * h i) with ((v i + IZR (c2 i)) * h i - IZR (c2 i) * h i) by ring. rewrite Ek. field. lra. }
    assert (W2 : forall i, (i < D)%nat -> exists w : nat, (w <= p)%nat /\ snap (v i) = INR w / INR p /\
      exists k : Z, (Z.of_nat p * c2 i + Z.of_nat w = site p g c' j' i - m a i + k * period p N i)%Z).
    { intros i Hi. destruct (W i Hi) as [k Ek]. assert (V := Hv i Hi). rewrite Ek in V.
      destruct (lattice_snap p _ Hp (lm_resolved _ _ _ _ _ _ _ _ _ _ _ _ _ LM) V) as [B S].
      set (w := (site p g c' j' i - m a i + k * period p N i - Z.of_nat p * c2 i)%Z) in *. exists (Z.to_nat w). split; [lia|].
      split; [rewrite Ek, S, (INR_IZR_INZ (Z.to_nat w)), Z2Nat.id by lia; reflexivity|]. exists k. rewrite Z2Nat.id by lia. unfold w. ring. }
    assert (Ch : exists w : nat -> nat, forall i, (i < D)%nat -> (w i <= p)%nat /\ snap (v i) = INR (w i) / INR p /\
      exists k : Z, (Z.of_nat p * c2 i + Z.of_nat (w i) = site p g c' j' i - m a i + k * period p N i)%Z).
    { clear -W2. induction D as [|d IH].
      - exists (fun _ => 0%nat). intros; lia.
      - destruct IH as [w Hw]; [intros i Hi; apply W2; lia|]. destruct (W2 d ltac:(lia)) as (x & Hx).
        exists (fun i => if Nat.eqb i d then x else w i). intros i Hi. destruct (Nat.eqb_spec i d) as [->|Hne]; [exact Hx|apply Hw; lia]. }
    destruct Ch as [w Hw].
    destruct (lm_every _ _ _ _ _ _ _ _ _ _ _ _ _ LM w (fun i Hi => proj1 (Hw i Hi))) as (k & Hk & Eg).
    exists c2, k. split; [exact G|]. split; [exact Hk|]. split.
    - apply same_site_trans with (fun i => site p g c' j' i - m a i)%Z.
      + intros i Hi. destruct (Hw i Hi) as (_ & _ & kk & Ek). exists kk. unfold site at 1. rewrite Eg by exact Hi. exact Ek.
      + apply same_site_shift. apply (lm_numbers _ _ _ _ _ _ _ _ _ _ _ _ _ LM); assumption.
    - intros f. rewrite Hap.
      rewrite (sumf_ext n _ (fun k' => delta k k' * f (a - 1)%nat (dofs c2 k'))).
      + exact (sumf_delta n k (fun k0 => f (a - 1)%nat (dofs c2 k0)) Hk).
      + intros k' Hk'. rewrite (lm_nodal _ _ _ _ _ _ _ _ _ _ _ _ _ LM k' k (snap_point v) Hk' Hk).
        2:{ intros i Hi. unfold snap_point. rewrite (proj1 (proj2 (Hw i Hi))), Eg by exact Hi. reflexivity. }
        unfold delta. assert (T : tol < 1) by (unfold tol; assert (X := pow_R1_Rle 10 10 ltac:(lra)); assert (Y : 1 < 10 ^ 10) by (apply Rlt_pow_R1; [lra|lia]);
           unfold Rdiv; rewrite Rmult_1_l; rewrite <- Rinv_1; apply Rinv_lt_contravar; lra).
        assert (T0 : 0 < tol) by (unfold tol; apply Rdiv_lt_0_compat; [lra|apply pow_lt; lra]).
        destruct (Nat.eqb_spec k' k) as [->|Hne].
        * rewrite Nat.eqb_refl, Rabs_R1. destruct (Rlt_dec 1 tol); [lra|reflexivity].
        * destruct (Nat.eqb_spec k k') as [E|_]; [congruence|]. rewrite Rabs_R0. destruct (Rlt_dec 0 tol); [ring|lra].
  Qed.

  Lemma aligned_shift : exists z, assemble M e opp dt n node dofs Q shape cells = Some (Ok z) /\
    forall f L, holds D p N n g dofs f (lf L) -> holds D p N n g dofs (sl_stream Q z f) (lf (lb_stream Q m L)).
  Proof.
    destruct shift_rows as (z & Hz & Hrow). exists z. split; [exact Hz|]. intros f L [Hper Hf]. split.
    - intros x y Hxy. cbn [lb_stream lf]. apply functional_extensionality. intros a.
      rewrite (Hper _ _ (same_site_shift D p N x y (m a) Hxy)), (Hper _ _ Hxy). reflexivity.
    - intros c j Hg Hj. cbn [lb_stream lf]. apply functional_extensionality. intros a. unfold sl_stream. destruct (Nat.ltb_spec a Q) as [Ha|Ha].
      2:{ rewrite Hf by assumption. reflexivity. }
      destruct a as [|b].
      + cbn [multiply]. rewrite Hf by assumption. apply (f_equal (fun F => F 0%nat)). apply Hper. intros i Hi. exists 0%Z. rewrite (lm_rest _ _ _ _ _ _ _ _ _ _ _ _ _ LM). ring.
      + cbn [multiply]. destruct (lm_all _ _ _ _ _ _ _ _ _ _ _ _ _ LM c Hg) as (c' & Hc' & Ec & Ed).
        destruct (Hrow c' j (S b) Hc' Hj ltac:(lia)) as (c2 & k & G2 & Hk & Hs & Hap). replace (S b - 1)%nat with b in Hap by lia.
        rewrite <- (Ed j), Hap. rewrite Hf by assumption. apply (f_equal (fun F => F (S b))). apply Hper. apply (same_site_trans _ _ _ _ _ _ Hs).
        apply same_site_shift. intros i Hi. exists 0%Z. unfold site. rewrite Ec by exact Hi. ring.
  Qed.
End Shift.
