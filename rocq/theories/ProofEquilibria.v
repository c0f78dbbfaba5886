(** Moments of the equilibrium distributions on a lattice that is isotropic enough. *)
From Verif Require Import Prelude ModelStencils SpecStencils SpecCollision BigSum ProofStencils ProofWick
  ModelEquilibria.
Open Scope R_scope.

(** ** Wick's numbers as polynomials in Kronecker deltas *)

Lemma IZR_if (b : bool) (x : Z) : IZR (if b then x else 0%Z) = (if b then 1 else 0) * IZR x.
Proof. destruct b; ring. Qed.

Lemma wickn_odd : forall n l, Nat.odd (length l) = true -> wickn n l = 0%Z.
Proof.
  induction n as [|n IH]; intros l Hl; destruct l as [|a r]; try discriminate; try reflexivity.
  cbn [wickn].
  assert (H : forall p, In p (selects r) -> wickn n (snd p) = 0%Z).
  { intros p Hp. apply IH.
    assert (Hlen : forall r' (p' : nat * list nat), In p' (selects r') -> length r' = S (length (snd p'))).
    { induction r' as [|x r' IHr]; intros p' Hp'; [contradiction|]. cbn [selects] in Hp'.
      destruct Hp' as [<-|Hp']; [reflexivity|].
      apply in_map_iff in Hp'. destruct Hp' as (p0 & <- & Hp0). cbn [snd length]. rewrite (IHr p0 Hp0). reflexivity. }
    cbn [length] in Hl. rewrite (Hlen r p Hp) in Hl. cbn [Nat.odd Nat.even] in Hl.
    rewrite <- Hl. unfold Nat.odd. cbn [Nat.even]. reflexivity. }
  induction (selects r) as [|p L IHL]; [reflexivity|]. cbn [map fold_right].
  rewrite IHL by (intros; apply H; right; assumption).
  rewrite (H p) by (left; reflexivity). destruct (Nat.eqb a (fst p)); reflexivity.
Qed.

Lemma wick_odd l : Nat.odd (length l) = true -> wick l = 0%Z.
Proof. apply wickn_odd. Qed.

(** ** The lattice in unscaled units *)

Lemma eprod_unscale st s i l : s <> 0 -> eprod (unscale st s) i l = eprod st i l / s ^ length l.
Proof.
  intros Hs. induction l as [|a l IH]; cbn [eprod length pow]; [field|].
  rewrite IH. cbn [unscale st_e]. field. split; [apply pow_nonzero|]; assumption.
Qed.

Lemma tmom_unscale st s l : s <> 0 -> tmom (unscale st s) l = tmom st l / s ^ length l.
Proof.
  intros Hs. unfold tmom. cbn [unscale st_Q st_w]. unfold Rdiv. rewrite <- sumf_scal_r. apply sumf_ext.
  intros. rewrite eprod_unscale by assumption. unfold Rdiv. ring.
Qed.

Lemma isotropic_unscale st s n : s <> 0 -> isotropic st n -> isotropic (unscale st s) n.
Proof.
  intros Hs H l Hl Hn. rewrite tmom_unscale by assumption. rewrite (H l Hl Hn).
  destruct (Nat.odd (length l)) eqn:Ho.
  - rewrite wick_odd by assumption. unfold Rdiv. ring.
  - assert (E : length l = (2 * Nat.div2 (length l))%nat).
    { assert (Nat.even (length l) = true) by (rewrite <- Nat.negb_odd, Ho; reflexivity).
      apply Nat.even_spec in H0. destruct H0 as [k Hk]. rewrite Hk. rewrite Nat.div2_double. reflexivity. }
    set (m := Nat.div2 (length l)) in *. rewrite E. cbn [unscale st_cs2].
    rewrite pow_mult. replace (s ^ 2) with (s * s) by ring.
    assert (s * s <> 0) by nra.
    unfold Rdiv. rewrite (Rpow_mult_distr (st_cs2 st)), pow_inv. ring.
Qed.

(** ** Expectation with respect to the lattice weights *)

Definition Ex (L : stencil) (p : nat -> R) : R := sumf (st_Q L) (fun i => st_w L i * p i).

Lemma Ex_ext L p q : (forall i, p i = q i) -> Ex L p = Ex L q.
Proof. intros H. apply sumf_ext. intros. rewrite H. reflexivity. Qed.
Lemma Ex_plus L p q : Ex L (fun i => p i + q i) = Ex L p + Ex L q.
Proof. unfold Ex. rewrite <- sumf_plus. apply sumf_ext. intros. ring. Qed.
Lemma Ex_minus L p q : Ex L (fun i => p i - q i) = Ex L p - Ex L q.
Proof. unfold Ex. rewrite <- sumf_minus. apply sumf_ext. intros. ring. Qed.
Lemma Ex_scal L c p : Ex L (fun i => c * p i) = c * Ex L p.
Proof. unfold Ex. rewrite <- sumf_scal. apply sumf_ext. intros. ring. Qed.
Lemma Ex_sum L D (g : nat -> nat -> R) : Ex L (fun i => sumf D (fun j => g j i)) = sumf D (fun j => Ex L (g j)).
Proof.
  unfold Ex. rewrite sumf_swap. apply sumf_ext. intros. rewrite <- sumf_scal. apply sumf_ext. intros. ring.
Qed.
Lemma Ex_eprod L l : Ex L (fun i => eprod L i l) = tmom L l.
Proof. reflexivity. Qed.

(** sumf against a delta on the right / left with arbitrary coefficient *)
Lemma sumf_delta_r n k (f : nat -> R) : (k < n)%nat -> sumf n (fun i => f i * delta i k) = f k.
Proof.
  intros H. rewrite <- (sumf_delta n k f H). apply sumf_ext. intros. rewrite (delta_sym i k). ring.
Qed.

Section Lattice.
  Variables (L : stencil) (n : nat).
  Hypothesis Hiso : isotropic L n.
  Let D := st_D L.
  Let cs2 := st_cs2 L.
  Hypothesis Hcs : cs2 <> 0.

  Lemma Ex1 : Ex L (fun _ => 1) = 1.
  Proof.
    transitivity (sumf (st_Q L) (st_w L)); [|apply (iso0 L n Hiso)]. apply sumf_ext. intros. ring.
  Qed.
  Lemma Ex_odd l : Forall (fun a => (a < D)%nat) l -> (length l <= n)%nat -> Nat.odd (length l) = true ->
    Ex L (fun i => eprod L i l) = 0.
  Proof. intros H1 H2 H3. rewrite Ex_eprod, (Hiso l H1 H2), (wick_odd l H3). ring. Qed.

  Ltac fa := repeat (constructor; [assumption|]); constructor.
  Ltac wickdelta := unfold wick; cbn [length wickn selects map fold_right fst snd];
    rewrite ?plus_IZR; repeat (rewrite IZR_if; rewrite ?plus_IZR);
    repeat match goal with |- context [if Nat.eqb ?x ?y then 1 else 0] => change (if Nat.eqb x y then 1 else 0) with (delta x y) end.

  Lemma Ex2 a b : (2 <= n)%nat -> (a < D)%nat -> (b < D)%nat ->
    Ex L (fun i => eprod L i [a; b]) = cs2 * delta a b.
  Proof.
    intros. rewrite Ex_eprod, Hiso by (try fa; cbn; lia). wickdelta. cbn [Nat.div2 pow]. fold cs2. ring.
  Qed.
  Lemma Ex4 a b c d : (4 <= n)%nat -> (a < D)%nat -> (b < D)%nat -> (c < D)%nat -> (d < D)%nat ->
    Ex L (fun i => eprod L i [a; b; c; d])
    = cs2 * cs2 * (delta a b * delta c d + delta a c * delta b d + delta a d * delta b c).
  Proof.
    intros. rewrite Ex_eprod, Hiso by (try fa; cbn; lia). wickdelta. cbn [Nat.div2 pow]. fold cs2. ring.
  Qed.
  Lemma Ex6 a b c d g h : (6 <= n)%nat -> (a < D)%nat -> (b < D)%nat -> (c < D)%nat -> (d < D)%nat ->
    (g < D)%nat -> (h < D)%nat ->
    Ex L (fun i => eprod L i [a; b; c; d; g; h])
    = cs2 * cs2 * cs2 *
      (delta a b * (delta c d * delta g h + delta c g * delta d h + delta c h * delta d g)
     + delta a c * (delta b d * delta g h + delta b g * delta d h + delta b h * delta d g)
     + delta a d * (delta b c * delta g h + delta b g * delta c h + delta b h * delta c g)
     + delta a g * (delta b c * delta d h + delta b d * delta c h + delta b h * delta c d)
     + delta a h * (delta b c * delta d g + delta b d * delta c g + delta b g * delta c d)).
  Proof.
    intros. rewrite Ex_eprod, Hiso by (try fa; cbn; lia). wickdelta. cbn [Nat.div2 pow]. fold cs2. ring.
  Qed.

  (** *** Polynomials of degree two in the velocity, [A + B ue + C ue^2] *)
  Let e := st_e L.
  Variable u : nat -> R.
  Let u2 := dot D u u.

  Lemma uu_dot : uu_term L u = - u2 / (2 * cs2).
  Proof.
    unfold uu_term, u2, dot. fold D cs2. unfold Rdiv.
    rewrite <- sumf_opp, <- sumf_scal_r. apply sumf_ext. intros. ring.
  Qed.

  Lemma Ex_ue p : Ex L (fun i => ue_term L u i * p i) = sumf D (fun j => u j / cs2 * Ex L (fun i => e i j * p i)).
  Proof.
    transitivity (Ex L (fun i => sumf D (fun j => u j / cs2 * (e i j * p i)))).
    - apply Ex_ext. intros i. unfold ue_term. fold D cs2. rewrite <- sumf_scal_r.
      apply sumf_ext. intros. unfold e, Rdiv. ring.
    - rewrite Ex_sum. apply sumf_ext. intros. apply Ex_scal.
  Qed.

  Definition poly2 (A B C : R) (i : nat) : R := A + B * ue_term L u i + C * (ue_term L u i * ue_term L u i).

  Lemma Ex_poly A B C l :
    Ex L (fun i => poly2 A B C i * eprod L i l) =
    A * Ex L (fun i => eprod L i l)
    + B * sumf D (fun j => u j / cs2 * Ex L (fun i => eprod L i (j :: l)))
    + C * sumf D (fun j => u j / cs2 * sumf D (fun k => u k / cs2 * Ex L (fun i => eprod L i (k :: j :: l)))).
  Proof.
    transitivity (A * Ex L (fun i => eprod L i l)
      + B * Ex L (fun i => ue_term L u i * eprod L i l)
      + C * Ex L (fun i => ue_term L u i * (ue_term L u i * eprod L i l))).
    - rewrite <- !Ex_scal, <- !Ex_plus. apply Ex_ext. intros. unfold poly2. ring.
    - f_equal; [f_equal|].
      + f_equal. apply Ex_ue.
      + f_equal. rewrite Ex_ue. apply sumf_ext. intros j Hj. f_equal.
        transitivity (Ex L (fun i => ue_term L u i * eprod L i (j :: l))).
        * apply Ex_ext. intros. cbn [eprod]. unfold e. ring.
        * apply Ex_ue.
  Qed.

  Lemma sum_u_delta a : (a < D)%nat -> sumf D (fun j => u j * delta j a) = u a.
  Proof. intros. apply (sumf_delta_r D a u). assumption. Qed.

  Ltac odd0 := match goal with
    | |- context [Ex L (fun i => eprod L i ?l)] =>
        rewrite (Ex_odd l) by (try reflexivity; try fa; cbn [length]; lia) end.

  Lemma poly_mom0 A B C : (2 <= n)%nat -> Ex L (poly2 A B C) = A + C * u2 / cs2.
  Proof.
    intros Hn. transitivity (Ex L (fun i => poly2 A B C i * eprod L i [])).
    { apply Ex_ext. intros. cbn [eprod]. ring. }
    rewrite Ex_poly. change (Ex L (fun i => eprod L i [])) with (Ex L (fun _ => 1)). rewrite Ex1.
    rewrite (sumf_zero D) by (intros; odd0; ring).
    rewrite (sumf_ext D _ (fun j => / cs2 * (u j * u j))).
    - rewrite sumf_scal. unfold u2, dot, Rdiv. ring.
    - intros j Hj. rewrite (sumf_ext D _ (fun k => u k * delta k j)).
      + rewrite sum_u_delta by assumption. unfold Rdiv. ring.
      + intros k Hk. rewrite Ex2 by assumption. field. assumption.
  Qed.

  Lemma poly_mom1 A B C a : (3 <= n)%nat -> (a < D)%nat ->
    Ex L (fun i => poly2 A B C i * e i a) = B * u a.
  Proof.
    intros Hn Ha. transitivity (Ex L (fun i => poly2 A B C i * eprod L i [a])).
    { apply Ex_ext. intros. cbn [eprod]. unfold e. ring. }
    rewrite Ex_poly. odd0.
    rewrite (sumf_ext D _ (fun j => u j * delta j a)).
    - rewrite sum_u_delta by assumption.
      rewrite (sumf_zero D); [ring|]. intros j Hj. rewrite (sumf_zero D); [ring|]. intros k Hk. odd0. ring.
    - intros j Hj. rewrite Ex2 by (assumption || lia). field. assumption.
  Qed.

  Lemma poly_mom2 A B C a b : (4 <= n)%nat -> (a < D)%nat -> (b < D)%nat ->
    Ex L (fun i => poly2 A B C i * e i a * e i b) = A * cs2 * delta a b + C * (u2 * delta a b + 2 * u a * u b).
  Proof.
    intros Hn Ha Hb. transitivity (Ex L (fun i => poly2 A B C i * eprod L i [a; b])).
    { apply Ex_ext. intros. cbn [eprod]. unfold e. ring. }
    rewrite Ex_poly. rewrite Ex2 by (assumption || lia).
    rewrite (sumf_zero D) by (intros; odd0; ring).
    rewrite (sumf_ext D _ (fun j => delta a b * (u j * u j) + ((u j * delta j a) * u b + (u j * delta j b) * u a))).
    - rewrite !sumf_plus, sumf_scal, !sumf_scal_r, !sum_u_delta by assumption. unfold u2, dot. ring.
    - intros j Hj.
      rewrite (sumf_ext D _ (fun k => cs2 * ((u k * delta k j) * delta a b + ((u k * delta k a) * delta j b + (u k * delta k b) * delta j a)))).
      + rewrite sumf_scal, !sumf_plus, !sumf_scal_r, !sum_u_delta by assumption. field. assumption.
      + intros k Hk. rewrite Ex4 by assumption. field. assumption.
  Qed.

  Lemma poly_mom3 A B C a b c : (5 <= n)%nat -> (a < D)%nat -> (b < D)%nat -> (c < D)%nat ->
    Ex L (fun i => poly2 A B C i * e i a * e i b * e i c) =
    B * cs2 * (u a * delta b c + u b * delta a c + u c * delta a b).
  Proof.
    intros Hn Ha Hb Hc. transitivity (Ex L (fun i => poly2 A B C i * eprod L i [a; b; c])).
    { apply Ex_ext. intros. cbn [eprod]. unfold e. ring. }
    rewrite Ex_poly. odd0.
    rewrite (sumf_ext D _ (fun j => cs2 * ((u j * delta j a) * delta b c + ((u j * delta j b) * delta a c + (u j * delta j c) * delta a b)))).
    - rewrite sumf_scal, !sumf_plus, !sumf_scal_r, !sum_u_delta by assumption.
      rewrite (sumf_zero D); [ring|]. intros j Hj. rewrite (sumf_zero D); [ring|]. intros k Hk. odd0. ring.
    - intros j Hj. rewrite Ex4 by (assumption || lia). field. assumption.
  Qed.
End Lattice.
