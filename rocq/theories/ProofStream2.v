(** A mesh of 2 x 2 parallelograms, periodic in both directions. *)
From Verif Require Import Prelude BigSum ModelSemiLagrangian SpecSemiLagrangian SpecStream ProofSemiLagrangian ProofSemiLagrangian5 ProofStream.
Local Open Scope R_scope.

Definition sheared_behind (s : R) (z : index) (f : nat) : behind index :=
  let shift (k : R) (x : point) : point := if Nat.eqb (f / 2) 0 then pt2 (x 0%nat + 2 * k) (x 1%nat) else pt2 (x 0%nat + 2 * k * s) (x 1%nat + 2 * k) in
  let d := (f / 2)%nat in
  if Nat.eqb (f mod 2) 0 then
    if Z.eqb (z d) 0 then PeriodicFace (shift 1) (move z d 1) else Neighbor (move z d 0)
  else
    if Z.eqb (z d) 1 then PeriodicFace (shift (-1)) (move z d 0) else Neighbor (move z d 1).
Definition sheared (s : R) : mesh index :=
  mkMesh 2 (fun z x => Some (pt2 (x 0%nat - s * x 1%nat - IZR (z 0%nat)) (x 1%nat - IZR (z 1%nat))))
    (fun z u => pt2 (u 0%nat + IZR (z 0%nat) + s * (u 1%nat + IZR (z 1%nat))) (u 1%nat + IZR (z 1%nat)))
    (fun _ _ => (pt2 0 0, pt2 0 0)) (sheared_behind s) (fun _ => true).
Definition two_by_two (z : index) : Prop := in_grid 2 (fun _ => 2%Z) z.
Definition sheared_same (s : R) (x y : point) : Prop :=
  exists k l : Z, x 0%nat = y 0%nat + 2 * IZR k + 2 * IZR l * s /\ x 1%nat = y 1%nat + 2 * IZR l.

Lemma two_cases z : two_by_two z -> (z 0%nat = 0%Z \/ z 0%nat = 1%Z) /\ (z 1%nat = 0%Z \/ z 1%nat = 1%Z).
Proof. intros H. assert (A := H 0%nat ltac:(lia)). assert (B := H 1%nat ltac:(lia)). cbn in A, B. lia. Qed.
Lemma move_two z d k : two_by_two z -> (k = 0 \/ k = 1)%Z -> two_by_two (move z d k).
Proof. intros H Hk i Hi. unfold move. destruct (Nat.eqb i d); [lia|]. apply H. exact Hi. Qed.
Lemma f4 f : (f < 2 * 2)%nat -> f = 0%nat \/ f = 1%nat \/ f = 2%nat \/ f = 3%nat.
Proof. lia. Qed.
Ltac two_dims := let i := fresh "i" in let Hi := fresh "Hi" in intros i Hi; destruct i as [|[|i]]; [| |cbn in Hi; lia].

Lemma sheared_closed s : closed_mesh (sheared s) two_by_two (sheared_same s).
Proof.
  constructor.
  - intros c x _. eexists. split; [reflexivity|]. intros _. cbn [dim sheared]. two_dims; cbn; ring.
  - intros c u _ _. eexists. split; [reflexivity|]. cbn [dim sheared]. two_dims; cbn; ring.
  - intros c f u Hc (Hf & Hi & Hu). cbn [dim sheared] in Hf, Hi. destruct (two_cases c Hc) as [C0 C1]. assert (I0 := Hi 0%nat ltac:(lia)). assert (I1 := Hi 1%nat ltac:(lia)).
    assert (T := tol_small). rewrite tol_eq in T.
    destruct (f4 f Hf) as [->|[->|[->| ->]]]; cbn [Nat.div Nat.divmod fst snd Nat.modulo Nat.sub] in Hu; cbn [face_behind sheared owned_or_ghost]; unfold sheared_behind;
      cbn [Nat.div Nat.divmod fst snd Nat.modulo Nat.sub Nat.eqb]; cbn [INR] in Hu.
    + destruct C0 as [C0|C0]; rewrite C0; cbn [Z.eqb].
      * split; [apply move_two; [exact Hc|lia]|]. split.
        -- eexists. split; [reflexivity|]. cbn [dim sheared]. two_dims; cbn; rewrite ?C0; lra.
        -- intros x. exists 1%Z, 0%Z. cbn. lra.
      * split; [apply move_two; [exact Hc|lia]|]. split; [reflexivity|]. eexists. split; [reflexivity|]. cbn [dim sheared]. two_dims; cbn; rewrite ?C0; lra.
    + destruct C0 as [C0|C0]; rewrite C0; cbn [Z.eqb].
      * split; [apply move_two; [exact Hc|lia]|]. split; [reflexivity|]. eexists. split; [reflexivity|]. cbn [dim sheared]. two_dims; cbn; rewrite ?C0; lra.
      * cbn [Pos.eqb]. split; [apply move_two; [exact Hc|lia]|]. split.
        -- eexists. split; [reflexivity|]. cbn [dim sheared]. two_dims; cbn; rewrite ?C0; lra.
        -- intros x. exists (-1)%Z, 0%Z. cbn. lra.
    + destruct C1 as [C1|C1]; rewrite C1; cbn [Z.eqb].
      * split; [apply move_two; [exact Hc|lia]|]. split.
        -- eexists. split; [reflexivity|]. cbn [dim sheared]. two_dims; cbn; rewrite ?C1, ?Hu; lra.
        -- intros x. exists 0%Z, 1%Z. cbn. lra.
      * split; [apply move_two; [exact Hc|lia]|]. split; [reflexivity|]. eexists. split; [reflexivity|]. cbn [dim sheared]. two_dims; cbn; rewrite ?C1, ?Hu; lra.
    + destruct C1 as [C1|C1]; rewrite C1; cbn [Z.eqb].
      * split; [apply move_two; [exact Hc|lia]|]. split; [reflexivity|]. eexists. split; [reflexivity|]. cbn [dim sheared]. two_dims; cbn; rewrite ?C1, ?Hu; lra.
      * cbn [Pos.eqb]. split; [apply move_two; [exact Hc|lia]|]. split.
        -- eexists. split; [reflexivity|]. cbn [dim sheared]. two_dims; cbn; rewrite ?C1, ?Hu; lra.
        -- intros x. exists 0%Z, (-1)%Z. cbn. lra.
  - intros x y H. exists 0%Z, 0%Z. rewrite (H 0%nat), (H 1%nat) by (cbn; lia). lra.
  - intros x y (k & l & A & B). exists (- k)%Z, (- l)%Z. rewrite !opp_IZR, A, B. lra.
  - intros x y z (k & l & A & B) (k' & l' & A' & B'). exists (k + k')%Z, (l + l')%Z. rewrite !plus_IZR, A, B, A', B'. lra.
Qed.

(** Each crossing brings the target one cell closer in one direction. *)
Definition near1 (x : R) : Prop := - (1 / 10 ^ 10) < x < 1 + 1 / 10 ^ 10.
Definition uc (s : R) (z : index) (x : point) (i : nat) : R := pt2 (x 0%nat - s * x 1%nat - IZR (z 0%nat)) (x 1%nat - IZR (z 1%nat)) i.
Lemma crossing_step s c f q c' q' : two_by_two c -> (f < 4)%nat ->
  match face_behind (sheared s) c f with Neighbor c1 => c' = c1 /\ q' = q | PeriodicFace across c1 => c' = c1 /\ q' = across q | _ => False end ->
  two_by_two c' /\ uc s c' q' (f / 2) = uc s c q (f / 2) + (if Nat.eqb (f mod 2) 0 then 1 else -1) /\ uc s c' q' (1 - f / 2) = uc s c q (1 - f / 2).
Proof.
  intros Hc Hf H. destruct (two_cases c Hc) as [C0 C1]. cbn [face_behind sheared] in H. unfold sheared_behind in H.
  destruct (f4 f Hf) as [->|[->|[->| ->]]]; cbn [Nat.div Nat.divmod fst snd Nat.modulo Nat.sub Nat.eqb] in *;
    [destruct C0 as [C|C]|destruct C0 as [C|C]|destruct C1 as [C|C]|destruct C1 as [C|C]]; rewrite C in H; cbn [Z.eqb Pos.eqb] in H; destruct H as [-> ->];
    (split; [apply move_two; [exact Hc|lia]|]); unfold uc, pt2, move; cbn; rewrite ?C; split; lra.
Qed.
Lemma chain_short s : forall m k c p q, two_by_two c -> chain (sheared s) k c p q ->
  (forall i, (i < 2)%nat -> -1 <= uc s c q i <= 2) ->
  (m = 2%nat \/ (m = 1%nat /\ exists i, (i < 2)%nat /\ near1 (uc s c q i)) \/ (m = 0%nat /\ near1 (uc s c q 0) /\ near1 (uc s c q 1))) -> (k <= m)%nat.
Proof.
  intros m k. revert m. induction k as [|k IH]; intros m c p q Hc C B Hm; [lia|].
  inversion C as [|k0 c0 p0 q0 f u pu qu lam c' p' q' Ep Eq Nq Of By L A Hb C' E1 E2 E3 E4]. subst k0 c0 p0 q0. cbn [to_unit sheared] in Eq. injection Eq as Eq.
  assert (Eu : forall i, qu i = uc s c q i) by (intros i; rewrite <- Eq; reflexivity).
  destruct Of as [Hf _]. cbn [dim sheared] in Hf, Nq.
  assert (St : two_by_two c' /\ uc s c' q' (f / 2) = uc s c q (f / 2) + (if Nat.eqb (f mod 2) 0 then 1 else -1) /\ uc s c' q' (1 - f / 2) = uc s c q (1 - f / 2)).
  { apply (crossing_step s c f q c' q' Hc ltac:(lia)). destruct (face_behind (sheared s) c f); try exact Hb; destruct Hb as (X & _ & Y); auto. }
  destruct St as (Hc' & Sd & So). assert (T := tol_small). rewrite tol_eq in T.
  assert (Hd : (f / 2 < 2)%nat) by (apply Nat.div_lt_upper_bound; lia).
  assert (Dn : near1 (uc s c' q' (f / 2)) /\ -1 <= uc s c' q' (f / 2) <= 2).
  { unfold near1. rewrite Sd. unfold beyond in By. rewrite Eu in By. assert (X := B _ Hd). destruct (Nat.eqb (f mod 2) 0); lra. }
  assert (Bo : forall i, (i < 2)%nat -> -1 <= uc s c' q' i <= 2).
  { intros i Hi. destruct (Nat.eq_dec i (f / 2)) as [->|]; [apply Dn|]. replace i with (1 - f / 2)%nat by lia. rewrite So. apply B. lia. }
  assert (Nd : ~ near1 (uc s c q (f / 2))).
  { unfold near1. unfold beyond in By. rewrite Eu in By. destruct (Nat.eqb (f mod 2) 0); lra. }
  destruct Hm as [->|[(-> & i & Hi & Ni)|(-> & N0 & N1)]].
  - assert (k <= 1)%nat; [|lia]. apply (IH 1%nat c' p' q' Hc' C' Bo). right. left. split; [reflexivity|]. exists (f / 2)%nat. split; [exact Hd|apply Dn].
  - assert (k <= 0)%nat; [|lia]. apply (IH 0%nat c' p' q' Hc' C' Bo). right. right. split; [reflexivity|].
    assert (i = 1 - f / 2)%nat by (destruct (Nat.eq_dec i (f / 2)) as [->|]; [contradiction|lia]). subst i.
    assert (No : near1 (uc s c' q' (1 - f / 2))) by (rewrite So; exact Ni).
    destruct (f4 f Hf) as [->|[->|[->| ->]]]; cbn [Nat.div Nat.divmod fst snd Nat.sub] in *; tauto.
  - exfalso. apply Nd. destruct (f4 f Hf) as [->|[->|[->| ->]]]; cbn [Nat.div Nat.divmod fst snd Nat.sub] in *; assumption.
Qed.

(** The five directions of D2Q5 with half a cell per step. *)
Definition axes (a : nat) : point := match a with 1%nat => pt2 1 0 | 2%nat => pt2 0 1 | 3%nat => pt2 (-1) 0 | 4%nat => pt2 0 (-1) | _ => pt2 0 0 end.
Lemma sheared_setup : (forall c, In c grid22 -> two_by_two c) /\ (forall j, (j < 4)%nat -> inside 2 (corner j)) /\
  within_limit (sheared (1 / 2)) 4 corner axes (1 / 2) 5 grid22 /\ dofs_agree (sheared (1 / 2)) (sheared_same (1 / 2)) 4 corner dofs22 grid22 /\
  partition_of_unity 2 4 bilinear.
Proof.
  destruct torus_setup as (H1 & H2 & H3 & H4 & H5). split; [exact H1|]. split; [exact H2|]. split; [|split; [|exact H5]].
  - intros c j a Hc Hj Ha C. assert (50 <= 2)%nat; [|lia]. apply (chain_short (1 / 2) 2 50 c _ _ (H1 c Hc) C); [|left; reflexivity].
    assert (I0 := H2 j Hj 0%nat ltac:(lia)). assert (I1 := H2 j Hj 1%nat ltac:(lia)).
    destruct a as [|[|[|[|[|a]]]]]; try lia; two_dims; unfold uc; cbn [sheared to_real axes pt2]; unfold pt2; cbn [Nat.eqb]; lra.
  - intros c c' j j' v Hc Hc' Hj Hj' E. destruct (H4 c c' j j' Hc Hc' Hj Hj' E 0%nat ltac:(lia)) as [k Ek]. destruct (H4 c c' j j' Hc Hc' Hj Hj' E 1%nat ltac:(lia)) as [l El].
    unfold torus in Ek, El. cbn [to_real] in Ek, El. rewrite !Rmult_1_r in Ek, El. exists k, l. cbn [sheared to_real]. unfold pt2. cbn [Nat.eqb]. lra.
Qed.

(** A path through two cells. *)
Definition sheared_path : tracker index := mkTracker 0 1 1 0 (pt2 (- (1 / 4)) (1 / 2)) (pt2 (3 / 4) (1 / 2)) (cell22 0 0) false.
Lemma sheared_path_ok : two_by_two (currentCell sheared_path) /\ located (sheared (1 / 2)) (currentCell sheared_path) (currentPoint sheared_path) /\
  ~ located (sheared (1 / 2)) (currentCell sheared_path) (departurePoint sheared_path) /\
  ~ chain (sheared (1 / 2)) 50 (currentCell sheared_path) (currentPoint sheared_path) (departurePoint sheared_path).
Proof.
  assert (T := tol_small). rewrite tol_eq in T.
  assert (Hc : two_by_two (cell22 0 0)) by (apply (proj1 sheared_setup); left; reflexivity).
  split; [exact Hc|]. cbn [sheared_path currentCell currentPoint departurePoint]. split; [|split].
  - eexists. split; [reflexivity|]. cbn [dim sheared]. two_dims; cbn; lra.
  - intros (u & E & N). cbn [to_unit sheared] in E. injection E as <-. specialize (N 0%nat ltac:(cbn; lia)). cbn in N. lra.
  - intros C. assert (50 <= 2)%nat; [|lia]. apply (chain_short (1 / 2) 2 50 _ _ _ Hc C); [|left; reflexivity]. two_dims; unfold uc; cbn; lra.
Qed.
