(** Gauss-Lobatto rules of 2, 3 and 4 points; two boxes of different size, periodic; consequences of C59-C61. *)
From Verif Require Import Prelude BigSum ModelStencils SpecStencils ModelSemiLagrangian ModelSEDG SpecSEDG ModelElements SpecElements ModelBoxes SpecBoxes ProofSemiLagrangian ProofElements ProofBoxes ProofBoxes2 ProofElementsEx ProofSEDGStencil ProofSEDGMesh ProofSEDGFlow.
Local Open Scope R_scope.

Lemma trapezoidal : gauss_lobatto 1 INR (fun _ => 1 / 2).
Proof.
  constructor; try reflexivity; try (intros; lra).
  - intros i j H. apply lt_INR. lia.
  - intros [|[|k]] Hk; [cbn; field|cbn; field|lia].
Qed.
Lemma simpson : gauss_lobatto 2 (fun i => INR i / 2) (fun i => if Nat.eqb i 1 then 2 / 3 else 1 / 6).
Proof.
  constructor.
  - cbn; field.
  - cbn; field.
  - intros i j H. apply Rmult_lt_compat_r; [lra|]. apply lt_INR. lia.
  - intros i _. destruct (Nat.eqb i 1); lra.
  - intros [|[|[|[|k]]]] Hk; [cbn; field|cbn; field|cbn; field|cbn; field|lia].
Qed.
Lemma four_points : gauss_lobatto 3 (sample_lobatto 4) (fun i => match i with 1%nat | 2%nat => 5 / 12 | _ => 1 / 12 end).
Proof.
  assert (Hs := inv_sqrt5). assert (Sq : / sqrt 5 * / sqrt 5 = 1 / 5).
  { rewrite <- Rinv_mult. rewrite sqrt_sqrt by lra. lra. }
  set (r := / sqrt 5) in *.
  assert (V1 : sample_lobatto 4 1 = 1 / 2 * (1 - r)) by reflexivity. assert (V2 : sample_lobatto 4 2 = 1 / 2 * (1 + r)) by reflexivity.
  constructor; try reflexivity.
  - intros i j H. exact (proj2 (proj1 (sample_lobatto_ok 3%nat ltac:(lia))) i j H).
  - intros [|[|[|i]]] _; lra.
  - assert (P2 : forall z, z ^ 2 = z * z) by (intros; ring). assert (P3 : forall z, z ^ 3 = z * z * z) by (intros; ring). assert (P4 : forall z, z ^ 4 = z * z * (z * z)) by (intros; ring). assert (P5 : forall z, z ^ 5 = z * z * (z * z) * z) by (intros; ring).
    assert (A : sample_lobatto 4 1 * sample_lobatto 4 1 = 1 / 4 * (6 / 5 - 2 * r)) by (rewrite V1; nra).
    assert (B : sample_lobatto 4 2 * sample_lobatto 4 2 = 1 / 4 * (6 / 5 + 2 * r)) by (rewrite V2; nra).
    intros [|[|[|[|[|[|k]]]]]] Hk; [| | | | | |lia];
      cbn [sumf]; try rewrite !P2; try rewrite !P3; try rewrite !P4; try rewrite !P5; try rewrite !A; try rewrite !B; rewrite ?V1, ?V2; cbn [sample_lobatto pow];
      repeat rewrite S_INR; cbn [INR]; try nra.
Qed.

(** Two cells, [true] of length 1 and [false] of length 2, in a periodic strip of height 3. *)
Definition pair_size (c : bool) (d : nat) : R := match d with O => if c then 1 else 2 | _ => 3 end.
Definition pair_dofs (c : bool) (i : nat) : nat := if c then i else (9 + i)%nat.
Definition pair_behind (c : bool) (f : nat) : side bool := match f with 0%nat => Beyond (negb c) 1 | 1%nat => Beyond (negb c) 0 | 2%nat => Beyond c 3 | _ => Beyond c 2 end.
Lemma pair_mesh : box_mesh 2 2 pair_size pair_dofs pair_behind [true; false].
Proof.
  assert (All : forall c : bool, In c [true; false]) by (intros [|]; cbn; auto).
  constructor.
  - intros c d _ _. unfold pair_size. destruct d, c; lra.
  - constructor; [intros [H|[]]; discriminate H|]. constructor; [intros []|constructor].
  - intros c c' i j _ _ Hi Hj E. cbn in Hi, Hj. unfold pair_dofs in E. destruct c, c'; try lia; (split; [reflexivity|lia]).
  - intros c f c' f' _ Hf E. split; [apply All|]. cbn in Hf.
    destruct f as [|[|[|[|f]]]]; [| | | |lia]; cbn [pair_behind] in E; assert (Ec := f_equal (fun z => match z with Beyond a _ => a | _ => c' end) E); assert (Ef := f_equal (fun z => match z with Beyond _ b => b | _ => 0%nat end) E);
      cbn in Ec, Ef; subst c' f'; cbn [pair_behind]; rewrite ?Bool.negb_involutive; (split; [reflexivity|]; split; [reflexivity|]; split; [reflexivity|]);
      intros d Hd N; destruct d as [|[|d]]; try lia; try reflexivity; cbn in N; congruence.
Qed.
