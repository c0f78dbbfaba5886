(** C78, wavy wall of step-6. *)
From Verif Require Import Prelude SpecBenchmarks ModelComplexWall ProofComplexWall.
Local Open Scope R_scope.

(** For every length the cells stay intact: the rectangle is mapped one-to-one, every column in order onto the gap
    below the wall, which is at least a tenth wide and fits together at the periodic ends. *)
Theorem C78_complex_wall : forall L, 0 < L ->
  one_to_one_on L 1 (wall_grid L) /\
  (forall x y, fst (wall_grid L (x, y)) = x) /\
  (forall x, keeps_order 0 1 0 (wall_upper L x) (fun y => snd (wall_grid L (x, y)))) /\
  (forall x, 1 / 10 <= wall_upper L x <= 19 / 10) /\
  (forall y, snd (wall_grid L (L, y)) = snd (wall_grid L (0, y))).
Proof.
  intros L HL. split; [exact (wall_injective L)|]. split; [reflexivity|]. split; [exact (wall_columns L)|]. split; [exact (wall_upper_bounds L)|].
  intros y. unfold wall_grid, wall_refineX; cbn [fst snd]. pose proof (wall_periodic L (Rgt_not_eq _ _ HL) 0) as P. rewrite Rplus_0_l in P. rewrite P. reflexivity.
Qed.
Print Assumptions C78_complex_wall.
Example C78_complex_wall_ex : one_to_one_on 7 1 (wall_grid 7) /\ snd (wall_grid 7 (0, 1)) > snd (wall_grid 7 (0, 1 / 2)).
Proof. destruct (C78_complex_wall 7 ltac:(lra)) as (A & _ & C & _). split; [exact A|]. apply (C 0); lra. Qed.
