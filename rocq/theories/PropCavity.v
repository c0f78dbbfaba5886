(** C154: comparison of the lid-driven cavity with reference tables. *)
From Verif Require Import Prelude CavityData ModelCavity SpecCavity ProofCavity.
Local Open Scope R_scope.

(** For every distribution of the field over processes in which every point of the table is owned by some process, and
    velocities not below -10^9: the lines contain the velocities of the field on the two centre lines beside their references, and the errors are the
    root mean squares of the differences. *)
Theorem C154_values : forall c it u v u0 v0 us vs s, Nat.modulo it 1000 = 0%nat ->
  (forall i, (i < rows c)%nat -> -1000000000 <= u (1 / 2) (entry (ys c) i) /\ known_at u (u0 :: us) (1 / 2) (entry (ys c) i)) ->
  (forall i, (i < rows c)%nat -> -1000000000 <= v (entry (xs c) i) (1 / 2) /\ known_at v (v0 :: vs) (entry (xs c) i) (1 / 2)) ->
  let s' := compare_apply c it u0 us v0 vs s in
  lines s' = map (fun i => (entry (ys c) i, u (1 / 2) (entry (ys c) i), entry (ref_u c) i, entry (xs c) i, v (entry (xs c) i) (1 / 2), entry (ref_v c) i)) (seq 0 (rows c)) /\
  getUError s' = Ok (rms (rows c) (fun i => u (1 / 2) (entry (ys c) i)) (entry (ref_u c))) /\
  getVError s' = Ok (rms (rows c) (fun i => v (entry (xs c) i) (1 / 2)) (entry (ref_v c))).
Proof.
  intros c it u v u0 v0 us vs s H U V. apply apply_values; [exact H| |].
  - intros i Hi. destruct (U i Hi) as [L K]. split; [unfold placeholder_u; lra|exact K].
  - intros i Hi. destruct (V i Hi) as [L K]. split; [unfold placeholder_v; lra|exact K].
Qed.
Print Assumptions C154_values.
Example C154_values_ex : let u := fun _ y : R => y in
  getUError (compare_apply (compare_to_ghia 100) 2000 (fun _ _ => None) [fun x y => Some (u x y)] (fun x y => Some (u x y)) [] constructed)
  = Ok (rms 17 (fun i => entry ghia_y i) (entry (reference ghia_u 100))).
Proof.
  assert (Y : forall i, (i < 17)%nat -> 0 <= entry ghia_y i).
  { intros i Hi. unfold entry. apply Rmult_le_pos; [|lra]. apply IZR_le.
    assert (F : Forall (fun z => (0 <= z)%Z) ghia_y) by (repeat constructor; discriminate). rewrite Forall_forall in F. apply F, nth_In. exact Hi. }
  cbv zeta. refine (proj1 (proj2 (C154_values (compare_to_ghia 100) 2000 (fun _ y => y) (fun _ y => y) _ _ _ _ _ _ _ _))).
  - reflexivity.
  - intros i Hi. cbn [ys compare_to_ghia]. split; [specialize (Y i Hi); lra|]. split.
    + intros e w [<-|[<-|[]]] E; [discriminate|injection E as <-; reflexivity].
    + eexists. split; [right; left; reflexivity|reflexivity].
  - intros i Hi. split; [lra|]. split.
    + intros e w [<-|[]] E. injection E as <-. reflexivity.
    + eexists. split; [left; reflexivity|reflexivity].
Qed.

(** No row of the tables is left out, and every Reynolds number with a table has a value for every row. *)
Theorem C154_rows : forall Re c, c = compare_to_ghia Re \/ c = compare_to_botella Re ->
  rows c = 17%nat /\ length (xs c) = 17%nat /\ length (ys c) = 17%nat /\
  (length (ref_u c) = 17%nat \/ ref_u c = []) /\ (length (ref_v c) = 17%nat \/ ref_v c = []).
Proof.
  assert (A : forall cases, forallb (fun c : Z * list Z => Nat.eqb (length (snd c)) 17) cases = true ->
    forall Re, length (reference cases Re) = 17%nat \/ reference cases Re = []).
  { intros cases F Re. unfold reference. destruct (find _ cases) as [q|] eqn:E; [left|right; reflexivity].
    apply find_some in E. rewrite forallb_forall in F. apply Nat.eqb_eq, F, (proj1 E). }
  intros Re c [-> | ->]; (split; [reflexivity|]); (split; [reflexivity|]); (split; [reflexivity|]); split; apply A; reflexivity.
Qed.
Print Assumptions C154_rows.
Example C154_rows_ex : length (ref_u (compare_to_ghia 400)) = 17%nat /\ length (ref_v (compare_to_botella 1000)) = 17%nat.
Proof. split; reflexivity. Qed.

(** The error vanishes exactly when all values are the references. *)
Theorem C154_zero : forall n a b, (0 < n)%nat -> (rms n a b = 0 <-> forall i, (i < n)%nat -> a i = b i).
Proof. exact rms_zero. Qed.
Print Assumptions C154_zero.
Example C154_zero_ex : rms 17 (entry ghia_x) (entry ghia_x) = 0.
Proof. apply C154_zero; [lia|reflexivity]. Qed.

(** At other iterations nothing is updated. *)
Theorem C154_skips : forall c it u0 us v0 vs s, Nat.modulo it 1000 <> 0%nat -> compare_apply c it u0 us v0 vs s = s.
Proof. intros c it u0 us v0 vs s H. unfold compare_apply. apply Nat.eqb_neq in H. rewrite H. reflexivity. Qed.
Print Assumptions C154_skips.
Example C154_skips_ex : Nat.modulo 1500 1000 <> 0%nat.
Proof. discriminate. Qed.

(** Before the first such iteration the errors are not initialised. *)
Theorem C154_early_refuted : exists c it u0 us v0 vs, getUError (compare_apply c it u0 us v0 vs constructed) = UB.
Proof. exists (compare_to_ghia 100), 1%nat, (fun _ _ => None), [], (fun _ _ => None), []. reflexivity. Qed.
Print Assumptions C154_early_refuted.

(** Reynolds numbers without table are not refused: the references are zero and a fluid at rest has no error. *)
Theorem C154_reynolds_refuted : exists Re, (forall i, entry (ref_u (compare_to_botella Re)) i = 0) /\
  (forall i, entry (ref_v (compare_to_botella Re)) i = 0).
Proof. exists 100%Z. split; intros [|i]; unfold entry; cbn; unfold Rdiv; ring. Qed.
Print Assumptions C154_reynolds_refuted.

(** At Reynolds number 1000 the two sets of references agree: on the vertical line, and on the horizontal one when the
    positions of Botella's table are mirrored. *)
Theorem C154_tables_partial :
  agree 17 0 (entry (ys (compare_to_ghia 1000))) (entry (ys (compare_to_botella 1000))) /\
  agree 17 (7 / 1000) (entry (ref_u (compare_to_ghia 1000))) (entry (ref_u (compare_to_botella 1000))) /\
  agree 17 (1 / 5000) (entry (xs (compare_to_ghia 1000))) (fun i => 1 - entry (xs (compare_to_botella 1000)) (16 - i)) /\
  agree 17 (2 / 100) (entry (ref_v (compare_to_ghia 1000))) (entry (ref_v (compare_to_botella 1000))).
Proof. exact (conj (proj1 tables_u) (conj (proj2 tables_u) tables_v)). Qed.
Print Assumptions C154_tables_partial.

(** As written they do not: the references of the horizontal line belong to other positions. *)
Theorem C154_tables_refuted : exists i, (i < 17)%nat /\
  3 / 100 < Rabs (entry (xs (compare_to_ghia 1000)) i - entry (xs (compare_to_botella 1000)) i) /\
  Rabs (entry (ref_v (compare_to_ghia 1000)) i - entry (ref_v (compare_to_botella 1000)) i) <= 2 / 100 /\
  (exists j k, entry (xs (compare_to_ghia 1000)) j < entry (xs (compare_to_botella 1000)) i < entry (xs (compare_to_ghia 1000)) k /\
    entry (ref_v (compare_to_ghia 1000)) j + 15 / 100 < entry (ref_v (compare_to_botella 1000)) i /\
    entry (ref_v (compare_to_ghia 1000)) k + 15 / 100 < entry (ref_v (compare_to_botella 1000)) i).
Proof.
  exists 1%nat. split; [lia|]. unfold entry, compare_to_ghia, compare_to_botella; cbn [xs ref_v reference]. cbn -[IZR].
  split; [rewrite Rabs_right; lra|]. split; [rewrite Rabs_right; lra|]. exists 5%nat, 4%nat. cbn -[IZR]. lra.
Qed.
Print Assumptions C154_tables_refuted.

(** One of Ghia's entries (Reynolds number 3200, y = 0.4531) is ten times its neighbours' size. *)
Theorem C154_entry_refuted : exists Re i, entry (ref_u (compare_to_ghia Re)) i < 3 * entry (ref_u (compare_to_ghia Re)) (i + 1) /\
  entry (ref_u (compare_to_ghia Re)) i < 3 * entry (ref_u (compare_to_ghia Re)) (i - 1) /\ 4 / 10 < entry (ys (compare_to_ghia Re)) i < 5 / 10.
Proof. exists 3200%Z, 9%nat. unfold entry, compare_to_ghia; cbn [ys ref_u reference]. cbn -[IZR]. lra. Qed.
Print Assumptions C154_entry_refuted.
