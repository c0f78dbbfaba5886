(** Comparison with reference tables. *)
From Verif Require Import Prelude BigSum CavityData ModelCavity SpecCavity.
Local Open Scope R_scope.

Lemma mpi_max_ge l : forall a, a <= mpi_max a l /\ forall b, In b l -> b <= mpi_max a l.
Proof.
  induction l as [|c l IH]; intros a; cbn; [split; [lra|tauto]|]. destruct (IH (Rmax a c)) as [H1 H2].
  split; [apply Rle_trans with (Rmax a c); [apply Rmax_l|exact H1]|]. intros b [<-|Hb]; [|exact (H2 b Hb)].
  apply Rle_trans with (Rmax a c); [apply Rmax_r|exact H1].
Qed.

Lemma mpi_max_in l : forall a, In (mpi_max a l) (a :: l).
Proof.
  induction l as [|c l IH]; intros a; cbn; [tauto|]. destruct (IH (Rmax a c)) as [H|H]; [|tauto].
  rewrite <- H. unfold Rmax. destruct (Rle_dec a c); tauto.
Qed.

Lemma velocity_known p f e0 es x y : p <= f x y -> known_at f (e0 :: es) x y -> velocity_at p e0 es x y = f x y.
Proof.
  intros Hp [Hall (e & He & Hf)]. unfold velocity_at.
  set (l := map (fun e => sent p e x y) es). set (a := sent p e0 x y).
  assert (S : forall e', In e' (e0 :: es) -> sent p e' x y <= f x y).
  { intros e' He'. unfold sent. destruct (e' x y) eqn:E; [rewrite (Hall e' _ He' E); lra|exact Hp]. }
  apply Rle_antisym.
  - destruct (mpi_max_in l a) as [H|H]; [rewrite <- H; apply S; left; reflexivity|].
    unfold l in H at 2. apply in_map_iff in H. destruct H as (e' & H & He'). rewrite <- H. apply S. right. exact He'.
  - destruct (mpi_max_ge l a) as [H1 H2]. assert (Q : sent p e x y = f x y) by (unfold sent; rewrite Hf; reflexivity).
    rewrite <- Q. destruct He as [<-|He]; [exact H1|]. apply H2. apply in_map_iff. exists e. split; [reflexivity|exact He].
Qed.

Section Apply.
  Variables (c : comparison) (it : nat) (u v : R -> R -> R) (u0 v0 : evaluator) (us vs : list evaluator) (s : state).
  Hypothesis It : Nat.modulo it 1000 = 0%nat.
  Hypothesis Hu : forall i, (i < rows c)%nat -> placeholder_u <= u (1 / 2) (entry (ys c) i) /\ known_at u (u0 :: us) (1 / 2) (entry (ys c) i).
  Hypothesis Hv : forall i, (i < rows c)%nat -> placeholder_v <= v (entry (xs c) i) (1 / 2) /\ known_at v (v0 :: vs) (entry (xs c) i) (1 / 2).

  Lemma apply_values : let s' := compare_apply c it u0 us v0 vs s in
    lines s' = map (fun i => (entry (ys c) i, u (1 / 2) (entry (ys c) i), entry (ref_u c) i, entry (xs c) i, v (entry (xs c) i) (1 / 2), entry (ref_v c) i)) (seq 0 (rows c)) /\
    getUError s' = Ok (rms (rows c) (fun i => u (1 / 2) (entry (ys c) i)) (entry (ref_u c))) /\
    getVError s' = Ok (rms (rows c) (fun i => v (entry (xs c) i) (1 / 2)) (entry (ref_v c))).
  Proof.
    cbv zeta. unfold compare_apply. rewrite It. cbn [Nat.eqb negb lines getUError getVError u_error v_error].
    assert (Eu : forall i, (i < rows c)%nat -> velocity_at placeholder_u u0 us (1 / 2) (entry (ys c) i) = u (1 / 2) (entry (ys c) i)).
    { intros i Hi. destruct (Hu i Hi). apply velocity_known; assumption. }
    assert (Ev : forall i, (i < rows c)%nat -> velocity_at placeholder_v v0 vs (entry (xs c) i) (1 / 2) = v (entry (xs c) i) (1 / 2)).
    { intros i Hi. destruct (Hv i Hi). apply velocity_known; assumption. }
    split; [|split].
    - apply map_ext_in. intros i Hi. apply in_seq in Hi. rewrite Eu, Ev by lia. reflexivity.
    - f_equal. unfold rms, Rsqr. f_equal. f_equal. apply sumf_ext. intros i Hi. rewrite Eu by exact Hi. reflexivity.
    - f_equal. unfold rms, Rsqr. f_equal. f_equal. apply sumf_ext. intros i Hi. rewrite Ev by exact Hi. reflexivity.
  Qed.
End Apply.

Lemma rms_zero n a b : (0 < n)%nat -> (rms n a b = 0 <-> forall i, (i < n)%nat -> a i = b i).
Proof.
  intros Hn. assert (HN : 0 < INR n) by (apply lt_0_INR; exact Hn).
  assert (P : 0 <= sumf n (fun i => Rsqr (a i - b i))) by (apply sumf_nonneg; intros; apply Rle_0_sqr).
  unfold rms. split.
  - intros H i Hi. apply sqrt_eq_0 in H; [|apply Rmult_le_pos; [exact P|left; apply Rinv_0_lt_compat; exact HN]].
    assert (S : sumf n (fun i => Rsqr (a i - b i)) = 0).
    { replace (sumf n (fun i => Rsqr (a i - b i))) with (sumf n (fun i => Rsqr (a i - b i)) / INR n * INR n) by (field; lra). rewrite H. ring. }
    pose proof (sumf_nonneg_zero n _ (fun i _ => Rle_0_sqr (a i - b i)) S i Hi) as Z. apply Rsqr_0_uniq in Z. lra.
  - intros H. rewrite (sumf_ext n _ (fun _ => 0)) by (intros i Hi; rewrite (H i Hi); unfold Rsqr; ring).
    rewrite (sumf_zero n (fun _ => 0)) by (intros; reflexivity). unfold Rdiv. rewrite Rmult_0_l. apply sqrt_0.
Qed.

(** Tables. *)
Lemma entry_close a b i t : (Z.abs (nth i a 0 - nth i b 0) <= t)%Z -> Rabs (entry a i - entry b i) <= IZR t / 10000000.
Proof.
  intros H. unfold entry. replace (IZR (nth i a 0%Z) / 10000000 - IZR (nth i b 0%Z) / 10000000) with (IZR (nth i a 0%Z - nth i b 0%Z) / 10000000) by (rewrite minus_IZR; field).
  unfold Rdiv. rewrite Rabs_mult, (Rabs_right (/ 10000000)) by lra. apply Rmult_le_compat_r; [lra|]. rewrite <- abs_IZR. apply IZR_le. exact H.
Qed.

Definition close (n : nat) (t : Z) (a b : list Z) : bool := forallb (fun i => Z.leb (Z.abs (nth i a 0%Z - nth i b 0%Z)) t) (seq 0 n).
Lemma close_agree n t a b : close n t a b = true -> agree n (IZR t / 10000000) (entry a) (entry b).
Proof.
  intros H i Hi. apply entry_close. unfold close in H. rewrite forallb_forall in H. specialize (H i). apply Z.leb_le, H, in_seq. lia.
Qed.

Lemma tables_u : agree 17 0 (entry (ys (compare_to_ghia 1000))) (entry (ys (compare_to_botella 1000))) /\
  agree 17 (7 / 1000) (entry (ref_u (compare_to_ghia 1000))) (entry (ref_u (compare_to_botella 1000))).
Proof.
  split.
  - replace 0 with (IZR 0 / 10000000) by field. apply close_agree. vm_compute. reflexivity.
  - replace (7 / 1000) with (IZR 70000 / 10000000) by field. apply close_agree. vm_compute. reflexivity.
Qed.

Definition mirrored (l : list Z) : list Z := map (fun x => (10000000 - x)%Z) (rev l).
Lemma mirrored_entry l i : (i < length l)%nat -> entry (mirrored l) i = 1 - entry l (length l - 1 - i).
Proof.
  intros Hi. unfold entry, mirrored. rewrite (nth_indep _ 0%Z (10000000 - 0)%Z) by (rewrite map_length, rev_length; exact Hi).
  rewrite (map_nth (fun x => (10000000 - x)%Z) (rev l) 0%Z i), rev_nth by exact Hi. replace (length l - S i)%nat with (length l - 1 - i)%nat by lia.
  rewrite minus_IZR. field.
Qed.

Lemma tables_v : agree 17 (1 / 5000) (entry (xs (compare_to_ghia 1000))) (fun i => 1 - entry (xs (compare_to_botella 1000)) (16 - i)) /\
  agree 17 (2 / 100) (entry (ref_v (compare_to_ghia 1000))) (entry (ref_v (compare_to_botella 1000))).
Proof.
  split.
  - intros i Hi. cbn [xs compare_to_ghia compare_to_botella]. replace (1 - entry botella_x (16 - i)) with (entry (mirrored botella_x) i) by (rewrite mirrored_entry; [reflexivity|exact Hi]).
    replace (1 / 5000) with (IZR 2000 / 10000000) by field. revert i Hi. apply close_agree. vm_compute. reflexivity.
  - replace (2 / 100) with (IZR 200000 / 10000000) by field. apply close_agree. vm_compute. reflexivity.
Qed.
