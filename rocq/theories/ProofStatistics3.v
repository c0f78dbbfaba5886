(** Proofs about plane statistics, Reynolds averages, global and compressible turbulence statistics. *)
From Coq Require Import NArith Permutation Psatz.
From Verif Require Import Prelude BigSum ModelErrors ModelStatistics SpecStatistics ProofStatistics ProofStatistics2.
Local Open Scope R_scope.

(** ** planes *)
Lemma lengths_concat {A} (ls : list (list A)) : fold_right (fun l s => (length l + s)%nat) 0%nat ls = length (concat ls).
Proof. induction ls as [|l ls IH]; simpl; [reflexivity|]. rewrite IH, app_length. reflexivity. Qed.

Lemma in_planes support dir x tol owned i :
  In i (concat (map (updatePlaneIndices support dir x tol) owned)) <-> In i (concat owned) /\ Rabs (support i dir - x) < tol.
Proof.
  induction owned as [|l ls IH]; simpl; [tauto|]. rewrite !in_app_iff, IH. unfold updatePlaneIndices. rewrite filter_In.
  destruct (Rlt_dec (Rabs (support i dir - x)) tol); intuition discriminate.
Qed.
Lemma nodup_app_inv {A} : forall (a b : list A), NoDup (a ++ b) -> NoDup a /\ NoDup b /\ forall x, In x a -> ~ In x b.
Proof.
  induction a as [|x a IH]; intros b H; simpl in *; [split; [constructor|split; [exact H|intros x []]]|].
  inversion H as [|y l Nn D]; subst. destruct (IH b D) as [A1 [A2 A3]]. split; [|split; [exact A2|]].
  - constructor; [|exact A1]. intros I. apply Nn. apply in_app_iff. auto.
  - intros y [->|I]; [intros J; apply Nn; apply in_app_iff; auto|apply A3; exact I].
Qed.
Lemma nodup_app_intro {A} : forall (a b : list A), NoDup a -> NoDup b -> (forall x, In x a -> ~ In x b) -> NoDup (a ++ b).
Proof.
  induction a as [|x a IH]; intros b Ha Hb D; simpl; [exact Hb|]. inversion Ha as [|y l Nn Da]; subst.
  constructor; [|apply IH; auto; intros z Hz; apply D; simpl; auto].
  intros I. apply in_app_iff in I. destruct I as [I|I]; [auto|]. apply (D x); simpl; auto.
Qed.
Lemma planes_nodup support dir x tol owned : NoDup (concat owned) -> NoDup (concat (map (updatePlaneIndices support dir x tol) owned)).
Proof.
  induction owned as [|l ls IH]; simpl; intros H; [constructor|].
  destruct (nodup_app_inv _ _ H) as [A1 [A2 A3]]. apply nodup_app_intro.
  - apply NoDup_filter. exact A1.
  - apply IH. exact A2.
  - intros i Hi Hc. apply in_planes in Hc. unfold updatePlaneIndices in Hi. apply filter_In in Hi. apply (A3 i); tauto.
Qed.

Lemma plane_value planes u a : concat planes <> [] ->
  let pts := concat planes in let av := mean_of pts (u a) in
  plane_calculate planes u a = Some (av, sqrt (mean_of pts (fun i => (u a i - av) ^ 2))).
Proof.
  intros H. cbv zeta. unfold plane_calculate. rewrite lengths_concat.
  assert (L : length (concat planes) <> 0%nat) by (destruct (concat planes); [congruence|discriminate]).
  apply Nat.eqb_neq in L. rewrite L.
  assert (S : forall g, mpi_sum planes (fun l => over_indices l g) = suml g (concat planes)).
  { intros g. rewrite mpi_sum_suml, <- suml_concat. apply suml_ext. intros. apply over_indices_suml. }
  rewrite !S. reflexivity.
Qed.

Lemma mean_perm {A} (l1 l2 : list A) g : Permutation l1 l2 -> mean_of l1 g = mean_of l2 g.
Proof. intros P. unfold mean_of. rewrite (suml_perm g l1 l2 P), (Permutation_length P). reflexivity. Qed.

Lemma variance_identity {A} (l : list A) g : l <> [] -> let m := mean_of l g in
  mean_of l (fun x => (g x - m) ^ 2) = mean_of l (fun x => g x ^ 2) - m ^ 2.
Proof.
  intros H. cbv zeta. assert (N : INR (length l) <> 0) by (apply not_0_INR; destruct l; [congruence|discriminate]).
  set (m := mean_of l g).
  assert (E : suml (fun x => (g x - m) ^ 2) l = suml (fun x => g x ^ 2) l - 2 * m * suml g l + INR (length l) * m ^ 2).
  { clear. clearbody m. induction l as [|x l IH]; [simpl; ring|]. cbn [suml length]. rewrite IH, S_INR. ring. }
  assert (M : suml g l = m * INR (length l)) by (unfold m, mean_of; field; exact N).
  unfold mean_of at 1 2. rewrite E, M. field. exact N.
Qed.

Lemma mean_nonneg {A} (l : list A) g : (forall x, In x l -> 0 <= g x) -> 0 <= mean_of l g.
Proof.
  intros H. unfold mean_of. destruct l as [|x l]; [simpl; unfold Rdiv; rewrite Rmult_0_l; lra|].
  assert (0 < INR (length (x :: l))) by (apply lt_0_INR; simpl; lia).
  assert (0 <= suml g (x :: l)).
  { replace 0 with (suml (fun _ : A => 0) (x :: l)) by (generalize (x :: l); clear; induction l as [|y l IH]; simpl; [reflexivity|rewrite IH; ring]).
    apply suml_le. exact H. }
  apply Rmult_le_pos; [assumption|left; apply Rinv_0_lt_compat; assumption].
Qed.

Lemma plane_summary support dir x tol owned : NoDup (concat owned) ->
  forall pts, NoDup pts -> (forall i, In i pts <-> In i (concat owned) /\ Rabs (support i dir - x) < tol) ->
  forall u a, let r := plane_calculate (map (updatePlaneIndices support dir x tol) owned) u a in
  (pts = [] -> r = None) /\
  (pts <> [] -> exists av rms, r = Some (av, rms) /\ av = mean_of pts (u a) /\ 0 <= rms /\ rms ^ 2 = mean_of pts (fun i => u a i ^ 2) - av ^ 2).
Proof.
  intros ND pts NP HP u a. cbv zeta.
  set (pl := map (updatePlaneIndices support dir x tol) owned).
  assert (P : Permutation (concat pl) pts).
  { apply NoDup_Permutation; [apply planes_nodup; exact ND|exact NP|]. intros i. rewrite HP. apply in_planes. }
  split.
  - intros ->. apply Permutation_sym, Permutation_nil in P. unfold plane_calculate. rewrite lengths_concat, P. reflexivity.
  - intros Hn. assert (Hc : concat pl <> []).
    { intros E. rewrite E in P. apply Permutation_nil in P. congruence. }
    pose proof (plane_value pl u a Hc) as V. cbv zeta in V. rewrite (mean_perm _ _ (u a) P) in V.
    rewrite (mean_perm _ _ _ P) in V. rewrite variance_identity in V by exact Hn.
    exists (mean_of pts (u a)). eexists. split; [exact V|]. split; [reflexivity|]. split; [apply sqrt_pos|].
    rewrite <- variance_identity by exact Hn. rewrite <- Rsqr_pow2. apply Rsqr_sqrt. apply mean_nonneg. intros. apply pow2_ge_0.
Qed.

Lemma single_plane support dir x d (dofs : list nat) : 0 < d ->
  (forall i j, In i dofs -> In j dofs -> Rabs (support i dir - support j dir) < d -> support i dir = support j dir) ->
  (forall i, In i dofs -> support i dir = x -> In i (updatePlaneIndices support dir x (plane_tolerance d) dofs)) /\
  (forall i j, In i (updatePlaneIndices support dir x (plane_tolerance d) dofs) ->
     In j (updatePlaneIndices support dir x (plane_tolerance d) dofs) -> support i dir = support j dir).
Proof.
  intros Hd Sep. unfold updatePlaneIndices, plane_tolerance. split.
  - intros i Hi E. apply filter_In. split; [exact Hi|]. rewrite E. unfold Rminus. rewrite Rplus_opp_r, Rabs_R0.
    destruct (Rlt_dec 0 (5 / 10 * d)); [reflexivity|lra].
  - intros i j Hi Hj. apply filter_In in Hi. apply filter_In in Hj. destruct Hi as [Ii Ti], Hj as [Ij Tj].
    destruct (Rlt_dec (Rabs (support i dir - x)) (5 / 10 * d)) as [Li|]; [|discriminate].
    destruct (Rlt_dec (Rabs (support j dir - x)) (5 / 10 * d)) as [Lj|]; [|discriminate].
    apply Sep; try assumption.
    replace (support i dir - support j dir) with ((support i dir - x) + - (support j dir - x)) by ring.
    eapply Rle_lt_trans; [apply Rabs_triang|]. rewrite Rabs_Ropp. lra.
Qed.

(** ** rows of turbulence_table.txt *)
Lemma map_flat_map {A B C} (f : B -> C) (g : A -> list B) l : map f (flat_map g l) = flat_map (fun x => map f (g x)) l.
Proof. induction l as [|x l IH]; simpl; [reflexivity|]. rewrite map_app, IH. reflexivity. Qed.
Lemma flat_map_map {A B C} (f : B -> list C) (g : A -> B) l : flat_map f (map g l) = flat_map (fun x => f (g x)) l.
Proof. induction l as [|x l IH]; simpl; [reflexivity|]. rewrite IH. reflexivity. Qed.

Definition turb_meaning (planes : nat -> list (list nat)) (iteration : N) (time : R) (u : nat -> field) (t : turb_column) : option R :=
  match t with
  | TIteration => Some (IZR (Z.of_N iteration))
  | TTime => Some time
  | TAverage i j => option_map fst (plane_calculate (planes i) u j)
  | TRms i j => option_map snd (plane_calculate (planes i) u j)
  end.

Lemma turb_row_meaning dim n planes it t u : turb_row dim n planes it t u = map (turb_meaning planes it t u) (turb_header dim n).
Proof.
  unfold turb_row, turb_header. rewrite !map_app, !flat_map_map, !map_flat_map. cbn [map turb_meaning app]. do 2 f_equal.
  f_equal; apply flat_map_ext; intros i; rewrite !map_map; reflexivity.
Qed.

(** ** Reynolds averages *)
Lemma reynolds_steps : forall us r, re_size (fold_left addToReynoldsStatistics us r) = (re_size r + length us)%nat /\
  forall a i, (0 < re_size r + length us)%nat -> (re_size r = 0%nat -> re_average r a i = 0) ->
  re_average (fold_left addToReynoldsStatistics us r) a i * INR (re_size r + length us) =
    re_average r a i * INR (re_size r) + suml (fun u : nat -> field => u a i) us.
Proof.
  induction us as [|u us IH]; intros r.
  - cbn [fold_left length suml]. rewrite Nat.add_0_r. split; [reflexivity|]. intros. ring.
  - cbn [fold_left length suml]. destruct (IH (addToReynoldsStatistics r u)) as [SZ A]. split.
    + rewrite SZ. unfold addToReynoldsStatistics. cbn [re_size]. lia.
    + intros a i _ Z. specialize (A a i).
      assert (E : re_size (addToReynoldsStatistics r u) = S (re_size r)) by reflexivity.
      rewrite E in A. replace (re_size r + S (length us))%nat with (S (re_size r) + length us)%nat by lia.
      rewrite A by (try lia; intros; discriminate).
      unfold addToReynoldsStatistics. cbn [re_average re_size]. cbv zeta. rewrite Rmult_assoc.
      replace (1 / INR (S (re_size r)) * INR (S (re_size r))) with 1 by (field; apply not_0_INR; lia). ring.
Qed.

Lemma reynolds_mean us : us <> [] -> forall a i,
  re_average (fold_left addToReynoldsStatistics us reynolds_init) a i = mean_of us (fun u : nat -> field => u a i).
Proof.
  intros H a i. destruct (reynolds_steps us reynolds_init) as [_ A]. specialize (A a i). cbn [re_size re_average reynolds_init Nat.add] in A.
  assert (L : (0 < length us)%nat) by (destruct us; [congruence|simpl; lia]).
  specialize (A L (fun _ => eq_refl)). unfold mean_of.
  assert (N : INR (length us) <> 0) by (apply not_0_INR; lia).
  apply Rmult_eq_reg_r with (r := INR (length us)); [|exact N]. rewrite A. field. exact N.
Qed.

(** ** global statistics *)
Lemma value_at n v c q : function_value n v c q = at_point n v c q. Proof. reflexivity. Qed.
Lemma gradient_slope n v c q k : function_gradient n v c q k = slope n v c q k. Proof. reflexivity. Qed.

Lemma l_values_observed dim n rho u c q : (dim = 2 \/ dim = 3)%nat -> l_values dim n rho u c q = map (fun o => observed n rho u o c q) (m_names dim).
Proof. intros [->| ->]; reflexivity. Qed.

Lemma nth_value dim n rho u c q j : (dim = 2 \/ dim = 3)%nat -> (j < length (m_names dim))%nat ->
  nth j (l_values dim n rho u c q) 0 = observed n rho u (nth j (m_names dim) ORho) c q.
Proof.
  intros D L. rewrite l_values_observed by exact D.
  rewrite (nth_indep _ 0 (observed n rho u ORho c q)) by (rewrite map_length; exact L).
  apply (map_nth (fun o => observed n rho u o c q)).
Qed.

Lemma map_seq_nth {A B} (d : A) (f : A -> B) l : map (fun j => f (nth j l d)) (seq 0 (length l)) = map f l.
Proof.
  induction l as [|x l IH]; [reflexivity|]. cbn [length seq map]. change (nth 0 (x :: l) d) with x. f_equal.
  rewrite <- seq_shift, map_map. rewrite <- IH. reflexivity.
Qed.

Lemma map_ext_seq {B} (f g : nat -> B) a n : (forall j, (a <= j < a + n)%nat -> f j = g j) -> map f (seq a n) = map g (seq a n).
Proof. intros H. apply map_ext_in. intros j Hj. apply in_seq in Hj. apply H. lia. Qed.

Definition legend_texts (dim : nat) : list legend_text :=
  map LMean (m_names dim)
  ++ flat_map (fun i => map (fun j => LProduct (nth i (m_names dim) ORho) (nth j (m_names dim) ORho)) (seq 0 (i + 1))) (seq 0 (length (m_names dim)))
  ++ map LThird (m_names dim) ++ map LFourth (m_names dim) ++ [LEnergy; LEnstrophy; LEnergySq; LEnstrophySq].

Lemma energy_point dim n u c q : (dim = 2 \/ dim = 3)%nat -> point_energy dim n u c q = speed_sq dim n u c q / 2.
Proof. intros [->| ->]; unfold point_energy, speed_sq; cbv zeta; cbn [Nat.eqb sumf]; change function_value with at_point; field. Qed.
Lemma enstrophy_point dim n u c q : (dim = 2 \/ dim = 3)%nat -> point_enstrophy dim n u c q = curl_sq dim n u c q.
Proof. intros [->| ->]; unfold point_enstrophy, curl_sq; cbv zeta; cbn [Nat.eqb]; change function_gradient with slope; ring. Qed.

Lemma global_row_meaning dim n nq ranks it t rho u : (dim = 2 \/ dim = 3)%nat ->
  global_row dim n nq ranks it t rho u =
  [IZR (Z.of_N it); t] ++ map (legend_integral dim n nq (concat ranks) it t rho u) (legend_texts dim).
Proof.
  intros D. unfold global_row, legend_texts. rewrite !map_app, map_flat_map, !map_map. f_equal.
  assert (G : forall g h, (forall c q, g (l_values dim n rho u c q) = h c q) -> global_average dim n nq ranks rho u g = integral nq (concat ranks) h).
  { intros g h E. unfold global_average. rewrite integrate_q_integral. apply integral_ext. intros. apply E. }
  f_equal; [|f_equal; [|f_equal; [|f_equal]]].
  - rewrite <- (map_seq_nth ORho (fun x => legend_integral dim n nq (concat ranks) it t rho u (LMean x)) (m_names dim)).
    apply map_ext_seq. intros j Hj. apply G. intros. apply nth_value; [exact D|lia].
  - rewrite !flat_map_concat_map. f_equal. apply map_ext_seq. intros j Hj. rewrite map_map. apply map_ext_seq. intros r Hr.
    apply G. intros. rewrite !nth_value by (try exact D; lia). reflexivity.
  - rewrite <- (map_seq_nth ORho (fun x => legend_integral dim n nq (concat ranks) it t rho u (LThird x)) (m_names dim)).
    apply map_ext_seq. intros j Hj. apply G. intros. rewrite nth_value by (try exact D; lia). reflexivity.
  - rewrite <- (map_seq_nth ORho (fun x => legend_integral dim n nq (concat ranks) it t rho u (LFourth x)) (m_names dim)).
    apply map_ext_seq. intros j Hj. apply G. intros. rewrite nth_value by (try exact D; lia). reflexivity.
  - cbn [map legend_integral]. rewrite !integrate_q_integral. f_equal; [|f_equal; [|f_equal; [|f_equal]]]; apply integral_ext; intros c q _ _;
      rewrite ?energy_point, ?enstrophy_point by exact D; try reflexivity; ring.
Qed.

Lemma number_from_in {A} (l : list A) : forall k m x, In (m, x) (number_from k l) -> (k <= m)%nat /\ nth_error l (m - k) = Some x.
Proof.
  unfold number_from. induction l as [|y l IH]; intros k m x H; cbn [length seq combine In] in H; [contradiction|].
  destruct H as [H|H].
  - injection H as -> ->. split; [lia|]. rewrite Nat.sub_diag. reflexivity.
  - destruct (IH (S k) m x H) as [L E]. split; [lia|]. replace (m - k)%nat with (S (m - S k)) by lia. exact E.
Qed.
Lemma number_from_fst {A} (l : list A) : forall k, map fst (number_from k l) = seq k (length l).
Proof. unfold number_from. induction l as [|y l IH]; intros k; cbn [length seq combine map]; [reflexivity|]. rewrite IH. reflexivity. Qed.

Lemma legend_summary dim n nq ranks it t rho u : (dim = 2 \/ dim = 3)%nat ->
  let row := global_row dim n nq ranks it t rho u in
  (forall k x, In (k, x) (global_legend dim) -> x <> LTime -> (1 <= k)%nat /\
     nth_error row (k - 1) = Some (legend_integral dim n nq (concat ranks) it t rho u x)) /\
  (forall k, (3 <= k <= length row)%nat -> exists x, In (k, x) (global_legend dim) /\ x <> LTime).
Proof.
  intros D. cbv zeta. rewrite global_row_meaning by exact D. split.
  - intros k x H Nt. unfold global_legend in H. cbv zeta in H. cbn [In] in H. destruct H as [H|[H|H]].
    + injection H as <- <-. split; [lia|]. reflexivity.
    + injection H as <- <-. congruence.
    + change (In (k, x) (number_from 3 (legend_texts dim))) in H. apply number_from_in in H. destruct H as [L E]. split; [lia|].
      destruct k as [|[|[|k]]]; try lia. cbn [Nat.sub app nth_error] in *. rewrite Nat.sub_0_r in E. rewrite Nat.sub_0_r || idtac.
      cbn [nth_error]. apply map_nth_error. exact E.
  - intros k L. rewrite app_length, map_length in L. cbn [length] in L.
    destruct (nth_error (legend_texts dim) (k - 3)) as [x|] eqn:E.
    + exists x. split.
      * right. right. change (In (k, x) (number_from 3 (legend_texts dim))). unfold number_from.
        assert (Lk : (k - 3 < length (legend_texts dim))%nat) by (apply nth_error_Some; rewrite E; discriminate).
        clear -E Lk L. revert E Lk. generalize (legend_texts dim) as l. intros l E Lk.
        assert (W : forall (l : list legend_text) a m y, nth_error l m = Some y -> In ((a + m)%nat, y) (combine (seq a (length l)) l)).
        { clear. induction l as [|z l IH]; intros a m y H; [destruct m; discriminate|]. cbn [length seq combine In]. destruct m as [|m].
          - cbn in H. injection H as ->. left. f_equal. lia.
          - right. replace (a + S m)%nat with (S a + m)%nat by lia. apply IH. exact H. }
        replace k with (3 + (k - 3))%nat at 1 by lia. apply W. exact E.
      * intros ->. apply nth_error_In in E. unfold legend_texts in E. clear -E D.
        destruct D as [->| ->]; cbn in E; repeat (destruct E as [E|E]; [discriminate|]); contradiction.
    + apply nth_error_None in E. lia.
Qed.

Lemma mean_unit_volume nq cells g : volume nq cells = 1 -> integral nq cells g = domain_mean nq cells g.
Proof. intros V. unfold domain_mean. rewrite V. field. Qed.

(** ** compressible statistics *)
Lemma mach_fold n gamma dim u T : forall (pts : list (fe_cell * nat)) m,
  let M p := local_mach dim n gamma u T (fst p) (snd p) in
  let r := fold_left (fun m p => if Rlt_dec m (M p) then M p else m) pts m in
  (r = m \/ exists p, In p pts /\ r = M p) /\ m <= r /\ forall p, In p pts -> M p <= r.
Proof.
  induction pts as [|p pts IH]; intros m; cbv zeta; cbn [fold_left].
  - split; [left; reflexivity|]. split; [lra|intros p []].
  - destruct (Rlt_dec m (local_mach dim n gamma u T (fst p) (snd p))) as [L|L];
      destruct (IH (if Rlt_dec m (local_mach dim n gamma u T (fst p) (snd p)) then local_mach dim n gamma u T (fst p) (snd p) else m)) as [A [B C]];
      cbv zeta in A, B, C; destruct (Rlt_dec m (local_mach dim n gamma u T (fst p) (snd p))) as [L'|L']; try contradiction.
    + split; [|split].
      * destruct A as [A|[p' [I A]]]; [right; exists p; simpl; auto|right; exists p'; simpl; auto].
      * lra.
      * intros p' [->|I]; [lra|apply C; exact I].
    + split; [|split].
      * destruct A as [A|[p' [I A]]]; [left; exact A|right; exists p'; simpl; auto].
      * lra.
      * intros p' [->|I]; [lra|apply C; exact I].
Qed.

Lemma fold_nested {A B C} (f : C -> A * B -> C) (g : A -> list B) : forall l m,
  fold_left (fun m c => fold_left (fun m q => f m (c, q)) (g c) m) l m = fold_left f (flat_map (fun c => map (fun q => (c, q)) (g c)) l) m.
Proof.
  induction l as [|x l IH]; intros m; [reflexivity|]. cbn [fold_left flat_map]. rewrite fold_left_app, IH. f_equal.
  generalize (g x) as k. clear. intros k. revert m. induction k as [|y k IH]; intros m; [reflexivity|]. cbn [fold_left map]. apply IH.
Qed.

Lemma global_mach_ok dim n nq gamma u T cells : let r := global_mach dim n nq gamma u T cells in
  (r = 0 \/ exists c q, In c cells /\ (q < nq)%nat /\ r = local_mach dim n gamma u T c q) /\ 0 <= r /\
  forall c q, In c cells -> (q < nq)%nat -> local_mach dim n gamma u T c q <= r.
Proof.
  cbv zeta. unfold global_mach.
  pose proof (fold_nested (fun m p => if Rlt_dec m (local_mach dim n gamma u T (fst p) (snd p)) then local_mach dim n gamma u T (fst p) (snd p) else m)
    (fun _ : fe_cell => seq 0 nq) cells 0) as F. cbn [fst snd] in F. rewrite F. clear F.
  destruct (mach_fold n gamma dim u T (flat_map (fun c => map (fun q => (c, q)) (seq 0 nq)) cells) 0) as [A [B C]]. cbv zeta in A, B, C.
  assert (I : forall c q, In (c, q) (flat_map (fun c => map (fun q => (c, q)) (seq 0 nq)) cells) <-> In c cells /\ (q < nq)%nat).
  { intros c q. rewrite in_flat_map. split.
    - intros [c' [Hc H]]. apply in_map_iff in H. destruct H as [q' [E H]]. injection E as -> ->. apply in_seq in H. split; [exact Hc|lia].
    - intros [Hc Hq]. exists c. split; [exact Hc|]. apply in_map_iff. exists q. split; [reflexivity|apply in_seq; lia]. }
  split; [|split; [exact B|]].
  - destruct A as [A|[[c q] [Ip A]]]; [left; exact A|right]. apply I in Ip. exists c, q. split; [tauto|]. split; [tauto|exact A].
  - intros c q Hc Hq. apply (C (c, q)). apply I. split; assumption.
Qed.

Lemma mach_value dim n gamma u T c q : (dim = 2 \/ dim = 3)%nat ->
  local_mach dim n gamma u T c q = sqrt (speed_sq dim n u c q) / sqrt (gamma * at_point n T c q).
Proof.
  intros [->| ->]; unfold local_mach, speed_sq; cbv zeta; cbn [Nat.eqb sumf]; change function_value with at_point; f_equal; f_equal; ring.
Qed.
Lemma dilatation_value dim n u c q : (dim = 2 \/ dim = 3)%nat -> dilatation_sq dim n u c q = div dim n u c q ^ 2.
Proof. intros [->| ->]; unfold dilatation_sq, div; cbv zeta; cbn [Nat.eqb sumf]; change function_gradient with slope; ring. Qed.

Lemma compressible_summary dim n nq ranks gamma it t rho u T : (dim = 2 \/ dim = 3)%nat ->
  let cells := concat ranks in
  (forall c q, In c cells -> (q < nq)%nat -> 0 < at_point n T c q) ->
  exists mach, compressible_row dim n nq ranks gamma it t rho u T =
    Some [IZR (Z.of_N it); t;
          integral nq cells (fun c q => sutherland_factor (at_point n T c q) * div dim n u c q ^ 2);
          integral nq cells (fun c q => sutherland_factor (at_point n T c q) * curl_sq dim n u c q);
          mach; integral nq cells (at_point n T)] /\
    (forall c q, In c cells -> (q < nq)%nat -> sqrt (speed_sq dim n u c q) / sqrt (gamma * at_point n T c q) <= mach) /\
    (cells <> [] -> (0 < nq)%nat -> 0 < gamma ->
     exists c q, In c cells /\ (q < nq)%nat /\ mach = sqrt (speed_sq dim n u c q) / sqrt (gamma * at_point n T c q)).
Proof.
  intros D. cbv zeta. intros P. unfold compressible_row.
  assert (F : forallb (fun cells => forallb (fun c => forallb (fun q =>
         if Rlt_dec 0 (function_value n T c q) then true else false) (seq 0 nq)) cells) ranks = true).
  { apply forallb_forall. intros cells Ir. apply forallb_forall. intros c Ic. apply forallb_forall. intros q Iq. apply in_seq in Iq.
    destruct (Rlt_dec 0 (function_value n T c q)) as [|Nn]; [reflexivity|]. exfalso. apply Nn. apply P; [apply in_concat; eauto|lia]. }
  rewrite F. cbv zeta.
  set (mach := fold_right (fun cells m => Rmax (global_mach dim n nq gamma u T cells) m) 0 ranks).
  exists mach. split.
  { rewrite !integrate_q_integral.
    rewrite (integral_ext nq (concat ranks) (fun c q => sutherland_factor (function_value n T c q) * dilatation_sq dim n u c q)
               (fun c q => sutherland_factor (at_point n T c q) * div dim n u c q ^ 2))
      by (intros c q _ _; rewrite dilatation_value by exact D; reflexivity).
    rewrite (integral_ext nq (concat ranks) (fun c q => sutherland_factor (function_value n T c q) * point_enstrophy dim n u c q)
               (fun c q => sutherland_factor (at_point n T c q) * curl_sq dim n u c q))
      by (intros c q _ _; rewrite enstrophy_point by exact D; reflexivity).
    reflexivity. }
  assert (M : (mach = 0 \/ exists c q, In c (concat ranks) /\ (q < nq)%nat /\ mach = local_mach dim n gamma u T c q) /\ 0 <= mach /\
    forall c q, In c (concat ranks) -> (q < nq)%nat -> local_mach dim n gamma u T c q <= mach).
  { unfold mach. clear. induction ranks as [|r rs IH]; simpl.
    - split; [left; reflexivity|]. split; [lra|]. intros c q [].
    - destruct IH as [A [B C]]. destruct (global_mach_ok dim n nq gamma u T r) as [A' [B' C']]. cbv zeta in A', B', C'. split; [|split].
      + set (x := global_mach dim n nq gamma u T r) in *.
        set (y := fold_right (fun cells m => Rmax (global_mach dim n nq gamma u T cells) m) 0 rs) in *.
        assert (E : Rmax x y = y \/ Rmax x y = x) by (unfold Rmax; destruct (Rle_dec x y); auto).
        destruct E as [E|E]; rewrite E.
        * destruct A as [A|[c [q [Ic [Iq A]]]]]; [left; exact A|right]. exists c, q. rewrite in_app_iff. auto.
        * destruct A' as [A'|[c [q [Ic [Iq A']]]]]; [left; exact A'|right]. exists c, q. rewrite in_app_iff. auto.
      + eapply Rle_trans; [exact B'|apply Rmax_l].
      + intros c q Ic Iq. apply in_app_iff in Ic. destruct Ic as [Ic|Ic].
        * eapply Rle_trans; [apply C'; eassumption|apply Rmax_l].
        * eapply Rle_trans; [apply C; eassumption|apply Rmax_r]. }
  destruct M as [A [B C]]. split.
  - intros c q Ic Iq. rewrite <- mach_value by exact D. apply C; assumption.
  - intros Hn Hq Hg. destruct A as [A|[c [q [Ic [Iq A]]]]].
    + destruct (concat ranks) as [|c l] eqn:E; [congruence|]. exists c, 0%nat. split; [simpl; auto|]. split; [exact Hq|].
      assert (L : local_mach dim n gamma u T c 0 <= mach) by (apply C; [simpl; auto|exact Hq]).
      rewrite mach_value in L by exact D.
      assert (0 <= sqrt (speed_sq dim n u c 0) / sqrt (gamma * at_point n T c 0)); [|lra].
      apply Rmult_le_pos; [apply sqrt_pos|]. left. apply Rinv_0_lt_compat. apply sqrt_lt_R0. apply Rmult_lt_0_compat; [exact Hg|]. apply P; [simpl; auto|exact Hq].
    + exists c, q. split; [exact Ic|]. split; [exact Iq|]. rewrite A. apply mach_value. exact D.
Qed.
