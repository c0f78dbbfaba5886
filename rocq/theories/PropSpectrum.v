(** C158: spectra and pseudospectra of streaming matrices. *)
From Verif Require Import Prelude ModelSpectrum SpecSpectrum ProofSpectrum.
Local Open Scope R_scope.

(** LAPACK as documented, for matrices of size n: n numbers, all of them eigenvalues. *)
Definition correct_lapack (n : nat) (lapack : nat -> (nat -> nat -> R) -> list (R * R)) : Prop :=
  forall M, length (lapack n M) = n /\ forall z, In z (lapack n M) -> eigenvalue n M z.
Definition correct_rand (rand : Z -> nat -> Z) (RAND_MAX : Z) : Prop := (0 < RAND_MAX)%Z /\ forall s k, (0 <= rand s k <= RAND_MAX)%Z.

(** For the examples: size one, and a generator. *)
Definition lapack_1 (n : nat) (M : nat -> nat -> R) : list (R * R) := [(M 0%nat 0%nat, 0)].
Lemma lapack_1_ok : correct_lapack 1 lapack_1.
Proof.
  intros M. split; [reflexivity|]. intros z [<-|[]]. exists (fun _ => 1), (fun _ => 0). split; [exists 0%nat; split; [lia|left; lra]|].
  intros i Hi. replace i with 0%nat by lia. cbn. split; ring.
Qed.
Definition rand_1 (seed : Z) (k : nat) : Z := (Z.modulo (seed + Z.of_nat k) 8)%Z.
Lemma rand_1_ok : correct_rand rand_1 7.
Proof. split; [lia|]. intros s k. unfold rand_1. pose proof (Z.mod_pos_bound (s + Z.of_nat k) 8 ltac:(lia)). lia. Qed.

(** computeSpectrum without perturbation: eigenvalues of the matrix, and the returned value is their largest modulus. *)
Theorem C158_spectrum : forall lapack rand RAND_MAX now n M, correct_lapack n lapack ->
  let (e, m) := computeSpectrum lapack rand RAND_MAX now n M 0 in
  length e = n /\ (forall z, In z e -> eigenvalue n M z) /\
  (forall z, In z e -> sqrt (fst z * fst z + snd z * snd z) <= m) /\
  (0 < n -> exists z, In z e /\ sqrt (fst z * fst z + snd z * snd z) = m)%nat.
Proof.
  intros lapack rand RAND_MAX now n M H. unfold computeSpectrum, perturbed. destruct (Req_EM_T 0 0) as [_|N]; [|exfalso; apply N; reflexivity].
  destruct (H M) as [L E]. split; [exact L|]. split; [exact E|]. split; [exact (proj2 (largest_ge (lapack n M) 0))|].
  intros Hn. destruct (largest_in (lapack n M) 0) as [Z|Z]; [|exact Z].
  destruct (lapack n M) as [|w l] eqn:Q; [cbn in L; lia|]. exists w. split; [left; reflexivity|].
  pose proof (proj2 (largest_ge (w :: l) 0) w (or_introl eq_refl)) as G. rewrite Z in *. unfold cabs in G. pose proof (sqrt_pos (fst w * fst w + snd w * snd w)). lra.
Qed.
Print Assumptions C158_spectrum.
Example C158_spectrum_ex : forall z, In z (fst (computeSpectrum lapack_1 rand_1 7 5 1 (fun _ _ => 3) 0)) -> eigenvalue 1 (fun _ _ => 3) z.
Proof. pose proof (C158_spectrum lapack_1 rand_1 7 5%Z 1 (fun _ _ => 3) lapack_1_ok) as H. destruct (computeSpectrum lapack_1 rand_1 7 5 1 (fun _ _ => 3) 0) as [e m]. exact (proj1 (proj2 H)). Qed.

(** The file of the spectrum holds eigenvalues of dt A, as its header says, if scaling is switched on. *)
Theorem C158_file_partial : forall lapack rand RAND_MAX now n A dt, correct_lapack n lapack ->
  length (writeSpectrum lapack rand RAND_MAX now n A dt true) = n /\
  forall z, In z (writeSpectrum lapack rand RAND_MAX now n A dt true) -> eigenvalue n (scaled dt A) z.
Proof.
  intros lapack rand RAND_MAX now n A dt H. pose proof (C158_spectrum lapack rand RAND_MAX now n A H) as S. unfold writeSpectrum.
  destruct (computeSpectrum lapack rand RAND_MAX now n A 0) as [e m]. destruct S as (L & E & _). cbn [fst rescale]. split; [rewrite map_length; exact L|].
  intros z Hz. apply in_map_iff in Hz. destruct Hz as (w & <- & Hw). apply eigen_scaled, E, Hw.
Qed.
Print Assumptions C158_file_partial.
Example C158_file_partial_ex : eigenvalue 1 (scaled 2 (fun _ _ => 3)) (3 * 2, 0 * 2).
Proof.
  apply (proj2 (C158_file_partial lapack_1 rand_1 7 5%Z 1 (fun _ _ => 3) 2 lapack_1_ok)).
  unfold writeSpectrum, computeSpectrum, perturbed. destruct (Req_EM_T 0 0) as [_|N]; [|exfalso; apply N; reflexivity]. left. reflexivity.
Qed.

(** Refuted without scaling: the header is the same, but the lines are no eigenvalues of dt A. *)
Theorem C158_file_refuted : exists lapack rand RAND_MAX now n A dt, correct_lapack n lapack /\ correct_rand rand RAND_MAX /\ 0 < dt /\
  exists z, In z (writeSpectrum lapack rand RAND_MAX now n A dt false) /\ ~ eigenvalue n (scaled dt A) z.
Proof.
  exists lapack_1, rand_1, 7%Z, 5%Z, 1%nat, (fun _ _ => 3), 2. split; [exact lapack_1_ok|]. split; [exact rand_1_ok|]. split; [lra|]. exists (3, 0). split.
  - unfold writeSpectrum, computeSpectrum, perturbed. destruct (Req_EM_T 0 0) as [_|N]; [|exfalso; apply N; reflexivity]. left. reflexivity.
  - intros (x & y & (i & Hi & N) & H). destruct (H i Hi) as [P Q]. replace i with 0%nat in * by lia. unfold scaled in P, Q. cbn in P, Q. destruct N as [N|N]; apply N; lra.
Qed.
Print Assumptions C158_file_refuted.

(** Every line of the pseudospectrum is an eigenvalue of dt B for a matrix B whose entries differ from those of A by at
    most the perturbation; every cycle contributes n lines. *)
Theorem C158_pseudospectrum : forall lapack rand RAND_MAX clock n A dt cycles p, correct_lapack n lapack -> correct_rand rand RAND_MAX ->
  length (writePseudospectrum lapack rand RAND_MAX clock n A dt true cycles p) = (cycles * n)%nat /\
  forall z, In z (writePseudospectrum lapack rand RAND_MAX clock n A dt true cycles p) -> exists B, within n (Rabs p) A B /\ eigenvalue n (scaled dt B) z.
Proof.
  intros lapack rand RAND_MAX clock n A dt cycles p HL [HM HR]. split; [exact (pseudo_count lapack rand RAND_MAX n HL clock A dt true cycles p)|].
  intros z. exact (pseudo_lines lapack rand RAND_MAX HM HR n HL clock A dt cycles p z).
Qed.
Print Assumptions C158_pseudospectrum.
Example C158_pseudospectrum_ex : length (writePseudospectrum lapack_1 rand_1 7 (fun i => Z.of_nat i) 1 (fun _ _ => 3) 2 true 10 (1 / 10)) = 10%nat.
Proof. exact (proj1 (C158_pseudospectrum lapack_1 rand_1 7%Z (fun i => Z.of_nat i) 1 (fun _ _ => 3) 2 10 (1 / 10) lapack_1_ok rand_1_ok)). Qed.

(** The matrices examined: the number drawn for an entry is mapped linearly from 0 .. RAND_MAX onto the whole interval
    from -p to p, the numbers being drawn row by row. *)
Theorem C158_perturbation : forall lapack rand RAND_MAX now n A p, (0 < RAND_MAX)%Z ->
  exists B, fst (computeSpectrum lapack rand RAND_MAX now n A p) = lapack n B /\
    (p = 0 -> B = A) /\
    (p <> 0 -> forall i j, (i < n)%nat -> (j < n)%nat -> let r := rand now (i * n + j)%nat in
       (r = 0%Z -> B i j = A i j - p) /\ (r = RAND_MAX -> B i j = A i j + p) /\
       (B i j - A i j + p) * IZR RAND_MAX = 2 * p * IZR r).
Proof.
  intros lapack rand RAND_MAX now n A p HM. exists (perturbed rand RAND_MAX now n p A). split; [reflexivity|].
  apply IZR_lt in HM. unfold perturbed, rnd. destruct (Req_EM_T p 0) as [E|E]; (split; [intros P; try reflexivity; contradiction|]); intros P i j _ _; [contradiction|].
  cbv zeta. split; [intros ->; field; lra|]. split; [intros ->; field; lra|]. field. lra.
Qed.
Print Assumptions C158_perturbation.
Example C158_perturbation_ex : rand_1 7 0 = 7%Z /\ rand_1 7 1 = 0%Z /\ (0 < 7)%Z.
Proof. repeat split; reflexivity. Qed.

(** Refuted: the cycles examine different matrices.  The generator is started with the time in seconds in every cycle, so
    that all cycles within a second give the same lines again; ten cycles then show what one shows. *)
Theorem C158_cycles_refuted :
  (forall lapack rand RAND_MAX clock n A dt scale cycles p t, (forall i, (i < cycles)%nat -> clock i = t) ->
    writePseudospectrum lapack rand RAND_MAX clock n A dt scale cycles p =
    concat (repeat (writePseudospectrum lapack rand RAND_MAX (fun _ => t) n A dt scale 1 p) cycles)) /\
  exists lapack rand RAND_MAX (clock : nat -> Z) n A dt p, correct_lapack n lapack /\ correct_rand rand RAND_MAX /\ 0 < p /\
    (exists k k', rand (clock 0%nat) k <> rand (clock 0%nat) k') /\
    exists z, forall w, In w (writePseudospectrum lapack rand RAND_MAX clock n A dt true 10 p) -> w = z.
Proof.
  split; [exact same_second|].
  exists lapack_1, rand_1, 7%Z, (fun _ => 5%Z), 1%nat, (fun _ _ => 3), 2, (1 / 10). split; [exact lapack_1_ok|]. split; [exact rand_1_ok|]. split; [lra|].
  split; [exists 0%nat, 1%nat; vm_compute; discriminate|].
  assert (G : exists z, writePseudospectrum lapack_1 rand_1 7 (fun _ => 5%Z) 1 (fun _ _ => 3) 2 true 1 (1 / 10) = [z]) by (eexists; reflexivity).
  destruct G as [z G]. exists z. intros w Hw. rewrite (same_second lapack_1 rand_1 7%Z (fun _ => 5%Z) 1 (fun _ _ => 3) 2 true 10 (1 / 10) 5%Z (fun _ _ => eq_refl)), G in Hw.
  apply in_concat in Hw. destruct Hw as (l & Hl & Hw). apply repeat_spec in Hl. subst l. destruct Hw as [<-|[]]. reflexivity.
Qed.
Print Assumptions C158_cycles_refuted.
Example C158_cycles_refuted_ex : exists l, writePseudospectrum lapack_1 rand_1 7 (fun _ => 5%Z) 1 (fun _ _ => 3) 2 true 3 (1 / 10) = l ++ l ++ l.
Proof. eexists. rewrite (proj1 C158_cycles_refuted lapack_1 rand_1 7%Z (fun _ => 5%Z) 1%nat (fun _ _ => 3) 2 true 3%nat (1 / 10) 5%Z (fun _ _ => eq_refl)). cbn [repeat concat]. rewrite app_nil_r. reflexivity. Qed.
