(** Spectra and pseudospectra. *)
From Verif Require Import Prelude BigSum ModelSpectrum SpecSpectrum.
Local Open Scope R_scope.

Lemma eigen_scaled n M z dt : eigenvalue n M z -> eigenvalue n (scaled dt M) (fst z * dt, snd z * dt).
Proof.
  intros (x & y & N & H). exists x, y. split; [exact N|]. intros i Hi. destruct (H i Hi) as [A B]. unfold scaled. cbn [fst snd]. split.
  - rewrite (sumf_ext n _ (fun j => dt * (M i j * x j))) by (intros; ring). rewrite sumf_scal, A. ring.
  - rewrite (sumf_ext n _ (fun j => dt * (M i j * y j))) by (intros; ring). rewrite sumf_scal, B. ring.
Qed.

Lemma largest_ge l : forall m, m <= largest m l /\ forall z, In z l -> cabs z <= largest m l.
Proof.
  induction l as [|w l IH]; intros m; cbn [largest]; [split; [lra|intros z []]|].
  destruct (IH (if Rlt_dec m (cabs w) then cabs w else m)) as [A B].
  assert (m <= (if Rlt_dec m (cabs w) then cabs w else m) /\ cabs w <= (if Rlt_dec m (cabs w) then cabs w else m)) as [C D] by (destruct (Rlt_dec m (cabs w)); lra).
  split; [lra|]. intros z [<-|Hz]; [lra|exact (B z Hz)].
Qed.
Lemma largest_in l : forall m, largest m l = m \/ exists z, In z l /\ cabs z = largest m l.
Proof.
  induction l as [|w l IH]; intros m; cbn [largest]; [left; reflexivity|].
  destruct (IH (if Rlt_dec m (cabs w) then cabs w else m)) as [E|(z & Hz & E)].
  - rewrite E. destruct (Rlt_dec m (cabs w)); [right; exists w; split; [left; reflexivity|reflexivity]|left; reflexivity].
  - right. exists z. split; [right; exact Hz|exact E].
Qed.

Section Tool.
  Variable lapack : nat -> fullmatrix -> list cnum.
  Variable rand : Z -> nat -> Z.
  Variable RAND_MAX : Z.
  Hypothesis Hmax : (0 < RAND_MAX)%Z.
  Hypothesis Hrand : forall s k, (0 <= rand s k <= RAND_MAX)%Z.

  Lemma rnd_bound now p k : Rabs (rnd rand RAND_MAX now p k) <= Rabs p.
  Proof.
    unfold rnd. destruct (Hrand now k) as [A B]. apply IZR_le in A. apply IZR_le in B. apply IZR_lt in Hmax.
    assert (0 <= IZR (rand now k) / IZR RAND_MAX) by (apply Rmult_le_pos; [exact A|left; apply Rinv_0_lt_compat; exact Hmax]).
    assert (IZR (rand now k) / IZR RAND_MAX <= 1).
    { apply Rmult_le_reg_r with (IZR RAND_MAX); [exact Hmax|]. unfold Rdiv. rewrite Rmult_assoc, Rinv_l by lra. lra. }
    revert H H0. generalize (IZR (rand now k) / IZR RAND_MAX). intros q Q1 Q2.
    replace (2 * p * (q - 1 / 2)) with (p * (2 * q - 1)) by field. rewrite Rabs_mult. rewrite <- (Rmult_1_r (Rabs p)) at 2.
    apply Rmult_le_compat_l; [apply Rabs_pos|]. apply Rabs_le. lra.
  Qed.
  Lemma perturbed_within now n p M : within n (Rabs p) M (perturbed rand RAND_MAX now n p M).
  Proof.
    intros i j _ _. unfold perturbed. destruct (Req_EM_T p 0) as [->|].
    - rewrite Rminus_diag_eq by reflexivity. lra.
    - replace (M i j + rnd rand RAND_MAX now p (i * n + j) - M i j) with (rnd rand RAND_MAX now p (i * n + j)) by ring. apply rnd_bound.
  Qed.

  Variable n : nat.
  Hypothesis Hlapack : forall M, length (lapack n M) = n /\ forall z, In z (lapack n M) -> eigenvalue n M z.

  Lemma pseudo_lines clock A dt cycles p z : In z (writePseudospectrum lapack rand RAND_MAX clock n A dt true cycles p) ->
    exists B, within n (Rabs p) A B /\ eigenvalue n (scaled dt B) z.
  Proof.
    unfold writePseudospectrum, rescale. intros H. apply in_map_iff in H. destruct H as (w & <- & H). apply in_concat in H. destruct H as (l & Hl & Hw).
    apply in_map_iff in Hl. destruct Hl as (i & <- & _). cbn [computeSpectrum fst] in Hw.
    exists (perturbed rand RAND_MAX (clock i) n p A). split; [apply perturbed_within|]. apply eigen_scaled. apply Hlapack, Hw.
  Qed.
  Lemma pseudo_count clock A dt scale cycles p : length (writePseudospectrum lapack rand RAND_MAX clock n A dt scale cycles p) = (cycles * n)%nat.
  Proof.
    unfold writePseudospectrum. replace (length (rescale scale dt _)) with (length (concat (map (fun i => fst (computeSpectrum lapack rand RAND_MAX (clock i) n A p)) (seq 0 cycles)))) by (destruct scale; [symmetry; apply map_length|reflexivity]).
    generalize 0%nat. induction cycles as [|c IH]; intros s; [reflexivity|]. cbn [seq map concat]. rewrite app_length, IH. cbn [computeSpectrum fst]. rewrite (proj1 (Hlapack _)). lia.
  Qed.
End Tool.

Lemma same_second lapack rand RAND_MAX clock n A dt scale cycles p t : (forall i, (i < cycles)%nat -> clock i = t) ->
  writePseudospectrum lapack rand RAND_MAX clock n A dt scale cycles p =
  concat (repeat (writePseudospectrum lapack rand RAND_MAX (fun _ => t) n A dt scale 1 p) cycles).
Proof.
  intros H. unfold writePseudospectrum. cbn [seq map concat]. rewrite app_nil_r. cbn [computeSpectrum fst].
  set (e := lapack n (perturbed rand RAND_MAX t n p A)).
  replace (map (fun i => lapack n (perturbed rand RAND_MAX (clock i) n p A)) (seq 0 cycles)) with (repeat e cycles).
  - clear H. induction cycles as [|c IH]; [destruct scale; reflexivity|]. cbn [repeat concat]. rewrite <- IH. destruct scale; [apply map_app|reflexivity].
  - assert (G : forall c s, (s + c <= cycles)%nat -> repeat e c = map (fun i => lapack n (perturbed rand RAND_MAX (clock i) n p A)) (seq s c)).
    { induction c as [|c IH]; intros s Hs; [reflexivity|]. cbn [seq map repeat]. rewrite (H s) by lia. f_equal. apply IH. lia. }
    apply G. lia.
Qed.
