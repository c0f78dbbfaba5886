(** Runge-Kutta integrator: steady states, invariants, expansion in powers of the step. *)
From Coq Require Import QArith Qreals.
From Verif Require Import Prelude BigSum ModelTimeIntegration SpecTimeIntegration.
Local Open Scope R_scope.

Lemma rk_b_nz i : (i < 5)%nat -> rk_b i <> 0.
Proof. intros H. do 5 (destruct i as [|i]; [cbn; lra|]). lia. Qed.

Lemma resolve_ok stored dt h d :
  resolve_dt stored dt = Ok (h, d) -> d = h /\ taken stored dt h.
Proof.
  unfold resolve_dt, setTimeStepSize, taken.
  destruct (Req_EM_T dt 0) as [E|E]; [injection 1 as <- <-; auto|].
  destruct (Req_EM_T dt stored) as [E2|E2]; [injection 1 as <- <-; subst; auto|].
  destruct (Rlt_dec 0 dt); cbn; [injection 1 as <- <-; auto|discriminate].
Qed.

Lemma resolve_runs stored dt :
  (dt = 0 \/ dt = stored \/ 0 < dt) <-> exists h, resolve_dt stored dt = Ok (h, h).
Proof.
  unfold resolve_dt, setTimeStepSize.
  destruct (Req_EM_T dt 0) as [E|E]; [split; intros; eauto|].
  destruct (Req_EM_T dt stored) as [E2|E2]; [split; intros; subst; eauto|].
  destruct (Rlt_dec 0 dt) as [L|L]; cbn; split; intros H; eauto.
  - destruct H as [H|[H|H]]; contradiction.
  - destruct H; discriminate.
Qed.

(** [dx] after a stage, without the detour through the multiplication by b. *)
Lemma stage_fst n A b h i f df k : (i < 5)%nat ->
  fst (rk_stage n A b h i (f, df)) k = f k + rk_b i * (rk_a i * df k + h * rhs n A b f k).
Proof. intros Hi. cbn. unfold vadd, vscale, vmult, rhs. ring. Qed.

Lemma stage_snd n A b h i f df k : (i < 5)%nat ->
  snd (rk_stage n A b h i (f, df)) k = rk_a i * df k + h * rhs n A b f k.
Proof.
  intros Hi. cbn. unfold vadd, vscale, vmult, vdiv, rhs. field. apply rk_b_nz; auto.
Qed.

Lemma first_stage n A b h f k :
  fst (rk_first n A b h f) k = fst (rk_stage n A b h 0 (f, fun _ => 0)) k /\
  snd (rk_first n A b h f) k = snd (rk_stage n A b h 0 (f, fun _ => 0)) k.
Proof.
  rewrite stage_fst, stage_snd by lia. cbn. unfold vadd, vscale, vmult, vdiv, rhs.
  assert (B := rk_b_nz 0 ltac:(lia)). unfold rk_b, nth in B.
  split; [ring | field; lra].
Qed.

Opaque rk_a rk_b.

(** A property of (f, df) that only depends on the entries below n and is kept by all five
    stages holds at the end. *)
Lemma rk_invariant n A b h (I : nat -> vec * vec -> Prop) f :
  (forall i (s s' : vec * vec), (forall k, fst s k = fst s' k /\ snd s k = snd s' k) -> I i s -> I i s') ->
  I 0%nat (f, fun _ => 0) ->
  (forall i s, (i < 5)%nat -> I i s -> I (S i) (rk_stage n A b h i s)) ->
  I 5%nat (rk_loop n A b h 4 1 (rk_first n A b h f)).
Proof.
  intros Ext I0 IS.
  assert (I1 : I 1%nat (rk_first n A b h f)).
  { eapply Ext; [|apply (IS 0%nat (f, fun _ => 0)); [lia|exact I0]].
    intros k. destruct (first_stage n A b h f k) as [E1 E2]. split; symmetry; assumption. }
  cbn [rk_loop]. apply IS; [lia|]. apply IS; [lia|]. apply IS; [lia|]. apply IS; [lia|]. exact I1.
Qed.

Lemma rhs_ext n A b x y i : (forall j, (j < n)%nat -> x j = y j) -> rhs n A b x i = rhs n A b y i.
Proof. intros H. unfold rhs. f_equal. apply sumf_ext. intros j Hj. now rewrite H. Qed.

Lemma rk_steady n A b h f : steady n A b f -> forall i, (i < n)%nat ->
  fst (rk_loop n A b h 4 1 (rk_first n A b h f)) i = f i.
Proof.
  intros S.
  assert (forall i, (i < n)%nat -> fst (rk_loop n A b h 4 1 (rk_first n A b h f)) i = f i /\
                                   snd (rk_loop n A b h 4 1 (rk_first n A b h f)) i = 0) as H.
  { apply (rk_invariant n A b h (fun _ (s : vec * vec) => forall i, (i < n)%nat -> fst s i = f i /\ snd s i = 0)).
    - intros _ s s' E H i Hi. destruct (E i) as [<- <-]. auto.
    - intros; cbn; auto.
    - intros k [g dg] Hk H i Hi. rewrite stage_fst, stage_snd by auto.
      destruct (H i Hi) as [E1 E2]. cbn in E1, E2. rewrite E1, E2.
      rewrite (rhs_ext n A b g f) by (intros j Hj; apply (H j Hj)). rewrite (S i Hi). split; ring. }
  intros i Hi. apply H; auto.
Qed.

Lemma rk_conserved n A b h w f : conserved n A b w ->
  sumf n (fun i => w i * fst (rk_loop n A b h 4 1 (rk_first n A b h f)) i) = sumf n (fun i => w i * f i).
Proof.
  intros C.
  set (I := fun (_ : nat) (s : vec * vec) =>
    sumf n (fun i => w i * fst s i) = sumf n (fun i => w i * f i) /\ sumf n (fun i => w i * snd s i) = 0).
  enough (I 5%nat (rk_loop n A b h 4 1 (rk_first n A b h f))) as H by apply H.
  apply rk_invariant; unfold I.
  - intros _ s s' E [H1 H2]. split; [rewrite <- H1|rewrite <- H2]; apply sumf_ext; intros i _;
      destruct (E i) as [E1 E2]; congruence.
  - cbn. split; auto. apply sumf_zero. intros; ring.
  - intros k [g dg] Hk [H1 H2]. cbn [fst snd] in H1, H2.
    assert (E : sumf n (fun i => w i * (rk_a k * dg i + h * rhs n A b g i)) = 0).
    { rewrite (sumf_ext n _ (fun i => rk_a k * (w i * dg i) + h * (w i * rhs n A b g i))) by (intros; ring).
      rewrite sumf_plus, !sumf_scal, H2, C. ring. }
    split.
    + rewrite (sumf_ext n _ (fun i => w i * g i + rk_b k * (w i * (rk_a k * dg i + h * rhs n A b g i))))
        by (intros; rewrite stage_fst by auto; ring).
      rewrite sumf_plus, sumf_scal, E, H1. ring.
    + rewrite <- E. apply sumf_ext. intros i _. rewrite stage_snd by auto. reflexivity.
Qed.

(** *** Expansion in powers of the step *)

(** A^(k-1) (A f + b) for k >= 1. *)
Fixpoint krylov (n : nat) (A : mat) (b f : vec) (k : nat) : vec :=
  match k with
  | O => fun _ => 0
  | S O => rhs n A b f
  | S k' => fun i => sumf n (fun j => A i j * krylov n A b f k' j)
  end.

Lemma krylov_S n A b f k i : (1 <= k)%nat ->
  krylov n A b f (S k) i = sumf n (fun j => A i j * krylov n A b f k j).
Proof. destruct k; [lia|reflexivity]. Qed.

(** Coefficients of f - f0 and df in front of h^k krylov k. *)
Definition shift (F : nat -> R) (k : nat) : R :=
  match k with O => 0 | S O => 1 | S k' => F k' end.
Definition cstage (i : nat) (s : (nat -> R) * (nat -> R)) : (nat -> R) * (nat -> R) :=
  let D' := fun k => rk_a i * snd s k + shift (fst s) k in
  (fun k => fst s k + rk_b i * D' k, D').
Fixpoint coeffs (i : nat) : (nat -> R) * (nat -> R) :=
  match i with O => (fun _ => 0, fun _ => 0) | S k => cstage k (coeffs k) end.

Lemma coeffs_high i k : (i < k)%nat -> fst (coeffs i) k = 0 /\ snd (coeffs i) k = 0.
Proof.
  revert k. induction i as [|i IH]; intros k Hk; [cbn; auto|].
  cbn [coeffs cstage fst snd]. unfold cstage; cbn [fst snd].
  destruct (IH k) as [-> ->]; [lia|].
  assert (shift (fst (coeffs i)) k = 0) as ->.
  { destruct k as [|[|k]]; try lia. cbn [shift]. apply IH. lia. }
  split; ring.
Qed.

Lemma coeffs_0 i : fst (coeffs i) 0%nat = 0 /\ snd (coeffs i) 0%nat = 0.
Proof.
  induction i as [|i [E1 E2]]; [cbn; auto|]. cbn [coeffs]. unfold cstage; cbn [fst snd shift].
  rewrite E1, E2. split; ring.
Qed.

Section Expansion.
  Variables (n : nat) (A : mat) (b : vec) (h : R) (f0 : vec).
  Let K := krylov n A b f0.
  Let ser (F : nat -> R) (i : nat) : R := sumf 6 (fun k => F k * h ^ k * K k i).

  Lemma ser_shift F i : F 0%nat = 0 -> F 5%nat = 0 ->
    h * rhs n A b (fun j => f0 j + ser F j) i = ser (shift F) i.
  Proof.
    intros F0 F5.
    assert (E : rhs n A b (fun j => f0 j + ser F j) i
      = rhs n A b f0 i + sumf 6 (fun k => F k * h ^ k * sumf n (fun j => A i j * K k j))).
    { unfold rhs.
      rewrite (sumf_ext n _ (fun j => A i j * f0 j + sumf 6 (fun k => F k * h ^ k * (A i j * K k j)))).
      - rewrite sumf_plus, sumf_swap.
        rewrite (sumf_ext 6 (fun k => sumf n _) (fun k => F k * h ^ k * sumf n (fun j => A i j * K k j)))
          by (intros k _; apply sumf_scal).
        ring.
      - intros j _. unfold ser. rewrite Rmult_plus_distr_l. f_equal.
        rewrite <- sumf_scal. apply sumf_ext. intros k _. ring. }
    rewrite E. unfold ser, K. cbn [sumf shift].
    rewrite F0, F5. cbn [krylov pow]. ring.
  Qed.

  Lemma rk_expansion i : (i < n)%nat ->
    fst (rk_loop n A b h 4 1 (rk_first n A b h f0)) i = f0 i + ser (fst (coeffs 5)) i.
  Proof.
    set (I := fun (m : nat) (s : vec * vec) => forall i, (i < n)%nat ->
      fst s i = f0 i + ser (fst (coeffs m)) i /\ snd s i = ser (snd (coeffs m)) i).
    enough (I 5%nat (rk_loop n A b h 4 1 (rk_first n A b h f0))) as H by (intros Hi; apply (H i Hi)).
    clear i. apply rk_invariant; unfold I.
    - intros m s s' E H i Hi. destruct (E i) as [<- <-]. auto.
    - intros i Hi. cbn [coeffs fst snd]. unfold ser.
      rewrite sumf_zero by (intros; ring). split; ring.
    - intros m [g dg] Hm H i Hi.
      rewrite stage_fst, stage_snd by auto.
      destruct (H i Hi) as [E1 E2]. cbn [fst snd] in E1, E2. rewrite E1, E2.
      rewrite (rhs_ext n A b g (fun j => f0 j + ser (fst (coeffs m)) j)) by (intros j Hj; apply (H j Hj)).
      rewrite ser_shift by (try apply coeffs_0; apply coeffs_high; lia).
      cbn [coeffs]. unfold cstage. cbn [fst snd]. unfold ser. cbn [sumf]. split; ring.
  Qed.
End Expansion.
