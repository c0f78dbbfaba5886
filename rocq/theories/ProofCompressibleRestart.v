(** Restart of the compressible solver. *)
From Verif Require Import Prelude BigSum ModelConfigNames ModelStencils SpecStencils ModelEquilibria ModelCollision ModelRun ModelCheckpoint ModelCompressible
  SpecCollision SpecSetup SpecRun SpecCompressible ProofStencils ProofWick ProofEquilibria ProofEqMoments ProofCollideNode ProofCompressible ProofCompressibleRun ProofCompressibleRun2 ProofCompressibleUniform.
Local Open Scope R_scope.

Lemma cs2_neq0 t s : s <> 0 -> st_cs2 (stencil_of t s) <> 0.
Proof. intros Hs Z. apply (cs2_unscaled_neq0 t s Hs). cbn [unscale st_cs2]. rewrite Z. unfold Rdiv. ring. Qed.

(** sum_i |e_i - v|^2 f_i *)
Lemma second_moment st (f v : nat -> R) :
  sumf (st_Q st) (fun i => sumf (st_D st) (fun a => (st_e st i a - v a) * (st_e st i a - v a)) * f i) =
  sumf (st_D st) (fun a => moment2 st f a a) - 2 * sumf (st_D st) (fun a => v a * momentum st f a) + mass st f * dot (st_D st) v v.
Proof.
  rewrite (sumf_ext (st_Q st) _ (fun i => sumf (st_D st) (fun a => (st_e st i a - v a) * (st_e st i a - v a) * f i))) by (intros; rewrite <- sumf_scal_r; reflexivity).
  rewrite sumf_swap. unfold dot. rewrite <- !sumf_scal, <- sumf_minus, <- sumf_plus. apply sumf_ext. intros a _.
  rewrite (sumf_ext (st_Q st) _ (fun i => f i * st_e st i a * st_e st i a - 2 * v a * (f i * st_e st i a) + v a * v a * f i)) by (intros; ring).
  rewrite sumf_plus, sumf_minus, !sumf_scal. fold (moment2 st f a a). fold (momentum st f a). fold (mass st f). ring.
Qed.
Lemma random_energy st f : st_cs2 st <> 0 -> mass st f <> 0 -> INR (st_D st) <> 0 ->
  INR (st_D st) * mass st f * st_cs2 st * random_motion st f = sumf (st_D st) (fun a => moment2 st f a a) - mass st f * dot (st_D st) (bulk st f) (bulk st f).
Proof.
  intros Hc Hm HD. unfold random_motion. unfold dot at 1. rewrite (second_moment st f (bulk st f)).
  rewrite (sumf_ext (st_D st) (fun a => bulk st f a * momentum st f a) (fun a => mass st f * (bulk st f a * bulk st f a))) by (intros; unfold bulk; field; exact Hm).
  rewrite sumf_scal. unfold dot. field. repeat split; assumption.
Qed.

Section Node.
  Variables (t : StencilType) (s gamma : R) (f : nat -> R).
  Notation st := (stencil_of t s).
  Hypothesis Hs : s <> 0.
  Hypothesis Hga : gamma <> 1.
  Hypothesis Hm : mass st f <> 0.
  Let L := unscale st s.
  Notation D := (INR (st_D st)).
  Notation cv := (1 / (gamma - 1)).
  Let HD0 : D <> 0.
  Proof. destruct (st_dim t s) as [-> | ->]; cbn; lra. Qed.
  Let Hcs := cs2_neq0 t s Hs.

  (** The temperature from which g is made. *)
  Lemma restored_factor i : restored_g gamma st s f i =
    f i * (random_motion st f + (mass st f - 1) * (mass st f - 1) * dot (st_D st) (bulk st f) (bulk st f) / (D * st_cs2 st)) * (2 * cv - D).
  Proof.
    unfold restored_g. cbv zeta. f_equal. f_equal.
    set (vel := fun a => sumf (st_Q st) (fun j => st_e st j a / s * f j)).
    assert (V : forall a, vel a = mass st f * bulk st f a / s).
    { intros a. unfold vel, bulk. rewrite (sumf_ext (st_Q st) _ (fun j => / s * (f j * st_e st j a))) by (intros; unfold Rdiv; ring).
      rewrite sumf_scal. fold (momentum st f a). field. split; assumption. }
    rewrite (sumf_ext (st_Q st) _ (fun j => / st_cs2 st * (sumf (st_D st) (fun a => (st_e st j a - s * vel a) * (st_e st j a - s * vel a)) * f j))).
    2:{ intros j _. rewrite (sumf_ext (st_D st) (fun a => (st_e st j a / s - sumf (st_Q st) (fun j0 => st_e st j0 a / s * f j0)) * (st_e st j a / s - sumf (st_Q st) (fun j0 => st_e st j0 a / s * f j0)))
            (fun a => / (s * s) * ((st_e st j a - s * vel a) * (st_e st j a - s * vel a)))) by (intros; unfold vel; field; exact Hs).
        rewrite sumf_scal. field. split; assumption. }
    rewrite sumf_scal, (second_moment st f (fun a => s * vel a)).
    rewrite (sumf_ext (st_D st) (fun a => s * vel a * momentum st f a) (fun a => mass st f * mass st f * (bulk st f a * bulk st f a))).
    2:{ intros a _. rewrite V. unfold bulk. field. split; assumption. }
    rewrite sumf_scal. fold (dot (st_D st) (bulk st f) (bulk st f)).
    replace (dot (st_D st) (fun a => s * vel a) (fun a => s * vel a)) with (mass st f * mass st f * dot (st_D st) (bulk st f) (bulk st f)).
    2:{ unfold dot. rewrite <- sumf_scal. apply sumf_ext. intros a _. rewrite V. field. exact Hs. }
    assert (E := random_energy st f Hcs Hm HD0). set (M2 := sumf (st_D st) (fun a => moment2 st f a a)) in *.
    set (B := dot (st_D st) (bulk st f) (bulk st f)) in *. fold (mass st f). set (rho := mass st f) in *. set (RM := random_motion st f) in *.
    replace M2 with (D * rho * st_cs2 st * RM + rho * B) by lra. field. repeat split; try assumption.
    replace (D + 2 - D) with 2 by ring. lra.
  Qed.
  Lemma restored_mass : mass st (restored_g gamma st s f) =
    mass st f * (random_motion st f + (mass st f - 1) * (mass st f - 1) * dot (st_D st) (bulk st f) (bulk st f) / (D * st_cs2 st)) * (2 * cv - D).
  Proof.
    unfold mass at 1. rewrite (sumf_ext (st_Q st) _ (fun i => f i * ((random_motion st f + (mass st f - 1) * (mass st f - 1) * dot (st_D st) (bulk st f) (bulk st f) / (D * st_cs2 st)) * (2 * cv - D)))).
    2:{ intros i _. rewrite restored_factor. ring. }
    rewrite sumf_scal_r. fold (mass st f). ring.
  Qed.

  (** What the node carries after the restart. *)
  Definition restored_T : R := random_motion st f + (2 * cv - D) / (2 * cv) * ((mass st f - 1) * (mass st f - 1) * dot (st_D st) (bulk st f) (bulk st f)) / (D * st_cs2 st).
  Lemma restored_carries : carries st gamma f (restored_g gamma st s f) (mass st f) (bulk st f) restored_T.
  Proof.
    split; [reflexivity|]. split. { intros a _. unfold bulk. field. exact Hm. }
    rewrite energy2_moments, restored_mass. assert (E := random_energy st f Hcs Hm HD0). set (M2 := sumf (st_D st) (fun a => moment2 st f a a)) in *.
    unfold gas_energy2, restored_T. set (B := dot (st_D st) (bulk st f) (bulk st f)) in *. set (rho := mass st f) in *. set (RM := random_motion st f) in *.
    replace M2 with (D * rho * st_cs2 st * RM + rho * B) by lra. field. repeat split; try assumption; lra.
  Qed.
  (** Populations whose internal energy has the temperature of the random motion, with density 1, at rest or without internal energy. *)
  Lemma restored_exact g : mass st g = mass st f * random_motion st f * (2 * cv - D) ->
    mass st f = 1 \/ dot (st_D st) (bulk st f) (bulk st f) = 0 \/ 2 * cv = D -> energy2 st f (restored_g gamma st s f) = energy2 st f g.
  Proof.
    intros Hg H. rewrite !energy2_moments, restored_mass, Hg. f_equal. f_equal. destruct H as [-> | [-> | ->]]; field; repeat split; (assumption || lra).
  Qed.
End Node.

(** An equilibrium pair has random motion of temperature T. *)
Lemma pair_random t s gamma rho u T f g : order6 t -> s <> 0 -> gamma <> 1 -> rho <> 0 -> initial_pair (stencil_of t s) s gamma rho u T f g ->
  random_motion (stencil_of t s) f = T /\ mass (stencil_of t s) g = rho * T * (2 * (1 / (gamma - 1)) - INR (st_D (stencil_of t s))) /\
  (forall a, (a < st_D (stencil_of t s))%nat -> bulk (stencil_of t s) f a = u a).
Proof.
  intros Ho Hs Hga Hr H. destruct (pair_carries t s gamma rho u T f g Ho Hs Hga H) as (A & B & C).
  assert (Hcs := cs2_neq0 t s Hs). set (st := stencil_of t s) in *.
  assert (HD0 : INR (st_D st) <> 0) by (unfold st; destruct (st_dim t s) as [-> | ->]; cbn; lra).
  assert (G : mass st g = rho * T * (2 * (1 / (gamma - 1)) - INR (st_D st))).
  { unfold mass. rewrite (sumf_ext (st_Q st) g (fun i => f i * (T * (2 * (1 / (gamma - 1)) - INR (st_D st))))).
    - rewrite sumf_scal_r. fold (mass st f). rewrite A. ring.
    - intros i Hi. destruct (H i Hi) as [-> ->]. ring. }
  assert (U : forall a, (a < st_D st)%nat -> bulk st f a = u a) by (intros a Ha; unfold bulk; rewrite A, (B a Ha); field; exact Hr).
  split; [|split; assumption].
  assert (E := random_energy st f Hcs ltac:(rewrite A; exact Hr) HD0). rewrite energy2_moments, G in C. unfold gas_energy2 in C. rewrite A in E.
  replace (dot (st_D st) (bulk st f) (bulk st f)) with (dot (st_D st) u u) in E by (apply sumf_ext; intros a Ha; rewrite (U a Ha); reflexivity).
  set (M2 := sumf (st_D st) (fun a => moment2 st f a a)) in *.
  apply (Rmult_eq_reg_l (INR (st_D st) * rho * st_cs2 st)).
  - rewrite E. transitivity (rho * dot (st_D st) u u + 2 * rho * (st_cs2 st / (gamma - 1)) * T - st_cs2 st * (rho * T * (2 * (1 / (gamma - 1)) - INR (st_D st))) - rho * dot (st_D st) u u); [lra|]. field. lra.
  - repeat apply Rmult_integral_contrapositive_currified; assumption.
Qed.

(** ** The fields after a restart *)
Section Fields.
  Variables (t : StencilType) (s gamma : R) (known : nat -> bool) (nodes : list nat) (f : nat -> nat -> R).
  Notation st := (stencil_of t s).
  Hypothesis Hs : s <> 0.
  Hypothesis Hga : gamma <> 1.
  Lemma restored_runs : nodes <> [] -> ((exists x, restored_fields_g gamma st s known nodes f = Ok x) <-> forall i, (i < st_Q st)%nat -> known i = true) /\
    ((exists i, (i < st_Q st)%nat /\ known i = false) -> restored_fields_g gamma st s known nodes f = Throw).
  Proof.
    intros Hne. assert (K : forallb known (seq 0 (st_Q st)) = true <-> forall i, (i < st_Q st)%nat -> known i = true).
    { rewrite forallb_forall. split; [intros H i Hi; apply H; apply in_seq; lia|intros H i Hi; apply in_seq in Hi; apply H; lia]. }
    unfold restored_fields_g, restored_temperature. cbv zeta. destruct (forallb known (seq 0 (st_Q st))) eqn:E.
    - split; [split; [intros _; apply K; reflexivity|intros _; eexists]|].
      + rewrite (proj2 (forallb_forall _ nodes)) by reflexivity. reflexivity.
      + intros (i & Hi & F). rewrite (proj1 K eq_refl i Hi) in F. discriminate.
    - destruct nodes as [|n l]; [contradiction|]. cbn [forallb andb]. split; [split; [intros [x Hx]; discriminate|intros H; apply K in H; discriminate]|reflexivity].
  Qed.
  Lemma restored_values x : nodes <> [] -> restored_fields_g gamma st s known nodes f = Ok x -> forall n, mass st (f n) <> 0 ->
    fg_f x n = f n /\ fg_rho x n = mass st (f n) /\ (forall a, fg_u x n a = 0) /\
    fg_T x n = restored_T t s gamma (f n) + dot (st_D st) (bulk st (f n)) (bulk st (f n)) / (2 * (st_cs2 st / (gamma - 1))) /\
    carries st gamma (fg_f x n) (fg_g x n) (mass st (f n)) (bulk st (f n)) (restored_T t s gamma (f n)).
  Proof.
    intros Hne E n Hm. assert (Kn := proj1 (proj1 (restored_runs Hne)) (ex_intro _ x E)). assert (Hcs := cs2_neq0 t s Hs).
    assert (F : forallb known (seq 0 (st_Q st)) = true) by (apply forallb_forall; intros i Hi; apply in_seq in Hi; apply Kn; lia).
    unfold restored_fields_g, restored_temperature in E. cbv zeta in E. rewrite F in E. rewrite (proj2 (forallb_forall _ nodes)) in E by reflexivity. injection E as <-.
    cbn [fg_f fg_g fg_rho fg_u fg_T].
    assert (Z : forall m a, snd (calculateDensityAndVelocity st (f m) (fl_u (restored_fields st f) m)) a = 0).
    { intros m a. unfold restored_fields, calculateDensityAndVelocity. cbn [fst snd fl_u]. ring. }
    split; [reflexivity|]. split; [reflexivity|]. split; [apply Z|]. assert (C := restored_carries t s gamma (f n) Hs Hga Hm). split; [|exact C].
    destruct C as (_ & _ & C). unfold gas_energy2 in C.
    change (fst (calculateDensityAndVelocity st (f n) (fl_u (restored_fields st f) n))) with (mass st (f n)).
    rewrite (sumf_ext (st_Q st) _ (fun i => / st_cs2 st * (dot (st_D st) (st_e st i) (st_e st i) * f n i + st_cs2 st * restored_g gamma st s (f n) i))).
    2:{ intros i _. match goal with |- sumf (st_D st) ?h * _ / _ + _ = _ => assert (X : sumf (st_D st) h = dot (st_D st) (st_e st i) (st_e st i)) end.
        { unfold dot. apply sumf_ext. intros a _. cbn [restored_fields fl_u]. unfold calculateDensityAndVelocity. cbn [fst snd]. ring. }
        rewrite X. field. exact Hcs. }
    rewrite sumf_scal. fold (energy2 st (f n) (restored_g gamma st s (f n))). rewrite C. fold (mass st (f n)). field. repeat split; try assumption; lra.
  Qed.
End Fields.
