(** Grad's function: moments. *)
From Coq Require Import QArith Qreals.
From Verif Require Import Prelude StencilData ModelStencils SpecStencils SpecCollision BigSum ProofStencils
  ProofWick ModelConfigNames ModelEquilibria ModelCollision ProofEquilibria ProofEqMoments ProofRelax ProofCollideNode ProofOldCollision ModelGrads.
Local Open Scope R_scope.

Section Grads.
  Variables (L : stencil) (n : nat).
  Hypothesis Hiso : isotropic L n.
  Let D := st_D L.
  Let cs2 := st_cs2 L.
  Hypothesis Hcs : cs2 <> 0.
  Hypothesis Hn : (5 <= n)%nat.
  Variables (rho : R) (j : nat -> R) (P : nat -> nat -> R).
  Let Pi (a b : nat) : R := (P a b + P b a) / 2 - rho * cs2 * delta a b.

  Lemma Pi_sym a b : Pi a b = Pi b a.
  Proof. unfold Pi. rewrite (delta_sym b a). field. Qed.

  Lemma grads_form f : grads_function D (st_Q L) L rho j P = Ok f ->
    0 < rho /\ forall i, f i = st_w L i * 1 * (rho * 1 + sumf D (fun k => j k / cs2 * st_e L i k) + her2 L Pi i).
  Proof.
    unfold grads_function. rewrite Nat.eqb_refl. cbn [negb]. destruct (Rlt_dec 0 rho); [|discriminate]. unfold D. rewrite Nat.eqb_refl. cbn [negb].
    intros H. injection H as <-. split; [assumption|]. intros i. fold D cs2.
    rewrite !Rmult_1_r. f_equal. f_equal; [f_equal|].
    - unfold dot, Rdiv. rewrite <- sumf_scal_r. apply sumf_ext. intros. ring.
    - unfold her2. fold D. fold cs2.
      set (K := fun b c => st_e L i b * st_e L i c - cs2 * delta b c).
      transitivity (sumf D (fun b => sumf D (fun c => (P b c - rho * cs2 * delta b c) * (1 / (2 * cs2 * cs2)) * K b c))).
      + rewrite <- sumf_scal_r. apply sumf_ext. intros b _. rewrite <- sumf_scal_r. apply sumf_ext. intros c _. unfold K, delta. destruct (Nat.eqb b c); ring.
      + transitivity (/ 2 * (sumf D (fun b => sumf D (fun c => (P b c - rho * cs2 * delta b c) * (1 / (2 * cs2 * cs2)) * K b c)) +
          sumf D (fun b => sumf D (fun c => (P c b - rho * cs2 * delta b c) * (1 / (2 * cs2 * cs2)) * K b c)))).
        * rewrite (sumf_swap D D (fun b c => (P c b - rho * cs2 * delta b c) * (1 / (2 * cs2 * cs2)) * K b c)).
          rewrite (sumf_ext D (fun j0 => sumf D (fun i0 => (P j0 i0 - rho * cs2 * delta i0 j0) * (1 / (2 * cs2 * cs2)) * K i0 j0))
            (fun b => sumf D (fun c => (P b c - rho * cs2 * delta b c) * (1 / (2 * cs2 * cs2)) * K b c))).
          -- field.
          -- intros b _. apply sumf_ext. intros c _. unfold K. rewrite (delta_sym c b). ring.
        * rewrite <- sumf_plus, <- sumf_scal. apply sumf_ext. intros b _. rewrite <- sumf_plus, <- sumf_scal. apply sumf_ext. intros c _.
          unfold K, Pi. cbn [eprod]. field. exact Hcs.
  Qed.

  Ltac fa := repeat (constructor; [assumption|]); constructor.

  Lemma grads_moments f : grads_function D (st_Q L) L rho j P = Ok f ->
    mass L f = rho /\ (forall a, (a < D)%nat -> momentum L f a = j a) /\
    (forall a b, (a < D)%nat -> (b < D)%nat -> moment2 L f a b = (P a b + P b a) / 2).
  Proof.
    intros H. destruct (grads_form f H) as [_ E]. split; [|split].
    - rewrite (mass_ext L _ _ (fun i _ => E i)), mass_Ex, Ex_plus, Ex_plus, Ex_scal, Ex_sum, (Ex1 L n Hiso) by lia.
      rewrite (her2_0 L n Hiso Hn). rewrite sumf_zero; [ring|]. intros k Hk. rewrite Ex_scal.
      rewrite (Ex_ext L (fun i => st_e L i k) (fun i => eprod L i [k])) by (intros; cbn [eprod]; ring).
      rewrite (Ex_odd L n Hiso [k]) by (try reflexivity; try fa; cbn [length]; lia). ring.
    - intros a Ha. rewrite (momentum_ext L _ _ a (fun i _ => E i)), momentum_Ex.
      rewrite (Ex_ext L _ (fun i => rho * st_e L i a + sumf D (fun k => j k / cs2 * (st_e L i k * st_e L i a)) + her2 L Pi i * st_e L i a)).
      2:{ intros i. rewrite !Rmult_plus_distr_r, <- sumf_scal_r. f_equal. f_equal; [ring|]. apply sumf_ext. intros. ring. }
      rewrite Ex_plus, Ex_plus, Ex_scal, Ex_sum, (her2_1 L n Hiso Hn Pi a Ha).
      rewrite (Ex_ext L (fun i => st_e L i a) (fun i => eprod L i [a])) by (intros; cbn [eprod]; ring).
      rewrite (Ex_odd L n Hiso [a]) by (try reflexivity; try fa; cbn [length]; lia).
      rewrite (sumf_ext D _ (fun k => j k * delta k a)).
      + rewrite sumf_delta_r by assumption. ring.
      + intros k Hk. rewrite Ex_scal.
        rewrite (Ex_ext L _ (fun i => eprod L i [k; a])) by (intros; cbn [eprod]; ring).
        rewrite (Ex2 L n Hiso) by (assumption || lia). fold cs2. field. exact Hcs.
    - intros a b Ha Hb. rewrite (moment2_ext L _ _ a b (fun i _ => E i)), moment2_Ex.
      rewrite (Ex_ext L _ (fun i => rho * eprod L i [a; b] + sumf D (fun k => j k / cs2 * eprod L i [k; a; b]) + her2 L Pi i * st_e L i a * st_e L i b)).
      2:{ intros i. rewrite !Rmult_plus_distr_r, <- !sumf_scal_r. f_equal. f_equal; [cbn [eprod]; ring|]. apply sumf_ext. intros. cbn [eprod]. ring. }
      rewrite Ex_plus, Ex_plus, Ex_scal, Ex_sum, (her2_2 L n Hiso Hcs Hn Pi Pi_sym a b Ha Hb), (Ex2 L n Hiso) by (assumption || lia).
      rewrite sumf_zero; [unfold Pi; fold cs2; ring|]. intros k Hk. rewrite Ex_scal.
      rewrite (Ex_odd L n Hiso [k; a; b]) by (try reflexivity; try fa; cbn [length]; lia). ring.
  Qed.

End Grads.

Lemma cs2_of_closed t s : s <> 0 -> st_cs2 (stencil_of t s) <> 0.
Proof. intros Hs. apply Rgt_not_eq, Rlt_gt. apply cs2_pos. exact Hs. Qed.

Lemma grads_all t s rho j P f : closed_form t = true -> s <> 0 ->
  grads_function (st_D (stencil_of t s)) (st_Q (stencil_of t s)) (stencil_of t s) rho j P = Ok f ->
  mass (stencil_of t s) f = rho /\ (forall a, (a < st_D (stencil_of t s))%nat -> momentum (stencil_of t s) f a = j a) /\
  (forall a b, (a < st_D (stencil_of t s))%nat -> (b < st_D (stencil_of t s))%nat -> moment2 (stencil_of t s) f a b = (P a b + P b a) / 2).
Proof.
  intros Ht Hs. apply (grads_moments (stencil_of t s) (moment_order t)); [apply isotropic_all; assumption|apply cs2_of_closed; assumption|].
  destruct t; try discriminate Ht; cbn; lia.
Qed.

Lemma grads_succeeds t s rho j P : 0 < rho ->
  exists f, grads_function (st_D (stencil_of t s)) (st_Q (stencil_of t s)) (stencil_of t s) rho j P = Ok f.
Proof.
  intros H. unfold grads_function. rewrite !Nat.eqb_refl. cbn [negb]. destruct (Rlt_dec 0 rho); [eexists; reflexivity|contradiction].
Qed.

(** With the moments of the equilibrium it is the equilibrium of the BGK collision. *)
Lemma grads_equilibrium st rho u f : st_cs2 st <> 0 ->
  grads_function (st_D st) (st_Q st) st rho (fun a => rho * u a) (fun a b => rho * st_cs2 st * delta a b + rho * u a * u b) = Ok f ->
  forall i, f i = BGKEquilibrium_generic st rho u i.
Proof.
  intros Hcs. unfold grads_function. rewrite !Nat.eqb_refl. cbn [negb]. destruct (Rlt_dec 0 rho); [|discriminate]. intros H. injection H as <-.
  intros i. unfold BGKEquilibrium_generic, ue_term, uu_term. rewrite (Rmult_assoc (st_w st i)). f_equal.
  set (D := st_D st). set (c := st_cs2 st) in *. set (e := st_e st i).
  set (q := sumf D (fun k => u k * e k)). set (uu := sumf D (fun k => u k * u k)).
  assert (E1 : dot D (fun a => rho * u a) e = rho * q) by (unfold dot, q; rewrite <- sumf_scal; apply sumf_ext; intros; ring).
  assert (E2 : sumf D (fun k => u k * e k / c) = q / c) by (unfold Rdiv; rewrite sumf_scal_r; reflexivity).
  assert (E3 : sumf D (fun b => sumf D (fun k => (if Nat.eqb b k then rho * c * delta b k + rho * u b * u k - rho * c else rho * c * delta b k + rho * u b * u k)
      * (if Nat.eqb b k then e b * e k - c else e b * e k))) = rho * (q * q - c * uu)).
  { transitivity (sumf D (fun b => rho * (u b * e b * q - c * (u b * u b)))).
    - apply sumf_ext. intros b Hb. transitivity (sumf D (fun k => rho * (u b * e b) * (u k * e k) - rho * c * u b * (u k * delta k b))).
      + apply sumf_ext. intros k _. rewrite (delta_sym k b). unfold delta. destruct (Nat.eqb b k); ring.
      + rewrite sumf_minus, !sumf_scal, sumf_delta_r by assumption. fold q. ring.
    - rewrite sumf_scal, sumf_minus, sumf_scal_r, sumf_scal. fold q uu. ring. }
  rewrite E1, E2, E3.
  match goal with |- context [1 + ?a * ?b + ?z] => replace z with (- uu / (2 * c)) end.
  - field. exact Hcs.
  - unfold uu. rewrite (sumf_ext D (fun k => - (u k * u k) / (2 * c)) (fun k => - / (2 * c) * (u k * u k))) by (intros; unfold Rdiv; ring).
    rewrite sumf_scal. unfold Rdiv. ring.
Qed.

(** A tensor that is not symmetric. *)
Definition lopsided (a b : nat) : R := match a, b with 0%nat, 1%nat => 1 | _, _ => 0 end.
Lemma grads_lopsided : exists f, grads_function 2 9 (D2Q9 1) 1 (fun _ => 0) lopsided = Ok f /\ moment2 (D2Q9 1) f 0 1 = 1/2.
Proof.
  destruct (grads_succeeds Stencil_D2Q9 1 1 (fun _ => 0) lopsided Rlt_0_1) as [f Hf]. exists f. split; [exact Hf|].
  destruct (grads_all Stencil_D2Q9 1 1 _ _ f eq_refl R1_neq_R0 Hf) as (_ & _ & H).
  change (stencil_of Stencil_D2Q9 1) with (D2Q9 1) in H. rewrite (H 0%nat 1%nat) by (cbn; lia). cbn [lopsided]. field.
Qed.
