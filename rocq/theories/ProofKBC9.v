(** The KBC collisions on D2Q9. *)
From Coq Require Import QArith Qreals.
From Verif Require Import Prelude StencilData ModelStencils SpecStencils SpecCollision BigSum ProofStencils ProofEqMoments
  ModelConfigNames ModelEquilibria ModelCollision ModelOldCollision SpecOldCollision ProofOldCollision ProofOldNode ModelEntropic SpecEntropic ProofKBC.
Local Open Scope R_scope.

(** moments as sums *)
Lemma mass_sum st f : mass st f = sumf (st_Q st) (fun i => f i * 1).
Proof. apply sumf_ext. intros. ring. Qed.
Lemma moment2_sum st f a b : moment2 st f a b = sumf (st_Q st) (fun i => f i * (st_e st i a * st_e st i b)).
Proof. apply sumf_ext. intros. ring. Qed.
Lemma mass_minus st f g : mass st (fun i => f i - g i) = mass st f - mass st g.
Proof. apply sumf_minus. Qed.
Lemma momentum_minus st f g a : momentum st (fun i => f i - g i) a = momentum st f a - momentum st g a.
Proof. unfold momentum. rewrite <- sumf_minus. apply sumf_ext. intros. ring. Qed.
Lemma moment2_minus st f g a b : moment2 st (fun i => f i - g i) a b = moment2 st f a b - moment2 st g a b.
Proof. unfold moment2. rewrite <- sumf_minus. apply sumf_ext. intros. ring. Qed.

(** What the shear part must satisfy. *)
Definition shear_ok (st : stencil) (shear : (nat -> R) -> nat -> R) : Prop :=
  forall f, mass st (shear f) = 0 /\ (forall a, (a < st_D st)%nat -> momentum st (shear f) a = 0).
Definition shear_stress (st : stencil) (shear : (nat -> R) -> nat -> R) (f feq : nat -> R) (a b : nat) : Prop :=
  moment2 st (shear f) a b - moment2 st (shear feq) a b = moment2 st f a b - moment2 st feq a b.

Section Moments.
  Variables (st : stencil) (tau : R) (k : nat -> R) (shear : (nat -> R) -> nat -> R) (f feq f' : nat -> R).
  Hypothesis Hrun : kbc_relax (st_Q st) tau k shear f feq = Ok f'.
  Hypothesis Hs : shear_ok st shear.
  Let ds i := shear f i - shear feq i.
  Let dh i := f i - feq i - ds i.

  Lemma kbc_mass : exists r, mass st f' = mass st f - r * (mass st f - mass st feq).
  Proof.
    exists (kbc_beta tau * kbc_gamma (kbc_beta tau) (entropic_sum (st_Q st) feq ds dh) (entropic_sum (st_Q st) feq dh dh)).
    rewrite !mass_sum, (relax_moment _ _ _ _ _ _ _ (fun _ => 1) Hrun), <- !mass_sum.
    rewrite mass_minus, !(proj1 (Hs _)). unfold dh, ds. cbv beta. match goal with |- _ = _ - kbc_beta _ * ?g * _ => set (G := g) end. ring.
  Qed.
  Lemma kbc_conserves : mass st feq = mass st f -> (forall a, (a < st_D st)%nat -> momentum st feq a = momentum st f a) -> conserves st f f'.
  Proof.
    intros Hm Hj. split.
    - destruct kbc_mass as [r E]. rewrite E, Hm. ring.
    - intros a Ha. unfold momentum. rewrite (relax_moment _ _ _ _ _ _ _ (fun i => st_e st i a) Hrun).
      fold (momentum st f a) (momentum st feq a) (momentum st (fun i => shear f i - shear feq i) a).
      rewrite momentum_minus, !(proj2 (Hs _)), (Hj a Ha) by exact Ha. ring.
  Qed.
  Lemma kbc_stress a b : shear_stress st shear f feq a b -> tau + 1/2 <> 0 ->
    moment2 st f' a b = moment2 st f a b - 1 / (tau + 1/2) * (moment2 st f a b - moment2 st feq a b).
  Proof.
    intros S Ht. rewrite !moment2_sum, (relax_moment _ _ _ _ _ _ _ (fun i => st_e st i a * st_e st i b) Hrun), <- !moment2_sum.
    rewrite moment2_minus, S.
    unfold kbc_beta. field. lra.
  Qed.
  Lemma dh_no_moments : (forall a b, (a < st_D st)%nat -> (b < st_D st)%nat -> shear_stress st shear f feq a b) ->
    mass st feq = mass st f -> (forall a, (a < st_D st)%nat -> momentum st feq a = momentum st f a) -> no_moments st dh.
  Proof.
    intros S Hm Hj. unfold dh, ds. repeat split.
    - rewrite mass_minus, mass_minus, (mass_minus st (shear f)), !(proj1 (Hs _)), Hm. ring.
    - intros a Ha. rewrite momentum_minus, momentum_minus, (momentum_minus st (shear f)), !(proj2 (Hs _)), (Hj a Ha) by exact Ha. ring.
    - intros a b Ha Hb. rewrite moment2_minus, moment2_minus, (moment2_minus st (shear f)), (S a b Ha Hb). ring.
  Qed.
End Moments.

Ltac nine := cbn [D2Q9 D3Q15 st_Q st_D st_e sumf]; unfold vec; cbn [nth]; lit15.

(** ** Shear parts *)
Lemma shear9_ok s rho : rho <> 0 -> shear_ok (D2Q9 s) (shear_D2Q9 rho).
Proof.
  intros Hr f. unfold mass, momentum, shear_D2Q9. cbv zeta. split; [nine; field; exact Hr|].
  intros a Ha. cbn [D2Q9 st_D] in Ha. do 2 (destruct a as [|a]; [nine; field; exact Hr|]). lia.
Qed.
Lemma shear9_stress s rho f feq a b : rho <> 0 -> (a < 2)%nat -> (b < 2)%nat -> shear_stress (D2Q9 s) (shear_D2Q9 rho) f feq a b.
Proof.
  intros Hr Ha Hb. unfold shear_stress. unfold moment2, shear_D2Q9. cbv zeta.
  do 2 (destruct a as [|a]; [do 2 (destruct b as [|b]; [nine; field; exact Hr|]); lia|]). lia.
Qed.
Lemma shear15_ok s rho : rho <> 0 -> shear_ok (D3Q15 s) (shear_D3Q15 rho).
Proof.
  intros Hr f. unfold mass, momentum, shear_D3Q15. cbv zeta. split; [nine; field; exact Hr|].
  intros a Ha. cbn [D3Q15 st_D] in Ha. do 3 (destruct a as [|a]; [nine; field; exact Hr|]). lia.
Qed.
(** only the diagonal *)
Lemma shear15_diag s rho f feq a : rho <> 0 -> (a < 3)%nat -> shear_stress (D3Q15 s) (shear_D3Q15 rho) f feq a a.
Proof.
  intros Hr Ha. unfold shear_stress, moment2, shear_D3Q15. cbv zeta. do 3 (destruct a as [|a]; [nine; field; exact Hr|]). lia.
Qed.

(** central moments *)
Lemma central_expand s ux uy f : s <> 0 ->
  let F0 := sumf 9 f in
  let Jx := f 1%nat - f 3%nat + f 5%nat - f 6%nat - f 7%nat + f 8%nat in
  let Jy := f 2%nat - f 4%nat + f 5%nat + f 6%nat - f 7%nat - f 8%nat in
  central_moment s ux uy f 2 0 = f 1%nat + f 3%nat + f 5%nat + f 6%nat + f 7%nat + f 8%nat - 2 * ux * Jx + ux * ux * F0 /\
  central_moment s ux uy f 0 2 = f 2%nat + f 4%nat + f 5%nat + f 6%nat + f 7%nat + f 8%nat - 2 * uy * Jy + uy * uy * F0 /\
  central_moment s ux uy f 1 1 = f 5%nat - f 6%nat + f 7%nat - f 8%nat - uy * Jx - ux * Jy + ux * uy * F0.
Proof.
  intros Hs F0 Jx Jy. unfold F0, Jx, Jy, central_moment. cbn [sumf D2Q9 st_e pow]. lit15. repeat split; field; exact Hs.
Qed.
Lemma central_ok s rho ux uy : rho <> 0 -> shear_ok (D2Q9 s) (shear_central s rho ux uy).
Proof.
  intros Hr f. unfold mass, momentum, shear_central. cbv zeta.
  set (a20 := central_moment s ux uy f 2 0). set (a02 := central_moment s ux uy f 0 2). set (a11 := central_moment s ux uy f 1 1).
  split; [nine; field; exact Hr|].
  intros a Ha. cbn [D2Q9 st_D] in Ha. do 2 (destruct a as [|a]; [nine; field; exact Hr|]). lia.
Qed.
Lemma central_stress_gen s rho ux uy f : s <> 0 -> rho <> 0 ->
  let g := shear_central s rho ux uy f in let M := central_moment s ux uy f in
  moment2 (D2Q9 s) g 0 0 = s * s * M 2%nat 0%nat /\ moment2 (D2Q9 s) g 1 1 = s * s * M 0%nat 2%nat /\
  moment2 (D2Q9 s) g 0 1 = s * s * M 1%nat 1%nat /\ moment2 (D2Q9 s) g 1 0 = s * s * M 1%nat 1%nat.
Proof.
  intros Hs Hr g M. unfold g, M, moment2, shear_central. cbv zeta.
  set (a20 := central_moment s ux uy f 2 0). set (a02 := central_moment s ux uy f 0 2). set (a11 := central_moment s ux uy f 1 1).
  repeat split; nine; field; exact Hr.
Qed.

Lemma central_stress s rho ux uy f feq a b : s <> 0 -> rho <> 0 -> (a < 2)%nat -> (b < 2)%nat ->
  mass (D2Q9 s) feq = mass (D2Q9 s) f -> (forall a, (a < 2)%nat -> momentum (D2Q9 s) feq a = momentum (D2Q9 s) f a) ->
  shear_stress (D2Q9 s) (shear_central s rho ux uy) f feq a b.
Proof.
  intros Hs Hr Ha Hb Hm Hj. unfold shear_stress.
  destruct (central_stress_gen s rho ux uy f Hs Hr) as (F1 & F2 & F3 & F4).
  destruct (central_stress_gen s rho ux uy feq Hs Hr) as (G1 & G2 & G3 & G4).
  destruct (central_expand s ux uy f Hs) as (A1 & A2 & A3). destruct (central_expand s ux uy feq Hs) as (B1 & B2 & B3).
  cbv zeta in *. rewrite ?F1, ?F2, ?F3, ?F4, ?G1, ?G2, ?G3, ?G4.
  assert (J0 := Hj 0%nat Nat.lt_0_2). assert (J1 := Hj 1%nat Nat.lt_1_2).
  unfold mass in Hm. cbn [D2Q9 st_Q] in Hm. rewrite Hm in B1, B2, B3.
  assert (K0 : f 1%nat - f 3%nat + f 5%nat - f 6%nat - f 7%nat + f 8%nat = feq 1%nat - feq 3%nat + feq 5%nat - feq 6%nat - feq 7%nat + feq 8%nat).
  { apply (Rmult_eq_reg_l s); [|exact Hs]. revert J0. unfold momentum. nine. lra. }
  assert (K1 : f 2%nat - f 4%nat + f 5%nat + f 6%nat - f 7%nat - f 8%nat = feq 2%nat - feq 4%nat + feq 5%nat + feq 6%nat - feq 7%nat - feq 8%nat).
  { apply (Rmult_eq_reg_l s); [|exact Hs]. revert J1. unfold momentum. nine. lra. }
  rewrite <- K0 in B1, B3. rewrite <- K1 in B2, B3.
  do 2 (destruct a as [|a]; [do 2 (destruct b as [|b]; [rewrite ?F1, ?F2, ?F3, ?F4, ?G1, ?G2, ?G3, ?G4, ?A1, ?A2, ?A3, ?B1, ?B2, ?B3; unfold moment2; nine; field|]); lia|]). lia.
Qed.
