(** The D'Humieres basis of D3Q19: what the two relaxation modes do to the stress and to the
    other non-conserved moments. *)
From Coq Require Import QArith Qreals.
From Verif Require Import Prelude StencilData MRTData ModelStencils SpecStencils SpecCollision BigSum ProofStencils
  ProofWick ModelConfigNames ModelEquilibria ModelCollision SpecSetup SpecCollideAll ProofEquilibria ProofQuartic ProofEqMoments ProofRelax
  ProofCollideNode ProofForces ProofFixed ProofCollideAll ProofCompressible ProofPhysical SpecDHumieres.
Open Scope R_scope.

Definition row (g : nat -> R) (r : nat) : R := matvec 19 (matR MRTDHumieresD3Q19_M) g r.
Definition ghost_row (k : nat) : nat := nth k [2; 4; 6; 8; 10; 12; 16; 17; 18]%nat 0%nat.

Lemma ghost_is_row k g : (k < 9)%nat -> dhumieres_moment k g = row g (ghost_row k).
Proof.
  intros Hk. unfold dhumieres_moment, row, matvec. apply sumf_ext. intros j Hj. f_equal.
  do 9 (destruct k as [|k]; [unfold ghost_row, dhumieres_polynomial; cbn [nth]; unfold matR; cbn [nth MRTDHumieresD3Q19_M D3Q19 st_e];
    do 19 (destruct j as [|j]; [cbn [nth]; lit; lra|]); lia|]); lia.
Qed.

Lemma stress_rows s g a b : (a < 3)%nat -> (b < 3)%nat -> moment2 (D3Q19 s) g a b = s * s *
  (let trace := (row g 1 + 30 * row g 0) / 19 in
   let xx := (trace + row g 9) / 3 in
   match a, b with
   | 0%nat, 0%nat => xx
   | 1%nat, 1%nat => (trace - xx + row g 11) / 2
   | 2%nat, 2%nat => (trace - xx - row g 11) / 2
   | 0%nat, 1%nat | 1%nat, 0%nat => row g 13
   | 0%nat, 2%nat | 2%nat, 0%nat => row g 15
   | _, _ => row g 14
   end).
Proof.
  intros Ha Hb.
  destruct a as [|[|[|a]]], b as [|[|[|b]]]; try lia;
  unfold moment2, row, matvec, matR; cbn [D3Q19 st_Q st_e sumf nth MRTDHumieresD3Q19_M]; lit; field.
Qed.

Definition rates (mode : RelaxMode) (tau : R) (i : nat) : R :=
  match mode with
  | RELAX_FULL => match i with
                  | 4%nat | 6%nat | 8%nat | 10%nat | 12%nat | 2%nat | 16%nat | 17%nat | 18%nat => 1
                  | _ => 1 / tau
                  end
  | _ => nth i [0; 119/100; 14/10; 0; 12/10; 0; 12/10; 0; 12/10; 1/tau; 14/10; 1/tau; 14/10; 1/tau; 1/tau; 1/tau; 198/100; 198/100; 198/100] 0
  end.

Lemma dhumieres_rows cfg s nu dt f u o :
  valid_setup cfg s nu dt -> cc_equilibrium cfg <> STEADYSTATE_EQUILIBRIUM ->
  cc_mrt_basis cfg = DHUMIERES_D3Q19 -> cc_mrt_relax cfg = RELAX_FULL \/ cc_mrt_relax cfg = RELAX_DHUMIERES_PAPER ->
  collide_node MultipleRelaxationTime BGKEquilibrium (make_genData cfg None (D3Q19 s) s nu dt) false f u = Ok o ->
  let tau := nu / (dt * st_cs2 (D3Q19 s)) + 1/2 in
  exists feq, equilibrium_populations BGKEquilibrium cfg (D3Q19 s) s (mass (D3Q19 s) f)
                (fun a => momentum (D3Q19 s) f a / mass (D3Q19 s) f) 1 feq /\
    no_f o = relax_MRT 19 (matR MRTDHumieresD3Q19_M) (matR MRTDHumieresD3Q19_T) (rates (cc_mrt_relax cfg) tau) f feq /\
    row feq 0 = row f 0.
Proof.
  intros Hv Hss Hb Hr H tau. assert (Hs : s <> 0) by (destruct Hv; lra).
  pose proof (tau_pos cfg None Stencil_D3Q19 s nu dt Hv) as Htau.
  pose proof (tau_gd cfg None (D3Q19 s) s nu dt Hss) as Htg. fold tau in Htg. cbn [stencil_of] in Htau.
  set (gd := make_genData cfg None (D3Q19 s) s nu dt) in *.
  destruct (node_inv _ _ gd f u o eq_refl H) as [Hd [_ [_ [feq Hrel]]]].
  change (gd_L gd) with (unscale (D3Q19 s) s) in *. set (L := unscale (D3Q19 s) s) in *.
  change (sumf (st_Q L) f) with (mass (D3Q19 s) f) in *. set (rho := mass (D3Q19 s) f) in *.
  assert (Hr0 : rho <> 0) by (apply dens_neq0; assumption).
  unfold relax in Hrel. cbn [eq_calc obind] in Hrel. change (gd_L gd) with L in Hrel. change (gd_cfg gd) with cfg in Hrel.
  rewrite Hb, Htg in Hrel. unfold make_M, make_T, make_diag in Hrel.
  change (st_Q L) with 19%nat in Hrel. cbn [Nat.eqb obind] in Hrel. unfold make_diag_19 in Hrel.
  destruct (Rlt_dec (1/2) tau) as [Hlt|]; [|discriminate Hrel].
  assert (E : no_f o = relax_MRT 19 (matR MRTDHumieresD3Q19_M) (matR MRTDHumieresD3Q19_T) (rates (cc_mrt_relax cfg) tau) f feq /\
              BGKEquilibrium_calc L rho (calculateVelocity L f rho) = feq).
  { destruct Hr as [Hr|Hr]; rewrite Hr in Hrel |- *; cbn [obind] in Hrel; injection Hrel; intros Efeq Eo; split; try exact Efeq;
    rewrite <- Eo, <- Efeq; reflexivity. }
  destruct E as [Eo Efeq].
  exists feq.
  assert (Heq : equilibrium_populations BGKEquilibrium cfg (D3Q19 s) s rho (fun a => momentum (D3Q19 s) f a / rho) 1 feq).
  { exists (BGKEquilibrium_calc L rho (fun a => momentum (D3Q19 s) f a / rho / s)). split; [reflexivity|].
    intros i Hi. rewrite <- Efeq.
    apply (eq_ext BGKEquilibrium L 1 rho (calculateVelocity L f rho) (fun a => momentum (D3Q19 s) f a / rho / s) 1); try reflexivity.
    + right. reflexivity.
    + intros a Ha. rewrite (momentum_unscale (D3Q19 s) s Hs). fold L.
      assert (Hja : rho * calculateVelocity L f rho a = momentum L f a) by exact (vel_momentum Stencil_D3Q19 s f rho a Hs Hr0 Ha).
      rewrite <- Hja. field. split; assumption. }
  split; [exact Heq|split; [exact Eo|]].
  - unfold row. rewrite !(mrt_row0 19 DHUMIERES_D3Q19 _ _ eq_refl).
    exact (proj1 (bgk_phys cfg Stencil_D3Q19 s rho _ 1 feq eq_refl Hs Heq)).
Qed.

(** The stress after the collision: components off the diagonal and differences of diagonal
    components relax with 1/tau, the trace with the rate of the energy. *)
Lemma dhumieres_stress s mode tau f feq g :
  (forall r, (r < 19)%nat -> row g r = row f r - rates mode tau r * (row f r - row feq r)) -> row feq 0 = row f 0 ->
  let m2 := moment2 (D3Q19 s) in
  (forall a b, (a < 3)%nat -> (b < 3)%nat -> a <> b -> m2 g a b = m2 f a b - 1 / tau * (m2 f a b - m2 feq a b)) /\
  (forall a b, (a < 3)%nat -> (b < 3)%nat ->
     m2 g a a - m2 g b b = (m2 f a a - m2 f b b) - 1 / tau * ((m2 f a a - m2 f b b) - (m2 feq a a - m2 feq b b))) /\
  (let trace h := m2 h 0%nat 0%nat + m2 h 1%nat 1%nat + m2 h 2%nat 2%nat in
   trace g = trace f - rates mode tau 1 * (trace f - trace feq)).
Proof.
  intros HR H0 m2.
  assert (Hd : forall r, In r [9; 11; 13; 14; 15]%nat -> rates mode tau r = 1 / tau).
  { intros r Hr. cbn [In] in Hr. unfold rates. destruct mode; decompose [or] Hr; subst; try reflexivity; contradiction. }
  assert (G0 : row g 0 = row f 0) by (rewrite HR by lia; rewrite H0; ring).
  pose proof (HR 1%nat ltac:(lia)) as G1.
  pose proof (HR 9%nat ltac:(lia)) as G9. rewrite (Hd 9%nat) in G9 by (cbn; tauto).
  pose proof (HR 11%nat ltac:(lia)) as G11. rewrite (Hd 11%nat) in G11 by (cbn; tauto).
  pose proof (HR 13%nat ltac:(lia)) as G13. rewrite (Hd 13%nat) in G13 by (cbn; tauto).
  pose proof (HR 14%nat ltac:(lia)) as G14. rewrite (Hd 14%nat) in G14 by (cbn; tauto).
  pose proof (HR 15%nat ltac:(lia)) as G15. rewrite (Hd 15%nat) in G15 by (cbn; tauto).
  set (w := 1 / tau) in *. set (w1 := rates mode tau 1) in *. clearbody w w1.
  unfold m2. split; [|split].
  - intros a b Ha Hb Hab. rewrite !stress_rows by assumption. cbv zeta.
    destruct a as [|[|[|a]]], b as [|[|[|b]]]; try lia; rewrite ?G13, ?G14, ?G15; ring.
  - intros a b Ha Hb. rewrite !stress_rows by assumption. cbv zeta.
    destruct a as [|[|[|a]]], b as [|[|[|b]]]; try lia; rewrite ?G0, ?G1, ?G9, ?G11, ?H0; field.
  - cbv zeta. rewrite !stress_rows by lia. cbv zeta. rewrite ?G0, ?G1, ?G9, ?G11, ?H0. field.
Qed.

Lemma dhumieres_modes cfg s nu dt f u o :
  valid_setup cfg s nu dt -> cc_equilibrium cfg <> STEADYSTATE_EQUILIBRIUM ->
  cc_mrt_basis cfg = DHUMIERES_D3Q19 -> cc_mrt_relax cfg = RELAX_FULL \/ cc_mrt_relax cfg = RELAX_DHUMIERES_PAPER ->
  collide_node MultipleRelaxationTime BGKEquilibrium (make_genData cfg None (D3Q19 s) s nu dt) false f u = Ok o ->
  let tau := nu / (dt * st_cs2 (D3Q19 s)) + 1/2 in
  let full := cc_mrt_relax cfg = RELAX_FULL in
  let m2 := moment2 (D3Q19 s) in
  let trace h := m2 h 0%nat 0%nat + m2 h 1%nat 1%nat + m2 h 2%nat 2%nat in
  exists feq, equilibrium_populations BGKEquilibrium cfg (D3Q19 s) s (mass (D3Q19 s) f)
                (fun a => momentum (D3Q19 s) f a / mass (D3Q19 s) f) 1 feq /\
    (forall a b, (a < 3)%nat -> (b < 3)%nat -> a <> b -> m2 (no_f o) a b = m2 f a b - 1 / tau * (m2 f a b - m2 feq a b)) /\
    (forall a b, (a < 3)%nat -> (b < 3)%nat ->
       m2 (no_f o) a a - m2 (no_f o) b b = (m2 f a a - m2 f b b) - 1 / tau * ((m2 f a a - m2 f b b) - (m2 feq a a - m2 feq b b))) /\
    (full -> trace (no_f o) = trace f - 1 / tau * (trace f - trace feq)) /\
    (~ full -> trace (no_f o) = trace f - dhumieres_energy_rate * (trace f - trace feq)) /\
    (full -> forall k, (k < 9)%nat -> dhumieres_moment k (no_f o) = dhumieres_moment k feq) /\
    (~ full -> forall k, (k < 9)%nat -> dhumieres_moment k (no_f o) =
       dhumieres_moment k f - dhumieres_rate k * (dhumieres_moment k f - dhumieres_moment k feq)) /\
    (full -> (forall k, (k < 9)%nat -> dhumieres_moment k f = dhumieres_moment k feq) ->
       forall i, (i < 19)%nat -> no_f o i = f i - 1 / tau * (f i - feq i)).
Proof.
  intros Hv Hss Hb Hr H tau full m2 trace.
  destruct (dhumieres_rows cfg s nu dt f u o Hv Hss Hb Hr H) as [feq [Heq [Eo H0]]]. fold tau in Eo.
  exists feq. split; [exact Heq|].
  assert (HR : forall r, (r < 19)%nat -> row (no_f o) r = row f r - rates (cc_mrt_relax cfg) tau r * (row f r - row feq r)).
  { intros r Hr'. rewrite Eo. apply (mrt_moment 19 DHUMIERES_D3Q19 _ _ _ f feq r eq_refl eq_refl Hr'). }
  destruct (dhumieres_stress s _ tau f feq (no_f o) HR H0) as [S1 [S2 S3]].
  assert (Hg : forall k, (k < 9)%nat -> (ghost_row k < 19)%nat).
  { intros k Hk. do 9 (destruct k as [|k]; [cbn; lia|]); lia. }
  split; [exact S1|split; [exact S2|split; [|split; [|split; [|split]]]]].
  - intros Hf. unfold full in Hf. rewrite Hf in S3. exact S3.
  - intros Hf. destruct Hr as [Hr|Hr]; [contradiction|]. rewrite Hr in S3. exact S3.
  - intros Hf k Hk. unfold full in Hf. rewrite !ghost_is_row, HR, Hf by auto.
    do 9 (destruct k as [|k]; [unfold ghost_row, rates; cbn [nth]; ring|]); lia.
  - intros Hf k Hk. destruct Hr as [Hr|Hr]; [contradiction|]. rewrite !ghost_is_row, HR, Hr by auto.
    do 9 (destruct k as [|k]; [reflexivity|]); lia.
  - intros Hf Hk i Hi. unfold full in Hf. rewrite Eo.
    apply (mrt_bgk 19 DHUMIERES_D3Q19 _ _ _ tau f feq eq_refl eq_refl); [|assumption].
    intros r Hr'. fold (row f r) (row feq r). rewrite Hf.
    assert (E : forall k, (k < 9)%nat -> row f (ghost_row k) = row feq (ghost_row k)) by (intros k Hk'; rewrite <- !ghost_is_row by assumption; auto).
    destruct r as [|[|[|[|[|[|[|[|[|[|[|[|[|[|[|[|[|[|[|r]]]]]]]]]]]]]]]]]]]; try (left; reflexivity); right.
    + exact (E 0%nat ltac:(lia)).
    + exact (E 1%nat ltac:(lia)).
    + exact (E 2%nat ltac:(lia)).
    + exact (E 3%nat ltac:(lia)).
    + exact (E 4%nat ltac:(lia)).
    + exact (E 5%nat ltac:(lia)).
    + exact (E 6%nat ltac:(lia)).
    + exact (E 7%nat ltac:(lia)).
    + exact (E 8%nat ltac:(lia)).
Qed.
