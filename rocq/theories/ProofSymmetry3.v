(** One collision commutes with every symmetry of the stencil. *)
From Coq Require Import QArith Qreals.
From Verif Require Import Prelude StencilData MRTData ModelStencils SpecStencils SpecCollision BigSum ProofStencils
  ProofWick ModelConfigNames ModelEquilibria ModelCollision SpecSetup ProofEquilibria ProofQuartic ProofEqMoments ProofRelax
  ProofCollideNode ProofForces ProofFixed SpecSymmetry ProofSymmetry ProofSymmetry2.
Open Scope R_scope.

Lemma mrt_even t s cfg A pi tau M T om : s <> 0 -> symmetry (stencil_of t s) A pi ->
  mrt_accepts t (cc_mrt_basis cfg) (cc_mrt_relax cfg) = true -> cc_mrt_relax cfg <> DELLAR_RELAX_ONLY_N ->
  make_M (st_Q (stencil_of t s)) (cc_mrt_basis cfg) = Ok M -> make_T (st_Q (stencil_of t s)) (cc_mrt_basis cfg) = Ok T ->
  make_diag (st_Q (stencil_of t s)) tau (cc_mrt_basis cfg) (cc_mrt_relax cfg) = Ok om ->
  forall i k, (i < st_Q (stencil_of t s))%nat -> (k < st_Q (stencil_of t s))%nat ->
  collision_matrix (st_Q (stencil_of t s)) M T om (pi i) (pi k) = collision_matrix (st_Q (stencil_of t s)) M T om i k.
Proof.
  intros Hs Sy Hacc Hmode HM HT Hom. pose proof (symmetry_unscale _ s _ _ Sy) as SL.
  destruct t; try discriminate Hacc.
  - destruct (cc_mrt_basis cfg) eqn:EB; try discriminate Hacc; destruct (cc_mrt_relax cfg) eqn:ER; try discriminate Hacc; try congruence;
      cbn [stencil_of st_Q D2Q9] in *; injection HM as <-; injection HT as <-; unfold make_diag in Hom; cbn in Hom; injection Hom as <-.
    + apply (matrix_commutes 2 9 D2Q9_dir [1; 2]%nat (unscale (D2Q9 s) s) A pi 2 cls9 (fun c => match c with O => 1 / tau | _ => 1 end) _ _ 2 216);
        [reflexivity|reflexivity|intros; cbn [unscale D2Q9 st_e]; field; assumption|exact ok9|exact SL|vm_compute; reflexivity|vm_compute; reflexivity| |exact dellar_all].
      intros j Hj. do 9 (destruct j as [|j]; [cbn; split; [lia|reflexivity]|]). lia.
    + apply (matrix_commutes 2 9 D2Q9_dir [1; 2]%nat (unscale (D2Q9 s) s) A pi 2 cls9 (fun c => match c with O => 1 / tau | _ => 1 end) _ _ 1 36);
        [reflexivity|reflexivity|intros; cbn [unscale D2Q9 st_e]; field; assumption|exact ok9|exact SL|vm_compute; reflexivity|vm_compute; reflexivity| |exact lallemand_all].
      intros j Hj. do 9 (destruct j as [|j]; [cbn; split; [lia|reflexivity]|]). lia.
  - destruct (cc_mrt_basis cfg) eqn:EB; try discriminate Hacc; destruct (cc_mrt_relax cfg) eqn:ER; try discriminate Hacc; try congruence;
      cbn [stencil_of st_Q D3Q19] in *; injection HM as <-; injection HT as <-; unfold make_diag in Hom; cbn [Nat.eqb] in Hom; unfold make_diag_19 in Hom;
      destruct (Rlt_dec (1 / 2) tau); try discriminate Hom; injection Hom as <-.
    + apply (matrix_commutes 3 19 D3Q19_dir [1; 6; 2]%nat (unscale (D3Q19 s) s) A pi 6 cls19
        (fun c => match c with 2%nat | 3%nat | 5%nat => 1 | _ => 1 / tau end) _ _ 1 47880);
        [reflexivity|reflexivity|intros; cbn [unscale D3Q19 st_e]; field; assumption|exact ok19|exact SL|vm_compute; reflexivity|vm_compute; reflexivity| |exact dhumieres_all].
      intros j Hj. do 19 (destruct j as [|j]; [cbn; split; [lia|reflexivity]|]). lia.
    + apply (matrix_commutes 3 19 D3Q19_dir [1; 6; 2]%nat (unscale (D3Q19 s) s) A pi 6 cls19
        (fun c => nth c [0; 119/100; 14/10; 12/10; 1 / tau; 198/100] 0) _ _ 1 47880);
        [reflexivity|reflexivity|intros; cbn [unscale D3Q19 st_e]; field; assumption|exact ok19|exact SL|vm_compute; reflexivity|vm_compute; reflexivity| |exact dhumieres_all].
      intros j Hj. do 19 (destruct j as [|j]; [cbn [nth cls19]; split; [lia|reflexivity]|]). lia.
Qed.

Section Node.
Variables (k : T_collision) (q : T_equilibrium) (cfg : collision_config) (t : StencilType) (s nu dt : R).
Variable A : nat -> nat -> R.
Variable pi : nat -> nat.
Variables F F' : option (nat -> R).
Hypothesis Hs : s <> 0.
Hypothesis Hev : even_handed k t cfg.
Hypothesis Sy : symmetry (stencil_of t s) A pi.
Hypothesis HF : turned_force (stencil_of t s) A F F'.
Let st := stencil_of t s.
Let gd := make_genData cfg F st s nu dt.
Let gd' := make_genData cfg F' st s nu dt.

Lemma tv_scal c u u' : turned_vector st A u u' -> turned_vector st A (fun a => c * u a) (fun a => c * u' a).
Proof. intros H a Ha. rewrite (H a Ha). symmetry. apply turned_scal. Qed.
Lemma tv_plus u u' v v' : turned_vector st A u u' -> turned_vector st A v v' -> turned_vector st A (fun a => u a + v a) (fun a => u' a + v' a).
Proof. intros H K a Ha. rewrite (H a Ha), (K a Ha). symmetry. apply turned_plus. Qed.
Lemma tv_ext u u' v v' : (forall a, u a = v a) -> (forall a, u' a = v' a) -> turned_vector st A u u' -> turned_vector st A v v'.
Proof. intros H K E a Ha. rewrite <- (K a), (E a Ha). apply turned_ext. intros b _. apply H. Qed.

Lemma gd_turned : turned_force st A (gd_force gd) (gd_force gd').
Proof.
  unfold gd, gd', make_genData. cbn [gd_force]. unfold turned_force in *. destruct F as [G|], F' as [G'|]; try contradiction; [|exact I].
  destruct (cc_equilibrium cfg); try assumption.
  apply (tv_ext (fun a => / cc_ss_gamma cfg * G a) (fun a => / cc_ss_gamma cfg * G' a)); [intros; unfold Rdiv; ring|intros; unfold Rdiv; ring|].
  apply tv_scal. assumption.
Qed.

Lemma same_ok {X Y} (P : X -> Y -> Prop) x y : P x y -> same_outcome P (Ok x) (Ok y). Proof. intros H. exact H. Qed.

Lemma sy_relax f f' rho u u' T : turned_populations st pi f f' -> turned_vector st A u u' ->
  same_outcome (fun x y => turned_populations st pi (fst x) (fst y) /\ turned_populations st pi (snd x) (snd y))
    (relax k q gd f rho u T) (relax k q gd' f' rho u' T).
Proof.
  intros Hf Hu. pose proof (symmetry_unscale _ s _ _ Sy) as SL. unfold relax. cbv zeta.
  change (gd_L gd') with (gd_L gd). change (gd_gamma_ss gd') with (gd_gamma_ss gd). change (gd_tau gd') with (gd_tau gd). change (gd_cfg gd') with (gd_cfg gd).
  apply (same_bind (turned_populations st pi)); [apply (sy_equilibrium q t s A pi); assumption|]. intros feq feq' _ _ He.
  assert (Hreg : turned_populations st pi (relax_Regularized (gd_L gd) (gd_tau gd) f feq) (relax_Regularized (gd_L gd) (gd_tau gd) f' feq')).
  { change (gd_L gd) with (unscale st s). exact (sy_regularized (unscale st s) A pi SL (gd_tau gd) f f' feq feq' Hf He). }
  destruct k eqn:Ek.
  - split; [|assumption]. intros i Hi. cbn [fst]. unfold relax_BGK. rewrite (Hf i Hi), (He i Hi). reflexivity.
  - split; assumption.
  - destruct (Hev eq_refl) as [Hacc Hmode].
    change (st_Q (gd_L gd)) with (st_Q st). change (cc_mrt_basis (gd_cfg gd)) with (cc_mrt_basis cfg). change (cc_mrt_relax (gd_cfg gd)) with (cc_mrt_relax cfg).
    destruct (make_M (st_Q st) (cc_mrt_basis cfg)) as [M| |] eqn:EM; cbn [obind]; try exact I.
    destruct (make_T (st_Q st) (cc_mrt_basis cfg)) as [Ti| |] eqn:ET; cbn [obind]; try exact I.
    destruct (make_diag (st_Q st) (gd_tau gd) (cc_mrt_basis cfg) (cc_mrt_relax cfg)) as [om| |] eqn:EO; cbn [obind]; try exact I.
    split; [|assumption]. cbn [fst]. apply (sy_mrt st A pi (cc_mrt_basis cfg)); try assumption.
    apply (mrt_even t s cfg A pi (gd_tau gd) M Ti om); assumption.
Qed.

Lemma sy_node init f f' u u' : turned_populations st pi f f' -> turned_vector st A u u' ->
  same_outcome (turned_node st A pi) (collide_node k q gd init f u) (collide_node k q gd' init f' u').
Proof.
  intros Hf Hu. pose proof (symmetry_unscale _ s _ _ Sy) as SL. pose proof gd_turned as HG. unfold collide_node. cbv zeta.
  change (gd_L gd') with (gd_L gd). change (gd_scaling gd') with (gd_scaling gd).
  change (st_Q (gd_L gd)) with (st_Q st).
  assert (Em : sumf (st_Q st) f' = sumf (st_Q st) f) by exact (sy_mass (unscale st s) A pi SL f f' Hf).
  apply (same_bind (fun r r' : R => r' = r)).
  { unfold calculateDensity. cbv zeta. rewrite Em. destruct (Rlt_dec _ _); reflexivity. }
  intros rho rho' Er _ ->. destruct (density_inv _ _ _ Er) as [_ Hd]. pose proof (dens_neq0 _ Hd) as Hr0.
  assert (Hv : turned_vector st A (calculateVelocity (gd_L gd) f rho) (calculateVelocity (gd_L gd) f' rho)).
  { change (gd_L gd) with (unscale st s). intros a Ha. unfold st. rewrite velocity_generic by assumption. fold st.
    rewrite (sy_velocity (unscale st s) A pi SL f f' rho Hf a Ha). apply turned_ext. intros b Hb. symmetry. apply velocity_generic; assumption. }
  set (v := calculateVelocity (gd_L gd) f rho) in *. set (v' := calculateVelocity (gd_L gd) f' rho) in *.
  apply (same_bind (fun x y => turned_vector st A (fst x) (fst y) /\ turned_vector st A (snd x) (snd y))).
  { destruct init.
    - split; [exact Hu|]. cbn [snd]. apply (tv_ext (fun a => / gd_scaling gd * u a) (fun a => / gd_scaling gd * u' a)); [intros; unfold Rdiv; ring|intros; unfold Rdiv; ring|].
      apply tv_scal. exact Hu.
    - assert (Hv1 : turned_vector st A (fun j => v j * gd_scaling gd) (fun j => v' j * gd_scaling gd)).
      { apply (tv_ext (fun a => gd_scaling gd * v a) (fun a => gd_scaling gd * v' a)); [intros; ring|intros; ring|]. apply tv_scal. exact Hv. }
      destruct (gd_force gd) as [G|], (gd_force gd') as [G'|]; cbn [turned_force] in HG; try contradiction; [|split; assumption].
      apply (same_bind (turned_vector st A)).
      + unfold applyMacroscopicForces. change (gd_cfg gd') with (gd_cfg gd). change (gd_dt gd') with (gd_dt gd).
        destruct (cc_forcing (gd_cfg gd)); try exact I; [|exact Hv1].
        apply same_ok. apply tv_plus; [exact Hv1|].
        apply (tv_ext (fun a => 1/2 * gd_dt gd / rho * G a) (fun a => 1/2 * gd_dt gd / rho * G' a)); [intros; unfold Rdiv; ring|intros; unfold Rdiv; ring|].
        apply tv_scal. exact HG.
      + intros u2 u2' _ _ H2. apply (same_bind (turned_vector st A)).
        * unfold applyForces. change (gd_cfg gd') with (gd_cfg gd). change (gd_dt gd') with (gd_dt gd). change (gd_tau gd') with (gd_tau gd). change (gd_scaling gd') with (gd_scaling gd).
          destruct (cc_forcing (gd_cfg gd)); try exact I; [|exact Hv].
          apply same_ok. apply tv_plus; [exact Hv|].
          apply (tv_ext (fun a => gd_tau gd * gd_dt gd / rho / gd_scaling gd * G a) (fun a => gd_tau gd * gd_dt gd / rho / gd_scaling gd * G' a)); [intros; unfold Rdiv; ring|intros; unfold Rdiv; ring|].
          apply tv_scal. exact HG.
        * intros v2 v2' _ _ H3. split; assumption. }
  intros uv uv' _ _ [Hfst Hsnd]. apply (same_bind (fun x y => turned_populations st pi (fst x) (fst y) /\ turned_populations st pi (snd x) (snd y))).
  { apply sy_relax; assumption. }
  intros ff ff' _ _ [H1 H2].
  destruct (gd_force gd) as [G|] eqn:EG, (gd_force gd') as [G'|] eqn:EG'; cbn [turned_force] in HG; try contradiction.
  - apply (same_bind (fun x y => turned_populations st pi (fst x) (fst y) /\ turned_vector st A (snd x) (snd y))).
    + unfold postCollisionApplyForces. change (gd_cfg gd') with (gd_cfg gd). change (gd_dt gd') with (gd_dt gd). change (gd_scaling gd') with (gd_scaling gd).
      change (gd_L gd') with (gd_L gd). change (gd_gamma_ss gd') with (gd_gamma_ss gd).
      destruct (cc_forcing (gd_cfg gd)); try exact I; [split; assumption|]. cbv zeta.
      apply (same_bind (turned_populations st pi)).
      * apply (sy_equilibrium q t s A pi); try assumption. apply tv_plus; [exact Hsnd|].
        apply (tv_ext (fun a => gd_dt gd / rho / gd_scaling gd * G a) (fun a => gd_dt gd / rho / gd_scaling gd * G' a)); [intros; unfold Rdiv; ring|intros; unfold Rdiv; ring|].
        apply tv_scal. exact HG.
      * intros g g' _ _ Hg. split; cbn [fst snd].
        -- intros i Hi. rewrite (H1 i Hi), (H2 i Hi), (Hg i Hi). reflexivity.
        -- apply tv_plus; [exact Hfst|].
           apply (tv_ext (fun a => 1/2 * gd_dt gd / rho * G a) (fun a => 1/2 * gd_dt gd / rho * G' a)); [intros; unfold Rdiv; ring|intros; unfold Rdiv; ring|].
           apply tv_scal. exact HG.
    + intros fu fu' _ _ [Ha Hb]. apply same_ok. repeat split; assumption.
  - apply same_ok. repeat split; assumption.
Qed.
End Node.
