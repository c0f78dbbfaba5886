(** Equilibrium moments in physical units, and the concrete runs used by the refutations. *)
From Coq Require Import QArith Qreals.
From Verif Require Import Prelude StencilData MRTData ModelStencils SpecStencils SpecCollision BigSum ProofStencils
  ProofWick ModelConfigNames ModelEquilibria ModelCollision SpecSetup SpecCollideAll ProofEquilibria ProofQuartic ProofEqMoments ProofRelax
  ProofCollideNode ProofForces ProofFixed ProofCollideAll ProofCompressible.
Open Scope R_scope.

Section Phys.
  Variables (cfg : collision_config) (t : StencilType) (s rho : R) (v : nat -> R) (T : R) (f : nat -> R).
  Hypothesis Ht : closed_form t = true.
  Hypothesis Hs : s <> 0.
  Let st := stencil_of t s.
  Let L := unscale st s.
  Let Hiso : isotropic L (moment_order t) := iso_unscaled t s (moment_order t) Ht Hs (le_n _).
  Let Hcs : st_cs2 L <> 0 := cs2_unscaled_neq0 t s Hs.
  Let H5 : (5 <= moment_order t)%nat := order5 t Ht.
  Let HD : st_D L = 2%nat \/ st_D L = 3%nat := st_dim t s.

  Lemma cs2_phys : st_cs2 st = s * s * st_cs2 L.
  Proof. unfold L. cbn [unscale st_cs2]. field. assumption. Qed.

  Lemma bgk_phys : equilibrium_populations BGKEquilibrium cfg st s rho v T f ->
    mass st f = rho /\
    (forall a, (a < st_D st)%nat -> momentum st f a = rho * v a) /\
    (forall a b, (a < st_D st)%nat -> (b < st_D st)%nat -> moment2 st f a b = rho * (st_cs2 st * delta a b + v a * v b)) /\
    (forall a b c, (a < st_D st)%nat -> (b < st_D st)%nat -> (c < st_D st)%nat ->
       moment3 st f a b c = rho * st_cs2 st * (v a * delta b c + v b * delta a c + v c * delta a b)).
  Proof.
    intros [g [Hg Hfg]]. cbn [eq_calc] in Hg. fold L in Hg. injection Hg as <-.
    assert (E : forall i, (i < st_Q L)%nat -> f i = BGKEquilibrium_generic L rho (fun a => v a / s) i).
    { intros i Hi. rewrite Hfg by assumption. apply bgk_calc_generic; assumption. }
    repeat split; intros.
    - rewrite (mass_unscale st s). fold L. rewrite (mass_ext L _ _ E). apply (bgk_mass L _ Hiso Hcs H5).
    - rewrite (momentum_unscale st s Hs). fold L. rewrite (momentum_ext L _ _ _ E), (bgk_momentum L _ Hiso Hcs H5) by assumption. field; assumption.
    - rewrite (moment2_unscale st s Hs). fold L. rewrite (moment2_ext L _ _ _ _ E), (bgk_moment2 L _ Hiso Hcs H5) by assumption.
      rewrite cs2_phys. field; assumption.
    - rewrite (moment3_unscale st s Hs). fold L. rewrite (moment3_ext L _ _ _ _ _ E), (bgk_moment3 L _ Hiso Hcs H5) by assumption.
      rewrite cs2_phys. field; assumption.
  Qed.

  Lemma inc_phys : equilibrium_populations IncompressibleEquilibrium cfg st s rho v T f ->
    mass st f = rho /\
    (forall a, (a < st_D st)%nat -> momentum st f a = v a) /\
    (forall a b, (a < st_D st)%nat -> (b < st_D st)%nat -> moment2 st f a b = rho * st_cs2 st * delta a b + v a * v b).
  Proof.
    intros [g [Hg Hfg]]. cbn [eq_calc] in Hg. fold L in Hg. injection Hg as <-.
    repeat split; intros.
    - rewrite (mass_unscale st s). fold L. rewrite (mass_ext L _ _ Hfg). apply (inc_mass L _ Hiso Hcs H5).
    - rewrite (momentum_unscale st s Hs). fold L. rewrite (momentum_ext L _ _ _ Hfg), (inc_momentum L _ Hiso Hcs H5) by assumption. field; assumption.
    - rewrite (moment2_unscale st s Hs). fold L. rewrite (moment2_ext L _ _ _ _ Hfg), (inc_moment2 L _ Hiso Hcs H5) by assumption.
      rewrite cs2_phys. field; assumption.
  Qed.

  Lemma ss_phys : cc_equilibrium cfg = STEADYSTATE_EQUILIBRIUM -> equilibrium_populations SteadyStateEquilibrium cfg st s rho v T f ->
    mass st f = rho /\
    (forall a, (a < st_D st)%nat -> momentum st f a = rho * v a) /\
    (forall a b, (a < st_D st)%nat -> (b < st_D st)%nat ->
       moment2 st f a b = rho * (st_cs2 st * delta a b + v a * v b / cc_ss_gamma cfg)).
  Proof.
    intros Hc [g [Hg Hfg]]. rewrite Hc in Hg. cbn [eq_calc] in Hg. fold L in Hg. injection Hg as <-.
    repeat split; intros.
    - rewrite (mass_unscale st s). fold L. rewrite (mass_ext L _ _ Hfg). apply (ss_mass L _ Hiso Hcs H5).
    - rewrite (momentum_unscale st s Hs). fold L. rewrite (momentum_ext L _ _ _ Hfg), (ss_momentum L _ Hiso Hcs H5) by assumption. field; assumption.
    - rewrite (moment2_unscale st s Hs). fold L. rewrite (moment2_ext L _ _ _ _ Hfg), (ss_moment2 L _ Hiso Hcs H5) by assumption.
      rewrite cs2_phys. unfold Rdiv. generalize (/ cc_ss_gamma cfg); intros ig. field; assumption.
  Qed.

  Lemma q_phys : equilibrium_populations QuarticEquilibrium cfg st s rho v T f ->
    mass st f = rho /\
    (forall a, (a < st_D st)%nat -> momentum st f a = rho * v a) /\
    ((6 <= moment_order t)%nat -> forall a b, (a < st_D st)%nat -> (b < st_D st)%nat ->
       moment2 st f a b = rho * (T * st_cs2 st * delta a b + v a * v b)) /\
    ((7 <= moment_order t)%nat -> forall a b c, (a < st_D st)%nat -> (b < st_D st)%nat -> (c < st_D st)%nat ->
       moment3 st f a b c = rho * (v a * v b * v c + T * st_cs2 st * (v a * delta b c + v b * delta a c + v c * delta a b))).
  Proof.
    intros [g [Hg Hfg]]. cbn [eq_calc] in Hg. fold L in Hg. injection Hg as <-.
    repeat split; intros.
    - rewrite (mass_unscale st s). fold L. rewrite (mass_ext L _ _ Hfg). apply (q_mass L _ Hiso Hcs H5); assumption.
    - rewrite (momentum_unscale st s Hs). fold L. rewrite (momentum_ext L _ _ _ Hfg), (q_momentum L _ Hiso Hcs H5) by assumption. field; assumption.
    - rewrite (moment2_unscale st s Hs). fold L. rewrite (moment2_ext L _ _ _ _ Hfg), (q_moment2 L _ Hiso Hcs) by assumption.
      rewrite cs2_phys. field; assumption.
    - rewrite (moment3_unscale st s Hs). fold L. rewrite (moment3_ext L _ _ _ _ _ Hfg), (q_moment3 L _ Hiso Hcs) by assumption.
      rewrite cs2_phys. field; assumption.
  Qed.

  (** the energy: trace of the second moment *)
  Lemma q_energy : (6 <= moment_order t)%nat -> equilibrium_populations QuarticEquilibrium cfg st s rho v T f ->
    sumf (st_Q st) (fun i => f i * dot (st_D st) (st_e st i) (st_e st i)) = rho * (INR (st_D st) * T * st_cs2 st + dot (st_D st) v v).
  Proof.
    intros H6 H. destruct (q_phys H) as [_ [_ [H2 _]]].
    transitivity (sumf (st_D st) (fun a => moment2 st f a a)).
    - unfold dot, moment2. rewrite sumf_swap. apply sumf_ext. intros i _. rewrite <- sumf_scal. apply sumf_ext. intros. ring.
    - rewrite (sumf_ext (st_D st) _ (fun a => rho * T * st_cs2 st + rho * (v a * v a))).
      + rewrite sumf_plus, sumf_const, sumf_scal. unfold dot. ring.
      + intros a Ha. rewrite (H2 H6) by assumption. rewrite delta_refl. ring.
  Qed.
End Phys.

Lemma eqpop_exists q cfg st s rho v T : q <> EntropicEquilibrium -> exists f, equilibrium_populations q cfg st s rho v T f.
Proof.
  intros H. unfold equilibrium_populations.
  destruct q; try congruence; (eexists; eexists; split; [reflexivity|intros; reflexivity]).
Qed.

(** ** Dellar basis, full relaxation *)
Lemma dellar_full cfg s nu dt f u o :
  valid_setup cfg s nu dt -> cc_equilibrium cfg <> STEADYSTATE_EQUILIBRIUM ->
  cc_mrt_basis cfg = DELLAR_D2Q9 -> cc_mrt_relax cfg = RELAX_FULL ->
  collide_node MultipleRelaxationTime BGKEquilibrium (make_genData cfg None (D2Q9 s) s nu dt) false f u = Ok o ->
  let tau := nu / (dt * st_cs2 (D2Q9 s)) + 1/2 in
  exists feq, equilibrium_populations BGKEquilibrium cfg (D2Q9 s) s (mass (D2Q9 s) f)
                (fun a => momentum (D2Q9 s) f a / mass (D2Q9 s) f) 1 feq /\
    ghost_N (no_f o) = ghost_N feq /\ (forall a, (a < 2)%nat -> ghost_J (no_f o) a = ghost_J feq a) /\
    (forall a b, (a < 2)%nat -> (b < 2)%nat ->
      moment2 (D2Q9 s) (no_f o) a b = moment2 (D2Q9 s) f a b - 1 / tau * (moment2 (D2Q9 s) f a b - moment2 (D2Q9 s) feq a b)) /\
    (ghost_N f = ghost_N feq -> (forall a, (a < 2)%nat -> ghost_J f a = ghost_J feq a) ->
     forall i, (i < 9)%nat -> no_f o i = f i - 1 / tau * (f i - feq i)).
Proof.
  intros Hv Hss Hb Hr H tau. assert (Hs : s <> 0) by (destruct Hv; lra).
  pose proof (tau_pos cfg None Stencil_D2Q9 s nu dt Hv) as Htau.
  pose proof (tau_gd cfg None (D2Q9 s) s nu dt Hss) as Htg. fold tau in Htg. cbn [stencil_of] in Htau.
  set (gd := make_genData cfg None (D2Q9 s) s nu dt) in *.
  destruct (node_inv _ _ gd f u o eq_refl H) as [Hd [_ [_ [feq Hrel]]]].
  change (gd_L gd) with (unscale (D2Q9 s) s) in *. set (L := unscale (D2Q9 s) s) in *.
  change (sumf (st_Q L) f) with (mass (D2Q9 s) f) in *. set (rho := mass (D2Q9 s) f) in *.
  assert (Hr0 : rho <> 0) by (apply dens_neq0; assumption).
  unfold relax in Hrel. cbn [eq_calc obind] in Hrel. change (gd_L gd) with L in Hrel. change (gd_cfg gd) with cfg in Hrel.
  rewrite Hb, Hr, Htg in Hrel. unfold make_M, make_T, make_diag in Hrel.
  change (st_Q L) with 9%nat in Hrel. cbn [Nat.eqb obind make_diag_9] in Hrel.
  injection Hrel. intros Efeq Eo. clear Hrel.
  set (om := fun i => match i with 6%nat | 7%nat | 8%nat => 1 | _ => 1 / tau end) in Eo.
  rewrite Efeq in Eo.
  exists feq.
  assert (HMT : forall r, (r < 9)%nat -> matvec 9 (matR MRTDellarD2Q9_M) (no_f o) r =
     matvec 9 (matR MRTDellarD2Q9_M) f r - om r * (matvec 9 (matR MRTDellarD2Q9_M) f r - matvec 9 (matR MRTDellarD2Q9_M) feq r)).
  { intros r Hr'. rewrite <- Eo. apply (mrt_moment 9 DELLAR_D2Q9 _ _ om f feq r eq_refl eq_refl Hr'). }
  split; [|split; [|split; [|split]]].
  - exists (BGKEquilibrium_calc L rho (fun a => momentum (D2Q9 s) f a / rho / s)). split; [reflexivity|].
    intros i Hi. rewrite <- Efeq.
    apply (eq_ext BGKEquilibrium L 1 rho (calculateVelocity L f rho) (fun a => momentum (D2Q9 s) f a / rho / s) 1); try reflexivity.
    + left. reflexivity.
    + intros a Ha. rewrite (momentum_unscale (D2Q9 s) s Hs). fold L.
      assert (Hja : rho * calculateVelocity L f rho a = momentum L f a) by exact (vel_momentum Stencil_D2Q9 s f rho a Hs Hr0 Ha).
      rewrite <- Hja. field. split; assumption.
  - rewrite <- !dellar_N. rewrite HMT by lia. cbn [om]. ring.
  - intros a Ha. rewrite <- !(dellar_J _ a) by lia. rewrite HMT by lia. destruct a as [|[|a]]; [| |lia]; cbn [om Nat.add]; ring.
  - intros a b Ha Hb'.
    assert (Hrow : forall g, moment2 (D2Q9 s) g a b = s * s *
       (match a, b with
        | O, O => (matvec 9 (matR MRTDellarD2Q9_M) g 3 + 3/2 * matvec 9 (matR MRTDellarD2Q9_M) g 0) * (2/9)
        | S _, S _ => (matvec 9 (matR MRTDellarD2Q9_M) g 5 + 3/2 * matvec 9 (matR MRTDellarD2Q9_M) g 0) * (2/9)
        | _, _ => matvec 9 (matR MRTDellarD2Q9_M) g 4 / 9
        end)).
    { intros g. destruct a as [|[|a]], b as [|[|b]]; try lia;
      unfold moment2, matvec, matR; cbn [D2Q9 st_Q st_e sumf nth MRTDellarD2Q9_M]; lit; field. }
    rewrite !Hrow. destruct a as [|[|a]], b as [|[|b]]; try lia; rewrite !HMT by lia; unfold om; unfold Rdiv; ring.
  - intros HN HJ i Hi. rewrite <- Eo. apply (mrt_bgk 9 DELLAR_D2Q9 _ _ om tau f feq eq_refl eq_refl); [|assumption].
    intros r Hr'. do 6 (destruct r as [|r]; [left; reflexivity|]).
    destruct r as [|[|[|r]]]; [right..|lia].
    + rewrite !dellar_N. assumption.
    + change 7%nat with (7 + 0)%nat. rewrite !(dellar_J _ 0) by lia. apply HJ; lia.
    + change 8%nat with (7 + 1)%nat. rewrite !(dellar_J _ 1) by lia. apply HJ; lia.
Qed.

(** ** Concrete runs *)
Definition wcfg (force : ForceType) (mode : RelaxMode) (basis : MomentBasis) : collision_config :=
  {| cc_forcing := force; cc_equilibrium := BGK_EQUILIBRIUM; cc_ss_gamma := 1; cc_mrt_basis := basis;
     cc_mrt_relax := mode; cc_heat_gamma := 2; cc_prandtl_set := false; cc_prandtl := 1; cc_sutherland := false |}.
(** everything in the resting population *)
Definition rest (i : nat) : R := match i with O => 1 | _ => 0 end.
Lemma rest_dense t s : dense (stencil_of t s) rest.
Proof.
  assert (E : mass (stencil_of t s) rest = 1).
  { unfold mass. destruct (st_Q (stencil_of t s)) as [|Q] eqn:EQ; [destruct t; discriminate|].
    clear EQ. induction Q as [|Q IH]; [cbn; ring|]. cbn [sumf] in *. cbn [rest] in *. rewrite IH. ring. }
  unfold dense. rewrite E. cbn. lra.
Qed.
Lemma wsetup f m b : valid_setup (wcfg f m b) 1 1 1.
Proof. repeat split; cbn; lra. Qed.
Definition unitF (a : nat) : R := match a with O => 1 | _ => 0 end.

Lemma force_regularized_bad : exists cfg t s nu dt F f u o,
  closed_form t = true /\ valid_setup cfg s nu dt /\ cc_forcing cfg = SHIFTING_VELOCITY /\
  collide_node Regularized BGKEquilibrium (make_genData cfg (Some F) (stencil_of t s) s nu dt) false f u = Ok o /\
  momentum (stencil_of t s) (no_f o) 0 <> momentum (stencil_of t s) f 0 + dt * F 0%nat.
Proof.
  pose (cfg := wcfg SHIFTING_VELOCITY RELAX_FULL DELLAR_D2Q9).
  destruct (force_runs Regularized BGKEquilibrium cfg Stencil_D2Q9 1 1 1 unitF rest unitF eq_refl (wsetup _ _ _) eq_refl
              (or_introl eq_refl) (rest_dense _ _) eq_refl) as [o Ho].
  exists cfg, Stencil_D2Q9, 1, 1, 1, unitF, rest, unitF, o.
  split; [reflexivity|]. split; [apply wsetup|]. split; [reflexivity|]. split; [exact Ho|].
  destruct (shifting_ok Regularized BGKEquilibrium cfg Stencil_D2Q9 1 1 1 unitF rest unitF o eq_refl (wsetup _ _ _) eq_refl
             ltac:(discriminate) eq_refl Ho) as [[_ Hj] _].
  rewrite (Hj 0%nat) by (cbn; lia). cbn [shift_factor stencil_of D2Q9 st_cs2 unitF]. lra.
Qed.

Lemma force_dhumieres_bad : exists cfg t s nu dt F f u o,
  closed_form t = true /\ valid_setup cfg s nu dt /\ cc_forcing cfg = SHIFTING_VELOCITY /\
  collide_node MultipleRelaxationTime BGKEquilibrium (make_genData cfg (Some F) (stencil_of t s) s nu dt) false f u = Ok o /\
  F 0%nat <> 0 /\ momentum (stencil_of t s) (no_f o) 0 = momentum (stencil_of t s) f 0.
Proof.
  pose (cfg := wcfg SHIFTING_VELOCITY RELAX_DHUMIERES_PAPER DHUMIERES_D3Q19).
  destruct (force_runs MultipleRelaxationTime BGKEquilibrium cfg Stencil_D3Q19 1 1 1 unitF rest unitF eq_refl (wsetup _ _ _) eq_refl
              (or_introl eq_refl) (rest_dense _ _) eq_refl) as [o Ho].
  exists cfg, Stencil_D3Q19, 1, 1, 1, unitF, rest, unitF, o.
  split; [reflexivity|]. split; [apply wsetup|]. split; [reflexivity|]. split; [exact Ho|]. split; [cbn; lra|].
  destruct (shifting_ok MultipleRelaxationTime BGKEquilibrium cfg Stencil_D3Q19 1 1 1 unitF rest unitF o eq_refl (wsetup _ _ _) eq_refl
             ltac:(discriminate) eq_refl Ho) as [[_ Hj] _].
  rewrite (Hj 0%nat) by (cbn; lia). cbn [shift_factor cfg wcfg cc_mrt_relax]. ring.
Qed.

(** N relaxes with 1/tau instead of being set to its equilibrium *)
Lemma only_N_bad : exists cfg s nu dt f u o,
  valid_setup cfg s nu dt /\ cc_mrt_basis cfg = DELLAR_D2Q9 /\ cc_mrt_relax cfg = DELLAR_RELAX_ONLY_N /\
  collide_node MultipleRelaxationTime BGKEquilibrium (make_genData cfg None (D2Q9 s) s nu dt) false f u = Ok o /\
  forall feq, equilibrium_populations BGKEquilibrium cfg (D2Q9 s) s (mass (D2Q9 s) f)
                (fun a => momentum (D2Q9 s) f a / mass (D2Q9 s) f) 1 feq -> ghost_N (no_f o) <> ghost_N feq.
Proof.
  pose (cfg := wcfg NO_FORCING DELLAR_RELAX_ONLY_N DELLAR_D2Q9).
  destruct (proj2 (collide_runs MultipleRelaxationTime BGKEquilibrium cfg Stencil_D2Q9 1 1 1 rest rest eq_refl (wsetup _ _ _) eq_refl
              (rest_dense _ _)) eq_refl) as [o Ho].
  exists cfg, 1, 1, 1, rest, rest, o.
  split; [apply wsetup|]. split; [reflexivity|]. split; [reflexivity|]. split; [exact Ho|].
  destruct (dellar_only_N cfg 1 1 1 rest rest o (wsetup _ _ _) ltac:(discriminate) eq_refl eq_refl Ho) as [g [Hg [_ [_ [HN _]]]]].
  assert (Hm : mass (D2Q9 1) rest = 1) by (unfold mass; cbn [D2Q9 st_Q sumf rest]; ring).
  assert (Hj : forall a, (a < 2)%nat -> momentum (D2Q9 1) rest a = 0).
  { intros a Ha. unfold momentum. cbn [D2Q9 st_Q sumf rest st_e].
    destruct a as [|[|a]]; [| |lia]; lit; lra. }
  assert (Hz : forall h, equilibrium_populations BGKEquilibrium cfg (D2Q9 1) 1 (mass (D2Q9 1) rest)
                (fun a => momentum (D2Q9 1) rest a / mass (D2Q9 1) rest) 1 h -> ghost_N h = 0).
  { intros h [e [He Hh]]. cbn [eq_calc] in He. injection He as <-.
    unfold ghost_N. rewrite (sumf_ext 9 _ (fun i => ghost_g i * BGKEquilibrium_2_9 (unscale (D2Q9 1) 1) 1 (fun _ => 0) i)).
    - unfold ghost_g, BGKEquilibrium_2_9. cbn [sumf nth unscale D2Q9 st_cs2]. field.
    - intros i Hi. rewrite Hh by assumption. rewrite Hm. unfold BGKEquilibrium_calc. cbn [is_DQ unscale D2Q9 st_D st_Q Nat.eqb andb].
      unfold BGKEquilibrium_2_9. cbn [unscale D2Q9 st_cs2]. rewrite !Hj by lia. f_equal.
      do 9 (destruct i as [|i]; [field|]). lia. }
  intros h Hh. rewrite (Hz h Hh), HN, (Hz g Hg). cbn [D2Q9 st_cs2]. unfold ghost_N, ghost_g. cbn [sumf nth rest]. lra.
Qed.

(** Uniform equilibrium at rest on D2Q25H, with internal energy for temperature 2. *)
Lemma bgk_energy_bad : exists cfg t s nu dt f g u o,
  closed_form t = true /\ valid_setup cfg s nu dt /\ cc_heat_gamma cfg <> 1 /\
  collide_node_g BGKEquilibrium (make_genData cfg None (stencil_of t s) s nu dt) false f g u = Ok o /\
  energy2 (stencil_of t s) (ng_f o) (ng_g o) <> energy2 (stencil_of t s) f g.
Proof.
  pose (cfg := wcfg NO_FORCING RELAX_FULL DELLAR_D2Q9).
  pose (t := Stencil_D2Q25H). pose (st := stencil_of t 1). pose (f := st_w st). pose (g := fun i => 2 * st_w st i).
  assert (Hiso : isotropic st 9) by (apply (isotropic_all t 1 eq_refl)).
  assert (Hm : mass st f = 1).
  { exact (iso0 st 9 Hiso). }
  assert (Hj : forall a, (a < 2)%nat -> momentum st f a = 0).
  { intros a Ha. transitivity (Ex st (fun i => eprod st i [a])). { apply sumf_ext. intros. unfold f. cbn [eprod]. ring. }
    apply (Ex_odd st 9 Hiso); [constructor; [exact Ha|constructor]|cbn [length]; lia|reflexivity]. }
  assert (H2 : forall a, (a < 2)%nat -> moment2 st f a a = st_cs2 st).
  { intros a Ha. transitivity (Ex st (fun i => eprod st i [a; a])). { apply sumf_ext. intros. unfold f. cbn [eprod]. ring. }
    rewrite (Ex2 st 9 Hiso) by (exact Ha || lia). rewrite delta_refl. ring. }
  assert (Hdense : dense st f). { unfold dense. rewrite Hm. cbn. lra. }
  assert (Hrun : exists o, collide_node_g BGKEquilibrium (make_genData cfg None st 1 1 1) false f g f = Ok o).
  { unfold collide_node_g. rewrite (density_ok (st_Q (gd_L (make_genData cfg None st 1 1 1))) f Hdense). cbn [obind].
    unfold relaxWithG. cbn [make_genData gd_force obind eq_calc fst snd]. eexists. reflexivity. }
  destruct Hrun as [o Ho]. exists cfg, t, 1, 1, 1, f, g, f, o.
  split; [reflexivity|]. split; [apply wsetup|]. split; [cbn; lra|]. split; [exact Ho|].
  assert (H6 : order6 t) by (split; [reflexivity|cbn; lia]).
  destruct (bgk_compressible_energy cfg t 1 1 1 f g f o H6 (wsetup _ _ _) ltac:(cbn; lra) ltac:(discriminate) Ho) as [_ HE].
  (* the temperature is 2 *)
  assert (HT : ng_T o = 2).
  { destruct (node_g_inv _ (make_genData cfg None st 1 1 1) f g f o eq_refl Ho) as [Hd [_ [_ [HT _]]]].
    set (gd := make_genData cfg None st 1 1 1) in *.
    change (gd_L gd) with (unscale st 1) in *. set (L := unscale st 1) in *.
    assert (Hcs : st_cs2 L <> 0) by (apply (cs2_unscaled_neq0 t 1); lra).
    assert (E1 : sumf (st_Q L) f = 1) by exact Hm. rewrite E1 in HT.
    assert (Hv : forall a, (a < st_D L)%nat -> 1 * calculateVelocity L f 1 a = momentum L f a).
    { intros a Ha. apply (vel_momentum t 1 f 1 a); [lra|lra|exact Ha]. }
    pose proof (temperature_energy gd f g (calculateVelocity L f 1) 1 Hcs ltac:(lra) ltac:(cbn; lra) (eq_sym E1) Hv) as Hte.
    change (gd_L gd) with L in Hte. rewrite <- HT in Hte.
    assert (Hd0 : dot (st_D L) (calculateVelocity L f 1) (calculateVelocity L f 1) = 0).
    { apply sumf_zero. intros a Ha.
      assert (E : calculateVelocity L f 1 a = 0).
      { rewrite <- (Rmult_1_l (calculateVelocity L f 1 a)), (Hv a Ha).
        apply (Rmult_eq_reg_l 1); [|lra]. unfold L. rewrite <- (momentum_unscale st 1) by lra. rewrite (Hj a Ha). ring. }
      rewrite E. ring. }
    rewrite Hd0 in Hte. change (cc_heat_gamma (gd_cfg gd)) with 2 in Hte.
    assert (HEn : energy2 L f g = 4 * st_cs2 L).
    { apply (Rmult_eq_reg_l (1 * 1)); [|lra]. unfold L. rewrite <- (energy2_unscale st 1) by lra.
      rewrite energy2_moments. change (st_D st) with 2%nat. cbn [sumf]. rewrite !H2 by lia.
      replace (mass st g) with 2.
      - cbn [unscale st_cs2]. field.
      - unfold mass, g. rewrite sumf_scal. change (sumf (st_Q st) (st_w st)) with (mass st f). rewrite Hm. ring. }
    rewrite HEn in Hte. apply (Rmult_eq_reg_r (st_cs2 L)); [|assumption]. lra. }
  rewrite HE, HT. fold t in H6. change (stencil_of t 1) with st. rewrite Hm. change (st_D st) with 2%nat.
  change (cc_sutherland cfg) with false.
  assert (Hc : 0 < st_cs2 st) by (apply (cs2_pos t 1); lra).
  assert (HX : 0 < 1 / (1 / (1 * st_cs2 st) * 1 / (2 * 1) + 1/2)).
  { apply Rdiv_lt_0_compat; [lra|]. assert (0 < 1 / (1 * st_cs2 st)) by (apply Rdiv_lt_0_compat; lra). lra. }
  cbn [INR]. nra.
Qed.

Lemma empty_rank_bad k q gd init s : exists ranks, NoDup (concat ranks) /\ run_ranks k q gd init ranks s = Throw.
Proof.
  exists [[]]. split; [constructor|]. cbn [run_ranks]. rewrite empty_rank_throws. reflexivity.
Qed.
