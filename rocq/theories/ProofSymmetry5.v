(** The only-N mode of Dellar's scheme tells the axes apart; D2Q19H, D2Q19V and D3Q45 are not cubic. *)
From Coq Require Import QArith Qreals.
From Verif Require Import Prelude StencilData MRTData ModelStencils SpecStencils SpecCollision BigSum ProofStencils
  ProofWick ModelConfigNames ModelEquilibria ModelCollision SpecSetup ProofEquilibria ProofQuartic ProofEqMoments ProofRelax
  ProofCollideNode ProofForces ProofFixed ProofPhysical SpecSymmetry ProofSymmetry ProofSymmetry4.
Open Scope R_scope.

(** Exchange of the two axes. *)
Definition swap_axes (a b : nat) : R := delta (1 - a) b.
Definition swap_dirs (i : nat) : nat := nth i [0; 2; 1; 4; 3; 5; 8; 7; 6]%nat 0%nat.

Lemma swap_signed : signed_permutation 2 swap_axes.
Proof.
  exists (fun a => 1 - a)%nat, (fun _ => 1). repeat split.
  - intros a Ha. lia.
  - intros a b Ha Hb. lia.
  - intros a Ha. left. reflexivity.
  - intros a b _ _. unfold swap_axes. ring.
Qed.

Lemma swap_symmetry s : symmetry (D2Q9 s) swap_axes swap_dirs.
Proof.
  constructor; cbn [D2Q9 st_D st_Q st_e st_w].
  - intros a b Ha Hb. destruct a as [|[|a]], b as [|[|b]]; try lia; cbn; ring.
  - intros i Hi. do 9 (destruct i as [|i]; [cbn; lia|]). lia.
  - intros i j Hi Hj. do 9 (destruct i as [|i]; [do 9 (destruct j as [|j]; [cbn; lia|]); lia|]). lia.
  - intros i a Hi Ha. unfold turned. destruct a as [|[|a]]; [| |lia];
      do 9 (destruct i as [|i]; [cbn [swap_dirs nth sumf]; unfold swap_axes, delta; cbn [Nat.sub Nat.eqb]; lit; ring|]); lia.
  - intros i Hi. do 9 (destruct i as [|i]; [reflexivity|]). lia.
Qed.

Definition lean (i : nat) : R := nth i [16/36; 2/36; 4/36; 4/36; 4/36; 2/36; 1/36; 1/36; 2/36] 0.
Definition lean' (i : nat) : R := nth i [16/36; 4/36; 2/36; 4/36; 4/36; 2/36; 2/36; 1/36; 1/36] 0.

Lemma lean_turned s : turned_populations (D2Q9 s) swap_dirs lean lean'.
Proof. intros i Hi. cbn [D2Q9 st_Q] in Hi. do 9 (destruct i as [|i]; [reflexivity|]). lia. Qed.

Lemma rest_eq cfg f g a : cc_equilibrium cfg = BGK_EQUILIBRIUM -> mass (D2Q9 1) f = 1 -> (forall b, (b < 2)%nat -> momentum (D2Q9 1) f b = 0) -> (a < 2)%nat ->
  equilibrium_populations BGKEquilibrium cfg (D2Q9 1) 1 (mass (D2Q9 1) f) (fun b => momentum (D2Q9 1) f b / mass (D2Q9 1) f) 1 g -> ghost_J g a = 0.
Proof.
  intros Hc Hm Hj Ha [e [He Hh]]. cbn [eq_calc] in He. injection He as <-. unfold ghost_J.
  rewrite (sumf_ext 9 _ (fun i => ghost_g i * st_e (D2Q9 1) i a * BGKEquilibrium_2_9 (unscale (D2Q9 1) 1) 1 (fun _ => 0) i)).
  - unfold ghost_g, BGKEquilibrium_2_9. cbn [sumf nth unscale D2Q9 st_cs2 st_e].
    destruct a as [|[|a]]; [| |lia]; lit; field.
  - intros i Hi. rewrite Hh by assumption. rewrite Hm. unfold BGKEquilibrium_calc. cbn [is_DQ unscale D2Q9 st_D st_Q Nat.eqb andb].
    unfold BGKEquilibrium_2_9. cbn [unscale D2Q9 st_cs2]. rewrite !Hj by lia. f_equal.
    do 9 (destruct i as [|i]; [field|]). lia.
Qed.

Lemma only_N_uneven : exists cfg s nu dt A pi f f' u o o',
  valid_setup cfg s nu dt /\ cc_mrt_basis cfg = DELLAR_D2Q9 /\ cc_mrt_relax cfg = DELLAR_RELAX_ONLY_N /\ symmetry (D2Q9 s) A pi /\
  turned_populations (D2Q9 s) pi f f' /\
  collide_node MultipleRelaxationTime BGKEquilibrium (make_genData cfg None (D2Q9 s) s nu dt) false f u = Ok o /\
  collide_node MultipleRelaxationTime BGKEquilibrium (make_genData cfg None (D2Q9 s) s nu dt) false f' u = Ok o' /\
  ~ turned_populations (D2Q9 s) pi (no_f o) (no_f o').
Proof.
  pose (cfg := wcfg NO_FORCING DELLAR_RELAX_ONLY_N DELLAR_D2Q9).
  assert (Hm : mass (D2Q9 1) lean = 1) by (unfold mass; cbn [D2Q9 st_Q sumf lean nth]; lra).
  assert (Hm' : mass (D2Q9 1) lean' = 1) by (unfold mass; cbn [D2Q9 st_Q sumf lean' nth]; lra).
  assert (Hj : forall b, (b < 2)%nat -> momentum (D2Q9 1) lean b = 0).
  { intros b Hb. unfold momentum. cbn [D2Q9 st_Q sumf lean nth st_e]. destruct b as [|[|b]]; [| |lia]; lit; lra. }
  assert (Hj' : forall b, (b < 2)%nat -> momentum (D2Q9 1) lean' b = 0).
  { intros b Hb. unfold momentum. cbn [D2Q9 st_Q sumf lean' nth st_e]. destruct b as [|[|b]]; [| |lia]; lit; lra. }
  assert (Hd : dense (stencil_of Stencil_D2Q9 1) lean) by (unfold dense; change (stencil_of Stencil_D2Q9 1) with (D2Q9 1); rewrite Hm; cbn; lra).
  assert (Hd' : dense (stencil_of Stencil_D2Q9 1) lean') by (unfold dense; change (stencil_of Stencil_D2Q9 1) with (D2Q9 1); rewrite Hm'; cbn; lra).
  destruct (proj2 (collide_runs MultipleRelaxationTime BGKEquilibrium cfg Stencil_D2Q9 1 1 1 lean rest eq_refl (wsetup _ _ _) eq_refl Hd) eq_refl) as [o Ho].
  destruct (proj2 (collide_runs MultipleRelaxationTime BGKEquilibrium cfg Stencil_D2Q9 1 1 1 lean' rest eq_refl (wsetup _ _ _) eq_refl Hd') eq_refl) as [o' Ho'].
  exists cfg, 1, 1, 1, swap_axes, swap_dirs, lean, lean', rest, o, o'.
  split; [apply wsetup|]. split; [reflexivity|]. split; [reflexivity|]. split; [apply swap_symmetry|]. split; [apply lean_turned|]. split; [exact Ho|]. split; [exact Ho'|].
  intros Hturn.
  destruct (dellar_only_N cfg 1 1 1 lean rest o (wsetup _ _ _) ltac:(discriminate) eq_refl eq_refl Ho) as [g [Hg [_ [HJ _]]]].
  destruct (dellar_only_N cfg 1 1 1 lean' rest o' (wsetup _ _ _) ltac:(discriminate) eq_refl eq_refl Ho') as [g' [Hg' [HJ' _]]].
  rewrite (rest_eq cfg lean g 0 eq_refl Hm Hj ltac:(lia) Hg) in HJ. rewrite (rest_eq cfg lean' g' 1 eq_refl Hm' Hj' ltac:(lia) Hg') in HJ'.
  assert (E : ghost_J (no_f o') 1 = ghost_J (no_f o) 0).
  { pose proof (fun i Hi => Hturn i Hi) as H. cbn [D2Q9 st_Q] in H.
    pose proof (H 0%nat ltac:(lia)) as H0. pose proof (H 1%nat ltac:(lia)) as H1. pose proof (H 2%nat ltac:(lia)) as H2. pose proof (H 3%nat ltac:(lia)) as H3.
    pose proof (H 4%nat ltac:(lia)) as H4. pose proof (H 5%nat ltac:(lia)) as H5. pose proof (H 6%nat ltac:(lia)) as H6. pose proof (H 7%nat ltac:(lia)) as H7. pose proof (H 8%nat ltac:(lia)) as H8.
    unfold swap_dirs in *. cbn [nth] in *. unfold ghost_J, ghost_g. cbn [sumf nth D2Q9 st_e]. lit. rewrite <- H0, <- H1, <- H2, <- H3, <- H4, <- H5, <- H6, <- H7, <- H8. lra. }
  rewrite E, HJ in HJ'.
  assert (EJ : ghost_J lean 0 = 1/3) by (unfold ghost_J, ghost_g, lean; cbn [sumf nth D2Q9 st_e]; lit; lra).
  rewrite EJ in HJ'. cbn [D2Q9 st_cs2] in HJ'. lra.
Qed.

(** ** Stencils that are not cubic *)
Lemma no_image st c (row : nat -> nat -> Q) (p : nat -> nat) (sg : nat -> bool) i :
  c <> 0 -> (i < st_Q st)%nat -> (forall j a, (j < st_Q st)%nat -> (a < st_D st)%nat -> st_e st j a = c * Q2R (row j a)) ->
  (forall a, (a < st_D st)%nat -> (p a < st_D st)%nat) ->
  forallb (fun j => existsb (fun a => negb (Qeq_bool (row j a) (sq (sg a) (row i (p a))))) (seq 0 (st_D st))) (seq 0 (st_Q st)) = true ->
  forall pi, ~ symmetry st (fun a b => (if sg a then 1 else -1) * delta (p a) b) pi.
Proof.
  intros Hc Hi He Hp H pi Sy. pose proof (sy_range _ _ _ Sy i Hi) as Hj. rewrite forallb_forall in H. specialize (H (pi i) ltac:(apply in_seq; lia)).
  apply existsb_exists in H. destruct H as (a & Ha & H). apply in_seq in Ha. apply negb_true_iff in H. apply Qeq_bool_neq in H. apply H. apply eqR_Qeq.
  pose proof (sy_direction _ _ _ Sy i a Hi ltac:(lia)) as E. rewrite (He (pi i) a Hj ltac:(lia)) in E. unfold turned in E.
  rewrite (sumf_ext (st_D st) _ (fun b => delta (p a) b * ((if sg a then 1 else -1) * st_e st i b))) in E by (intros b _; ring).
  rewrite (sumf_delta (st_D st) (p a) (fun b => (if sg a then 1 else -1) * st_e st i b)) in E by (apply Hp; lia).
  rewrite (He i (p a) Hi (Hp a ltac:(lia))) in E. apply (Rmult_eq_reg_l c); [|assumption]. rewrite E.
  destruct (sg a); cbn [sq]; rewrite ?Q2R_opp; ring.
Qed.

Definition mirror_last (a b : nat) : R := (if Nat.ltb a 2 then 1 else -1) * delta a b.
Lemma mirror_signed : signed_permutation 3 mirror_last.
Proof.
  exists (fun a => a), (fun a => if Nat.ltb a 2 then 1 else -1). repeat split; auto.
  intros a Ha. destruct (Nat.ltb a 2); [left|right]; reflexivity.
Qed.

Lemma symmetry_ext st A B pi : (forall a b, A a b = B a b) -> symmetry st A pi -> symmetry st B pi.
Proof.
  intros H [H1 H2 H3 H4 H5]. constructor; try assumption.
  - intros a b Ha Hb. rewrite <- (H1 a b Ha Hb). apply sumf_ext. intros c _. rewrite !H. reflexivity.
  - intros i a Hi Ha. rewrite (H4 i a Hi Ha). apply sumf_ext. intros b _. rewrite H. reflexivity.
Qed.

Lemma oblong s : s <> 0 -> forall pi, ~ symmetry (D2Q19H s) swap_axes pi /\ ~ symmetry (D2Q19V s) swap_axes pi /\ ~ symmetry (D3Q45 s) mirror_last pi.
Proof.
  intros Hs pi. assert (Hc : s / sqrt 3 <> 0) by (apply Rmult_integral_contrapositive_currified; [assumption|apply Rinv_neq_0_compat; apply sqrt3_neq0]).
  assert (Hex : forall st, symmetry st swap_axes pi -> symmetry st (fun a b => (if true then 1 else -1) * delta (1 - a) b) pi).
  { intros st. apply symmetry_ext. intros a b. unfold swap_axes. ring. }
  repeat split; intros Sy.
  - apply (no_image (D2Q19H s) (s / sqrt 3) (fun i a => tblQ D2Q19H_dir i (1 - a)) (fun a => 1 - a)%nat (fun _ => true) 1 Hc) with (pi := pi);
      [cbn; lia|intros; cbn [D2Q19H st_e]; unfold tbl, Rdiv; ring|cbn [D2Q19H st_D]; lia|vm_compute; reflexivity|exact (Hex _ Sy)].
  - apply (no_image (D2Q19V s) (s / sqrt 3) (tblQ D2Q19V_dir) (fun a => 1 - a)%nat (fun _ => true) 1 Hc) with (pi := pi);
      [cbn; lia|intros; cbn [D2Q19V st_e]; unfold tbl, Rdiv; ring|cbn [D2Q19V st_D]; lia|vm_compute; reflexivity|exact (Hex _ Sy)].
  - apply (no_image (D3Q45 s) (s / sqrt 3) (tblQ D3Q45_dir) (fun a => a) (fun a => Nat.ltb a 2) 1 Hc) with (pi := pi);
      [cbn; lia|intros; cbn [D3Q45 st_e]; unfold tbl, Rdiv; ring|auto|vm_compute; reflexivity|exact Sy].
Qed.
