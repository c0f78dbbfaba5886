(** Lemmas about checkpoint files and restored fields. *)
From Verif Require Import Prelude ModelText SpecText ProofText ModelStencils ModelConfigNames ModelEquilibria ModelCollision ModelSelection ModelRun ModelCheckpoint
  SpecStencils SpecCollision SpecSetup SpecCollideAll SpecCheckpoint BigSum ProofCollideNode ProofCollideAll ProofPhysical.
Open Scope R_scope.

Section History.
  Context {D : Type}.
  Notation request := (request D).
  Notation directory := (directory D).

  Lemma save_not1 : forall n st d (dir : directory), n <> 1%nat -> save n st d dir = Ok (write n false st d dir).
  Proof. intros n st d dir H. unfold save, checkpoint. apply Nat.eqb_neq in H. rewrite H. reflexivity. Qed.

  Lemma saves_ok : forall (h : list request) (dir : directory), (forall r, In r h -> iteration_of r <> 1%nat) ->
    exists dir', saves h dir = Ok dir'.
  Proof.
    induction h as [|[[m st] d] h IH]; intros dir H; cbn [saves]; [eauto|].
    rewrite save_not1 by (apply (H (m, st, d)); left; reflexivity). cbn [obind]. apply IH. intros; apply H; right; assumption.
  Qed.

  Lemma saves_app : forall (h1 h2 : list request) dir, saves (h1 ++ h2) dir = obind (saves h1 dir) (saves h2).
  Proof.
    induction h1 as [|[[m st] d] h1 IH]; intros h2 dir; cbn [app saves]; [reflexivity|].
    destruct (save m st d dir); cbn [obind]; auto.
  Qed.

  Lemma saves_others : forall (h : list request) dir dir' n, (forall r, In r h -> iteration_of r <> 1%nat) ->
    (forall r, In r h -> iteration_of r <> n) -> saves h dir = Ok dir' -> lookup dir' false n = lookup dir false n.
  Proof.
    induction h as [|[[m st] d] h IH]; intros dir dir' n H1 Hn E; cbn [saves] in E; [inversion E; reflexivity|].
    rewrite save_not1 in E by (apply (H1 (m, st, d)); left; reflexivity). cbn [obind] in E.
    rewrite (IH _ _ n (fun r Hr => H1 r (or_intror Hr)) (fun r Hr => Hn r (or_intror Hr)) E).
    unfold lookup, write. cbn [find]. unfold same_name at 1. cbn [fi_g fi_number Bool.eqb andb].
    destruct (Nat.eqb n m) eqn:En; [|reflexivity]. apply Nat.eqb_eq in En. exfalso. apply (Hn (m, st, d)); [left; reflexivity|]. symmetry. exact En.
  Qed.

  Lemma read_back : forall (h : list request) dir0 n st d t,
    (forall r, In r h -> iteration_of r <> 1%nat) -> latest n h st d -> restartable t = true ->
    exists dir, saves h dir0 = Ok dir /\ load n t (cs_order st) dir = Ok (printed st, d).
  Proof.
    intros h dir0 n st d t H1 (h1 & h2 & -> & Hl) Ht.
    destruct (saves_ok _ dir0 H1) as [dir Hdir]. exists dir. split; [exact Hdir|].
    assert (Hn : n <> 1%nat) by (apply (H1 (n, st, d)); apply in_or_app; right; left; reflexivity).
    rewrite saves_app in Hdir. destruct (saves h1 dir0) as [dir1| |]; try discriminate. cbn [obind saves] in Hdir.
    rewrite save_not1 in Hdir by exact Hn. cbn [obind] in Hdir.
    unfold load, checkpoint. apply Nat.eqb_neq in Hn. rewrite Hn. cbn [obind].
    rewrite (saves_others h2 _ _ n (fun r Hr => H1 r ltac:(apply in_or_app; right; right; exact Hr)) Hl Hdir).
    unfold lookup, write. cbn [find]. unfold same_name at 1. cbn [fi_g fi_number Bool.eqb andb]. rewrite Nat.eqb_refl.
    cbn [fi_status fi_data cs_order]. rewrite Nat.eqb_refl. destruct t; try discriminate; reflexivity.
  Qed.

  Lemma load_saved : forall n st (d : D) (dir : directory) t, restartable t = true -> n <> 1%nat ->
    exists dir', save n st d dir = Ok dir' /\ load n t (cs_order st) dir' = Ok (printed st, d).
  Proof.
    intros n st d dir t Ht Hn. destruct (read_back [(n, st, d)] dir n st d t) as (dir' & A & B); auto.
    - intros r [<-|[]]. exact Hn.
    - exists [], []. split; [reflexivity|]. intros r [].
    - exists dir'. split; [|exact B]. cbn [saves] in A. destruct (save n st d dir); cbn [obind] in A; congruence.
  Qed.

  Lemma load_throws : forall (dir : directory) n t order, restartable t = false -> load n t order dir = Throw \/ load n t order dir = UB.
  Proof.
    intros dir n t order Ht. unfold load. destruct (checkpoint n false dir) as [m| |]; cbn [obind]; auto.
    destruct (lookup dir false m) as [f|]; [|auto]. destruct (Nat.eqb _ order); [|auto].
    destruct t; try discriminate; left; reflexivity.
  Qed.

  Lemma load_throws' : forall (dir : directory) n t order, restartable t = false -> load n t order dir = Throw.
  Proof.
    intros dir n t order Ht. destruct (load_throws dir n t order Ht) as [H|H]; [exact H|].
    exfalso. revert H. unfold load.
    assert (Hc : checkpoint n false dir <> UB).
    { unfold checkpoint. destruct (Nat.eqb n 1); [|discriminate]. generalize (Ok n : outcome nat) (fun E : Ok n = UB => False_ind False (eq_ind (Ok n) (fun r => match r with UB => False | _ => True end) I UB E)).
      induction dir as [|f dir IH]; intros r Hr; cbn [fold_left]; [exact Hr|]. apply IH.
      destruct r; cbn [obind]; [destruct (Bool.eqb _ _); discriminate|discriminate|contradiction]. }
    destruct (checkpoint n false dir) as [m| |]; cbn [obind]; [|discriminate|contradiction].
    destruct (lookup dir false m) as [f|]; [|discriminate]. destruct (Nat.eqb _ order); [|discriminate].
    destruct t; try discriminate.
  Qed.
End History.

Definition st0 (i : nat) : status := {| cs_time := 0; cs_iteration := i; cs_scaling := 0; cs_order := 2 |}.
Lemma print_read_0 : print_read 0 = 0.
Proof. exact (print_0 6). Qed.

(** iteration 1 overwrites the checkpoint of iteration 5 *)
Lemma read_back_bad : exists (h : list (request nat)) n st d t dir st' d',
  latest n h st d /\ restartable t = true /\ saves h [] = Ok dir /\ load n t (cs_order st) dir = Ok (st', d') /\
  d' <> d /\ cs_iteration st' <> cs_iteration st.
Proof.
  exists [(5, st0 5, 50); (1, st0 1, 10)]%nat, 5%nat, (st0 5), 50%nat, Stencil_D2Q9.
  eexists; eexists; eexists. split; [exists [], [(1, st0 1, 10)]%nat; split; [reflexivity|]; intros r [<-|[]]; discriminate|].
  split; [reflexivity|split; [reflexivity|split; [reflexivity|split; discriminate]]].
Qed.

(** the checkpoint of iteration 1 cannot be read back *)
Lemma read_back_1_bad : exists (h : list (request nat)) st d t dir st' d',
  latest 1 h st d /\ restartable t = true /\ saves h [] = Ok dir /\ load 1 t (cs_order st) dir = Ok (st', d') /\ d' <> d.
Proof.
  exists [(1, st0 1, 10); (5, st0 5, 50)]%nat, (st0 1), 10%nat, Stencil_D2Q9.
  eexists; eexists; eexists. split; [exists [], [(5, st0 5, 50)]%nat; split; [reflexivity|]; intros r [<-|[]]; discriminate|].
  split; [reflexivity|split; [reflexivity|split; [reflexivity|discriminate]]].
Qed.

(** a directory with checkpoints of the compressible solver cannot be searched *)
Lemma compressible_latest_bad : forall (D : Type) n st (d g : D) dir t order, n <> 1%nat ->
  exists dir', save_compressible n st d g dir = Ok dir' /\ load 1 t order dir' = Throw /\
    (forall st1 d1 g1, save_compressible 1 st1 d1 g1 dir' = Throw).
Proof.
  intros D n st d g dir t order Hn.
  assert (Hc : checkpoint 1 false (write n true st g (write n false st d dir)) = Throw).
  { unfold checkpoint, write. cbn [Nat.eqb fold_left fi_g Bool.eqb obind].
    induction dir as [|f l IH]; [reflexivity|]. exact IH. }
  exists (write n true st g (write n false st d dir)). split; [|split].
  - unfold save_compressible, checkpoint. apply Nat.eqb_neq in Hn. rewrite Hn. reflexivity.
  - unfold load. rewrite Hc. reflexivity.
  - intros st1 d1 g1. unfold save_compressible. rewrite Hc. reflexivity.
Qed.

(** ** C21 *)
Lemma restored_density : forall st f n, fl_rho (restored_fields st f) n = mass st (f n).
Proof. reflexivity. Qed.
Lemma restored_velocity : forall st f n a, fl_u (restored_fields st f) n a = 0.
Proof. intros. cbn [restored_fields fl_u calculateDensityAndVelocity snd]. unfold calculateDensityAndVelocity. cbn [snd]. ring. Qed.

Lemma restored_velocity_bad : exists t f n a, dense (stencil_of t 1) (f n) /\ (a < st_D (stencil_of t 1))%nat /\
  fl_u (restored_fields (stencil_of t 1) f) n a <> momentum (stencil_of t 1) (f n) a / mass (stencil_of t 1) (f n).
Proof.
  exists Stencil_D2Q9, (fun _ i => match i with 1%nat => 1 | _ => 0 end), 0%nat, 0%nat.
  assert (Hm : mass (stencil_of Stencil_D2Q9 1) (fun i => match i with 1%nat => 1 | _ => 0 end) = 1) by (unfold mass; cbn [stencil_of D2Q9 st_Q sumf]; ring).
  split; [|split].
  - unfold dense. rewrite Hm. apply Rmult_le_reg_r with (10^10); [apply pow_lt; lra|]. unfold Rdiv. rewrite Rmult_assoc, Rinv_l by (apply pow_nonzero; lra).
    assert (1 <= 10^10) by (apply pow_R1_Rle; lra). lra.
  - cbn. lia.
  - rewrite restored_velocity, Hm. unfold momentum. cbn [stencil_of D2Q9 st_Q sumf st_e]. unfold tbl, tblQ. cbn [nth StencilData.D2Q9_dir].
    unfold Rdefinitions.Q2R. cbn [QArith_base.Qnum QArith_base.Qden]. lra.
Qed.

Lemma fields_after_collision : forall k q cfg t s nu dt nodes x y n,
  closed_form t = true -> s <> 0 -> carries_momentum q = true -> NoDup nodes -> In n nodes ->
  collideAll k q (make_genData cfg None (stencil_of t s) s nu dt) false nodes x = Ok y ->
  fl_rho y n = mass (stencil_of t s) (fl_f x n) /\
  forall a, (a < st_D (stencil_of t s))%nat -> fl_u y n a = momentum (stencil_of t s) (fl_f x n) a / mass (stencil_of t s) (fl_f x n).
Proof.
  intros k q cfg t s nu dt nodes x y n Ht Hs Hq Hnd Hn H.
  destruct (all_node_by_node _ _ _ _ _ _ _ Hnd H) as [Hd _]. destruct (Hd n Hn) as (o & Ho & _ & Er & Eu).
  destruct (collide_conserves _ _ _ _ _ _ _ _ _ _ Ht Hs Hq Ho) as (_ & Hr & Hu). rewrite Er, Eu. split; assumption.
Qed.

(** ** C23 *)
Lemma restart_stencil_bad : exists dim c q t run, selectCollision dim true t c q = (run, false) /\ run <> [] /\ restartable t = false.
Proof.
  first [exists 3%nat, BGK_STANDARD, QUARTIC_EQUILIBRIUM, Stencil_D3Q77; eexists; split; [reflexivity|split; [discriminate|reflexivity]]
        |exists 2%nat, BGK_STANDARD, QUARTIC_EQUILIBRIUM, Stencil_D2Q19H; eexists; split; [reflexivity|split; [discriminate|reflexivity]]].
Qed.

(** ** Time stamps *)
Lemma print_read_digit : forall x (n : Z), 1 <= x < 10 -> (IZR n - 1/2 <= x * 100000 < IZR n + 1/2) -> print_read x = IZR n / 100000.
Proof.
  intros x n Hx Hn. unfold print_read.
  assert (P : powerRZ 10 (6 - 1 - 0) = 100000) by (rewrite powerRZ10_Z by lia; reflexivity).
  rewrite (print_is 6 x 0 n); rewrite ?P; try lra. rewrite Rabs_right by lra. replace (powerRZ 10 0) with 1 by reflexivity.
  replace (powerRZ 10 (0 + 1)) with 10 by (cbn [powerRZ Z.add]; change (Pos.to_nat 1) with 1%nat; ring). exact Hx.
Qed.
Lemma time_text : forall t, (decimal 6 t -> print_read t = t) /\ Rabs (print_read t - t) <= 1/2 * powerRZ 10 (-5) * Rabs t.
Proof. intros t. split; [exact (print_decimal 6 t)|exact (print_accuracy 6 t)]. Qed.
Lemma time_lost : exists t, 0 < t /\ print_read t <> t.
Proof. exists (1 + 1/10000000). split; [lra|]. rewrite (print_read_digit _ 100000) by lra. lra. Qed.
Lemma time_kept_1 : print_read 1 = 1.
Proof. rewrite (print_read_digit _ 100000) by lra. lra. Qed.
