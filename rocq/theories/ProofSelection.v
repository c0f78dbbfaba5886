(** Exhaustive analysis of the collision selection. *)
From Verif Require Import Prelude ModelStencils ModelConfigNames ModelEquilibria ModelCollision ModelSelection SpecSelection.

Definition coll_eqb (x y : T_collision) : bool :=
  match x, y with
  | BGKCollision, BGKCollision | Regularized, Regularized | MultipleRelaxationTime, MultipleRelaxationTime => true
  | _, _ => false
  end.
Definition teq_eqb (x y : T_equilibrium) : bool :=
  match x, y with
  | BGKEquilibrium, BGKEquilibrium | QuarticEquilibrium, QuarticEquilibrium
  | SteadyStateEquilibrium, SteadyStateEquilibrium | IncompressibleEquilibrium, IncompressibleEquilibrium
  | EntropicEquilibrium, EntropicEquilibrium => true
  | _, _ => false
  end.

Definition exact_entry (c : CollisionSchemeName) (q : EquilibriumSchemeName) (e : entry) : bool :=
  match named_collision c, named_equilibrium q with
  | Some k, Some g => coll_eqb k (en_coll e) && teq_eqb g (en_eq e)
  | _, _ => false
  end.
Definition mismatchb (compressible : bool) (st : StencilType) (c : CollisionSchemeName) (q : EquilibriumSchemeName) : bool :=
  match compressible, st, c, q with
  | false, Stencil_D3Q45, BGK_STANDARD, QUARTIC_EQUILIBRIUM
  | false, Stencil_D3Q77, BGK_STANDARD, QUARTIC_EQUILIBRIUM
  | true, Stencil_D2Q25H, BGK_REGULARIZED, BGK_EQUILIBRIUM => true
  | _, _, _, _ => false
  end.
Definition sel_check dim comp st c q : bool :=
  match selectCollision dim comp st c q with
  | ([], true) => true
  | ([e], false) =>
      Nat.eqb (en_D e) (st_D (stencil_of st 1%R)) && Nat.eqb (en_Q e) (st_Q (stencil_of st 1%R)) && stencil_eqb st (en_stencil e)
      && (if mismatchb comp st c q then coll_eqb (en_coll e) BGKCollision && teq_eqb (en_eq e) BGKEquilibrium
          else exact_entry c q e)
  | _ => false
  end.

Lemma sel_check_ok dim comp st c q : (dim = 2 \/ dim = 3)%nat -> sel_check dim comp st c q = true.
Proof.
  intros [-> | ->]; destruct comp, st, c, q; reflexivity.
Qed.

Lemma coll_eqb_eq x y : coll_eqb x y = true -> x = y.
Proof. destruct x, y; cbn; intros; reflexivity || discriminate. Qed.
Lemma teq_eqb_eq x y : teq_eqb x y = true -> x = y.
Proof. destruct x, y; cbn; intros; reflexivity || discriminate. Qed.
Lemma stencil_eqb_eq x y : stencil_eqb x y = true -> x = y.
Proof. destruct x, y; cbn; intros; reflexivity || discriminate. Qed.
Lemma mismatchb_iff comp st c q : mismatchb comp st c q = true <-> mismatch comp st c q.
Proof.
  unfold mismatch. split.
  - destruct comp, st, c, q; cbn; intros H; try discriminate H; auto 8.
  - intros [[-> [[-> | ->] [-> ->]]]|[-> [-> [-> ->]]]]; reflexivity.
Qed.

Lemma selection_ok dim comp st c q run thr : (dim = 2 \/ dim = 3)%nat ->
  selectCollision dim comp st c q = (run, thr) ->
  (thr = true /\ run = []) \/
  (thr = false /\ exists e, run = [e] /\ en_stencil e = st /\
     en_D e = st_D (stencil_of st 1%R) /\ en_Q e = st_Q (stencil_of st 1%R) /\
     ((~ mismatch comp st c q /\ named_collision c = Some (en_coll e) /\ named_equilibrium q = Some (en_eq e)) \/
      (mismatch comp st c q /\ en_coll e = BGKCollision /\ en_eq e = BGKEquilibrium))).
Proof.
  intros Hd H. pose proof (sel_check_ok dim comp st c q Hd) as Hc. unfold sel_check in Hc. rewrite H in Hc.
  destruct run as [|e [|e' r]]; destruct thr; try discriminate Hc.
  - left. auto.
  - right. split; [reflexivity|]. exists e. split; [reflexivity|].
    apply andb_prop in Hc. destruct Hc as [Hc H4]. apply andb_prop in Hc. destruct Hc as [Hc H3].
    apply andb_prop in Hc. destruct Hc as [H1 H2]. apply Nat.eqb_eq in H1, H2. apply stencil_eqb_eq in H3.
    split; [auto|]. split; [assumption|]. split; [assumption|].
    destruct (mismatchb comp st c q) eqn:Em.
    + right. apply andb_prop in H4. destruct H4 as [Ha Hb]. apply coll_eqb_eq in Ha. apply teq_eqb_eq in Hb.
      split; [now apply mismatchb_iff|]. auto.
    + left. split; [intros Hx; apply mismatchb_iff in Hx; congruence|].
      unfold exact_entry in H4. destruct (named_collision c), (named_equilibrium q); try discriminate H4.
      apply andb_prop in H4. destruct H4 as [Ha Hb]. apply coll_eqb_eq in Ha. apply teq_eqb_eq in Hb. subst. auto.
Qed.

Lemma selection_refuted : exists dim comp st c q run, (dim = 2 \/ dim = 3)%nat /\ dim = st_D (stencil_of st 1%R) /\
  selectCollision dim comp st c q = (run, false) /\
  ~ exists e, run = [e] /\ named_collision c = Some (en_coll e) /\ named_equilibrium q = Some (en_eq e).
Proof.
  exists 3%nat, false, Stencil_D3Q45, BGK_STANDARD, QUARTIC_EQUILIBRIUM.
  eexists. split; [auto|]. split; [reflexivity|]. split; [reflexivity|].
  intros [e [He [_ Hq]]]. injection He as <-. discriminate Hq.
Qed.
