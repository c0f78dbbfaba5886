(** collideAll acts node by node. *)
From Coq Require Import Permutation.
From Verif Require Import Prelude ModelStencils ModelConfigNames ModelEquilibria ModelCollision SpecCollideAll ProofCollideNode.
Open Scope R_scope.

Section All.
  Variables (k : T_collision) (q : T_equilibrium) (gd : genData) (init : bool).


  Lemma upd_same {A} (x : nat -> A) n v : upd x n v n = v.
  Proof. unfold upd. rewrite Nat.eqb_refl. reflexivity. Qed.
  Lemma upd_other {A} (x : nat -> A) n m v : m <> n -> upd x n v m = x m.
  Proof. intros H. unfold upd. destruct (Nat.eqb m n) eqn:E; [apply Nat.eqb_eq in E; contradiction|reflexivity]. Qed.

  Lemma loop_ok nodes : forall d s s' d', NoDup nodes ->
    collide_loop k q gd init nodes d s = Ok (s', d') ->
    (forall n, In n nodes -> node_done k q gd init s s' n) /\ (forall n, ~ In n nodes -> node_kept s s' n).
  Proof.
    induction nodes as [|m rest IH]; intros d s s' d' Hnd H; cbn [collide_loop] in H.
    - injection H as <- <-. split; [intros n []|intros; repeat split].
    - destruct (collide_node k q gd init (fl_f s m) (fl_u s m)) as [o| |] eqn:Ho; try discriminate. cbn [obind] in H.
      inversion Hnd as [|m' r' Hm Hnd']; subst.
      destruct (IH _ _ _ _ Hnd' H) as [H1 H2]. split.
      + intros n [<- | Hn].
        * destruct (H2 m Hm) as [E1 [E2 E3]]. cbn [fl_f fl_rho fl_u] in *. rewrite upd_same in E1; rewrite upd_same in E2; rewrite upd_same in E3.
          exists o. auto.
        * assert (Hne : n <> m) by (intros ->; contradiction).
          destruct (H1 n Hn) as [o' [Ho' [E1 [E2 E3]]]]. cbn [fl_f fl_u] in Ho'.
          rewrite (upd_other (fl_f s)), (upd_other (fl_u s)) in Ho' by assumption. exists o'. auto.
      + intros n Hn. assert (Hne : n <> m) by (intros ->; apply Hn; left; reflexivity).
        destruct (H2 n (fun Hx => Hn (or_intror Hx))) as [E1 [E2 E3]]. cbn [fl_f fl_rho fl_u] in *.
        rewrite upd_other in E1 by assumption; rewrite upd_other in E2 by assumption; rewrite upd_other in E3 by assumption. repeat split; assumption.
  Qed.

  Lemma loop_runs nodes : forall d s, NoDup nodes ->
    (forall n, In n nodes -> exists o, collide_node k q gd init (fl_f s n) (fl_u s n) = Ok o /\ 1 / 10^10 < no_rho o) ->
    exists s' d', collide_loop k q gd init nodes d s = Ok (s', d') /\ (nodes = [] /\ d' = d \/ 1 / 10^10 < d').
  Proof.
    induction nodes as [|m rest IH]; intros d s Hnd H; cbn [collide_loop].
    - exists s, d. auto.
    - destruct (H m (or_introl eq_refl)) as [o [Ho Hr]]. rewrite Ho. cbn [obind].
      inversion Hnd as [|m' r' Hm Hnd']; subst.
      match goal with |- context [collide_loop k q gd init rest (no_rho o) ?s1] =>
        destruct (IH (no_rho o) s1 Hnd') as [s' [d' [Hs' Hd']]] end.
      + intros n Hn. assert (Hne : n <> m) by (intros ->; contradiction). cbn [fl_f fl_u].
        rewrite (upd_other (fl_f s)), (upd_other (fl_u s)) by assumption. apply H. right. assumption.
      + exists s', d'. split; [assumption|]. right. destruct Hd' as [[_ ->]|Hd']; assumption.
  Qed.

  Lemma all_inv nodes s s' : collideAll k q gd init nodes s = Ok s' ->
    exists d, collide_loop k q gd init nodes 0 s = Ok (s', d) /\ 1 / 10^10 < d.
  Proof.
    unfold collideAll. destruct (collide_loop k q gd init nodes 0 s) as [[s1 d]| |]; try discriminate. cbn [obind snd fst].
    destruct (Rle_dec d (1 / 10^10)); [discriminate|]. intros H. injection H as <-. exists d. split; [reflexivity|lra].
  Qed.

  Lemma all_node_by_node nodes s s' : NoDup nodes -> collideAll k q gd init nodes s = Ok s' ->
    (forall n, In n nodes -> node_done k q gd init s s' n) /\ (forall n, ~ In n nodes -> node_kept s s' n).
  Proof. intros Hnd H. destruct (all_inv _ _ _ H) as [d [Hl _]]. eapply loop_ok; eassumption. Qed.


  Lemma all_runs nodes s : NoDup nodes -> nodes <> [] -> all_dense k q gd init nodes s ->
    exists s', collideAll k q gd init nodes s = Ok s'.
  Proof.
    intros Hnd Hne H. destruct (loop_runs nodes 0 s Hnd H) as [s' [d' [Hl Hd]]].
    exists s'. unfold collideAll. rewrite Hl. cbn [obind snd fst].
    destruct Hd as [[E _]|Hd]; [contradiction|]. destruct (Rle_dec d' (1 / 10^10)); [lra|reflexivity].
  Qed.



  Lemma NoDup_app_inv {A} (l1 l2 : list A) : NoDup (l1 ++ l2) ->
    NoDup l1 /\ NoDup l2 /\ forall x, In x l1 -> ~ In x l2.
  Proof.
    induction l1 as [|a l1 IH]; intros H; cbn in *.
    - split; [constructor|]. split; [assumption|]. intros x [].
    - inversion H as [|a' l' Ha Hnd]; subst. destruct (IH Hnd) as [H1 [H2 H3]]. split; [|split].
      + constructor; [|assumption]. intros Hx. apply Ha. apply in_or_app. left. assumption.
      + assumption.
      + intros x [<- | Hx]; [|auto]. intros Hy. apply Ha. apply in_or_app. right. assumption.
  Qed.

  Lemma ranks_ok ranks : forall s s', NoDup (concat ranks) -> run_ranks k q gd init ranks s = Ok s' ->
    (forall n, In n (concat ranks) -> node_done k q gd init s s' n) /\ (forall n, ~ In n (concat ranks) -> node_kept s s' n).
  Proof.
    induction ranks as [|r rest IH]; intros s s' Hnd H; cbn [run_ranks concat] in *.
    - injection H as <-. split; [intros n []|intros; repeat split].
    - destruct (collideAll k q gd init r s) as [s1| |] eqn:Hr; try discriminate. cbn [obind] in H.
      destruct (NoDup_app_inv _ _ Hnd) as [Hn1 [Hn2 Hdis]].
      destruct (all_node_by_node r s s1 Hn1 Hr) as [Hd1 Hk1]. destruct (IH s1 s' Hn2 H) as [Hd2 Hk2]. split.
      + intros n Hn. apply in_app_or in Hn. destruct Hn as [Hn|Hn].
        * destruct (Hd1 n Hn) as [o [Ho [E1 [E2 E3]]]]. destruct (Hk2 n (Hdis n Hn)) as [F1 [F2 F3]].
          exists o. rewrite F1, F2, F3. auto.
        * assert (Hnr : ~ In n r) by (intros Hx; exact (Hdis n Hx Hn)).
          destruct (Hk1 n Hnr) as [E1 [E2 E3]]. destruct (Hd2 n Hn) as [o [Ho [F1 [F2 F3]]]].
          rewrite E1, E3 in Ho. exists o. auto.
      + intros n Hn. destruct (Hk1 n (fun Hx => Hn (in_or_app _ _ _ (or_introl Hx)))) as [E1 [E2 E3]].
        destruct (Hk2 n (fun Hx => Hn (in_or_app _ _ _ (or_intror Hx)))) as [F1 [F2 F3]].
        unfold node_kept. rewrite F1, F2, F3. auto.
  Qed.

  Lemma ranks_run ranks : forall s, NoDup (concat ranks) -> (forall r, In r ranks -> r <> []) ->
    all_dense k q gd init (concat ranks) s -> exists s', run_ranks k q gd init ranks s = Ok s'.
  Proof.
    induction ranks as [|r rest IH]; intros s Hnd Hne H; cbn [run_ranks concat] in *.
    - eexists. reflexivity.
    - destruct (NoDup_app_inv _ _ Hnd) as [Hn1 [Hn2 Hdis]].
      destruct (all_runs r s Hn1 (Hne r (or_introl eq_refl)) (fun n Hn => H n (in_or_app _ _ _ (or_introl Hn)))) as [s1 Hs1].
      rewrite Hs1. cbn [obind]. apply IH; [assumption|intros; apply Hne; right; assumption|].
      intros n Hn. destruct (all_node_by_node r s s1 Hn1 Hs1) as [_ Hk].
      destruct (Hk n (fun Hx => Hdis n Hx Hn)) as [E1 [E2 E3]]. rewrite E1, E3. apply H. apply in_or_app. right. assumption.
  Qed.

  (** any two distributions of the same nodes give the same fields *)
  Lemma partition_independent ranks ranks' s s1 s2 :
    NoDup (concat ranks) -> Permutation (concat ranks) (concat ranks') ->
    run_ranks k q gd init ranks s = Ok s1 -> run_ranks k q gd init ranks' s = Ok s2 -> same_fields s1 s2.
  Proof.
    intros Hnd Hp H1 H2 n.
    destruct (ranks_ok ranks s s1 Hnd H1) as [D1 K1].
    destruct (ranks_ok ranks' s s2 (Permutation_NoDup Hp Hnd) H2) as [D2 K2].
    destruct (in_dec Nat.eq_dec n (concat ranks)) as [Hin|Hin].
    - destruct (D1 n Hin) as [o [Ho [E1 [E2 E3]]]].
      destruct (D2 n (Permutation_in n Hp Hin)) as [o' [Ho' [F1 [F2 F3]]]].
      rewrite Ho in Ho'. injection Ho' as <-. rewrite E1, E2, E3, F1, F2, F3. auto.
    - assert (Hin' : ~ In n (concat ranks')) by (intros Hx; apply Hin; apply (Permutation_in n (Permutation_sym Hp) Hx)).
      destruct (K1 n Hin) as [E1 [E2 E3]]. destruct (K2 n Hin') as [F1 [F2 F3]].
      rewrite E1, E2, E3, F1, F2, F3. auto.
  Qed.

  Lemma empty_rank_throws s : collideAll k q gd init [] s = Throw.
  Proof.
    unfold collideAll. cbn [collide_loop obind snd]. destruct (Rle_dec 0 (1 / 10^10)) as [H|H]; [reflexivity|].
    exfalso. apply H. apply Rlt_le. apply Rdiv_lt_0_compat; [lra|apply pow_lt; lra].
  Qed.
End All.
