(** Cells of the quarter. *)
From Verif Require Import Prelude ModelSubdomain.
Local Open Scope R_scope.

Lemma loop_undefined ux uy n_q cells : (0 < n_q)%nat -> forall r, (exists c, In c cells /\ in_quarter c = true) -> enstrophy_loop ux uy None n_q cells r = UB.
Proof.
  intros Hq. induction cells as [|c l IH]; intros r (d & Hd & Q); [destruct Hd|]. cbn [enstrophy_loop]. destruct (in_quarter c) eqn:E.
  - destruct n_q as [|n]; [lia|]. cbn [points_loop]. destruct (e_dofs c); reflexivity.
  - apply IH. destruct Hd as [<-|Hd]; [rewrite Q in E; discriminate|exists d; split; assumption].
Qed.
Lemma loop_empty ux uy n_q cells : forall r, (forall c, In c cells -> in_quarter c = false) -> enstrophy_loop ux uy None n_q cells r = Ok r.
Proof.
  induction cells as [|c l IH]; intros r H; [reflexivity|]. cbn [enstrophy_loop]. rewrite (H c (or_introl eq_refl)). apply IH. intros d Hd. apply H. right. exact Hd.
Qed.
