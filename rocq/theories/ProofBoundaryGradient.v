(** The gradients at the boundary are never computed. *)
From Verif Require Import Prelude ModelBoundaryGradient.
Local Open Scope R_scope.

Lemma cells_nothing ids n_q sol cells : forall n D, cells_loop ids n_q sol n cells D = Ok D.
Proof. induction cells as [|c l IH]; intros n D; [reflexivity|]. cbn [cells_loop]. destruct (negb (owned c)); [apply IH|]. cbn. apply IH. Qed.

Definition zero_state (s : cbg) : Prop := discontinuous s = Some (fun _ => 0) /\ continuous s = Some (fun _ => 0).

Lemma calculate_release ids n_q cells sol s : zero_state s -> exists s', cbg_calculate Release ids n_q cells sol s = Ok s' /\ zero_state s' /\ face_values s' = true.
Proof. intros [D C]. unfold cbg_calculate. rewrite D, C, cells_nothing. eexists. split; [reflexivity|]. repeat split. Qed.
Lemma calculate_debug ids n_q cells sol s : zero_state s -> cbg_calculate Debug ids n_q cells sol s = Throw.
Proof. intros [D C]. unfold cbg_calculate. rewrite D, C, cells_nothing. reflexivity. Qed.
Lemma face_release c f s : face_values s = true -> exists s', cbg_face Release c f s = Ok s' /\ (zero_state s -> zero_state s') /\ face_dofs s' = Some (dofs c).
Proof. intros H. unfold cbg_face. cbn [check]. rewrite H. eexists. split; [reflexivity|]. split; [exact (fun Z => Z)|reflexivity]. Qed.
Lemma face_debug c f s : cbg_face Debug c f s = Throw.
Proof. unfold cbg_face, check. destruct (owned c); [|reflexivity]. destruct (Nat.ltb f (length (face_ids c))); reflexivity. Qed.
Lemma component_zero shape q k ds : forall i, component_loop Release shape q k (fun _ => 0) i ds = Ok 0.
Proof.
  induction ds as [|d l IH]; intros i; [reflexivity|]. cbn [component_loop]. destruct (negb (Nat.eqb k 0)); [apply IH|].
  destruct (Rlt_dec _ _); [reflexivity|apply IH].
Qed.
