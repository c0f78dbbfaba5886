(** Derivatives of elementary expressions. *)
From Coq Require Import Reals Lra Lia.
From Verif Require Import SpecBenchmarks.
Local Open Scope R_scope.

Lemma dl_eq : forall f x l l', derivable_pt_lim f x l -> l = l' -> derivable_pt_lim f x l'.
Proof. intros; subst; assumption. Qed.

Lemma dl_ext : forall f g x l, (forall s, f s = g s) -> derivable_pt_lim f x l -> derivable_pt_lim g x l.
Proof.
  intros f g x l E H eps He. destruct (H eps He) as [d Hd]. exists d. intros h H0 H1.
  rewrite <- !E. apply Hd; assumption.
Qed.

Lemma dl_const : forall (c x : R), derivable_pt_lim (fun _ => c) x 0.
Proof. intros. apply (derivable_pt_lim_const c x). Qed.
Lemma dl_id : forall x, derivable_pt_lim (fun s => s) x 1.
Proof. intros. apply (derivable_pt_lim_id x). Qed.
Lemma dl_plus : forall f g x f' g', derivable_pt_lim f x f' -> derivable_pt_lim g x g' ->
  derivable_pt_lim (fun s => f s + g s) x (f' + g').
Proof. intros. apply (derivable_pt_lim_plus f g); assumption. Qed.
Lemma dl_minus : forall f g x f' g', derivable_pt_lim f x f' -> derivable_pt_lim g x g' ->
  derivable_pt_lim (fun s => f s - g s) x (f' - g').
Proof. intros. apply (derivable_pt_lim_minus f g); assumption. Qed.
Lemma dl_opp : forall f x f', derivable_pt_lim f x f' -> derivable_pt_lim (fun s => - f s) x (- f').
Proof. intros. apply (derivable_pt_lim_opp f); assumption. Qed.
Lemma dl_mult : forall f g x f' g', derivable_pt_lim f x f' -> derivable_pt_lim g x g' ->
  derivable_pt_lim (fun s => f s * g s) x (f' * g x + f x * g').
Proof. intros. apply (derivable_pt_lim_mult f g); assumption. Qed.
Lemma dl_divc : forall f c x f', derivable_pt_lim f x f' -> derivable_pt_lim (fun s => f s / c) x (f' / c).
Proof.
  intros. eapply dl_eq; [apply dl_mult; [eassumption|apply dl_const]|]. unfold Rdiv. ring.
Qed.
Lemma dl_comp : forall g f x f' g', derivable_pt_lim f x f' -> derivable_pt_lim g (f x) g' ->
  derivable_pt_lim (fun s => g (f s)) x (g' * f').
Proof. intros. apply (derivable_pt_lim_comp f g); assumption. Qed.
Lemma dl_sin : forall f x f', derivable_pt_lim f x f' -> derivable_pt_lim (fun s => sin (f s)) x (cos (f x) * f').
Proof. intros. apply (dl_comp sin f); [assumption|apply derivable_pt_lim_sin]. Qed.
Lemma dl_cos : forall f x f', derivable_pt_lim f x f' -> derivable_pt_lim (fun s => cos (f s)) x (- sin (f x) * f').
Proof. intros. apply (dl_comp cos f); [assumption|apply derivable_pt_lim_cos]. Qed.
Lemma dl_exp : forall f x f', derivable_pt_lim f x f' -> derivable_pt_lim (fun s => exp (f s)) x (exp (f x) * f').
Proof. intros. apply (dl_comp exp f); [assumption|apply derivable_pt_lim_exp]. Qed.

(** Computes a derivative. *)
Ltac dl :=
  lazymatch goal with
  | |- derivable_pt_lim (fun _ => ?c) _ _ => apply dl_const
  | |- derivable_pt_lim (fun s => s) _ _ => apply dl_id
  | |- derivable_pt_lim (fun s => @?f s + @?g s) ?x _ => apply (dl_plus f g x); dl
  | |- derivable_pt_lim (fun s => @?f s - @?g s) ?x _ => apply (dl_minus f g x); dl
  | |- derivable_pt_lim (fun s => - @?f s) ?x _ => apply (dl_opp f x); dl
  | |- derivable_pt_lim (fun s => @?f s * @?g s) ?x _ => apply (dl_mult f g x); dl
  | |- derivable_pt_lim (fun s => @?f s / ?c) ?x _ => apply (dl_divc f c x); dl
  | |- derivable_pt_lim (fun s => sin (@?f s)) ?x _ => apply (dl_sin f x); dl
  | |- derivable_pt_lim (fun s => cos (@?f s)) ?x _ => apply (dl_cos f x); dl
  | |- derivable_pt_lim (fun s => exp (@?f s)) ?x _ => apply (dl_exp f x); dl
  end.
Ltac deriv := eapply dl_eq; [dl|cbv beta].

(** Derivatives are unique. *)
Lemma dl_unique : forall f x l1 l2, derivable_pt_lim f x l1 -> derivable_pt_lim f x l2 -> l1 = l2.
Proof. intros f x l1 l2. apply uniqueness_limite. Qed.

Lemma d1_unique : forall u a b, d1 u a -> d1 u b -> forall x y t, a x y t = b x y t.
Proof. intros u a b H1 H2 x y t. eapply dl_unique; [apply H1|apply H2]. Qed.
Lemma d2_unique : forall u a b, d2 u a -> d2 u b -> forall x y t, a x y t = b x y t.
Proof. intros u a b H1 H2 x y t. eapply dl_unique; [apply H1|apply H2]. Qed.
Lemma d3_unique : forall u a b, d3 u a -> d3 u b -> forall x y t, a x y t = b x y t.
Proof. intros u a b H1 H2 x y t. eapply dl_unique; [apply H1|apply H2]. Qed.
Lemma d1_same : forall u v a, (forall x y t, u x y t = v x y t) -> d1 u a -> d1 v a.
Proof. intros u v a E H x y t. eapply dl_ext; [|apply H]. intros s; apply E. Qed.
Lemma d2_same : forall u v a, (forall x y t, u x y t = v x y t) -> d2 u a -> d2 v a.
Proof. intros u v a E H x y t. eapply dl_ext; [|apply H]. intros s; apply E. Qed.
Lemma d3_same : forall u v a, (forall x y t, u x y t = v x y t) -> d3 u a -> d3 v a.
Proof. intros u v a E H x y t. eapply dl_ext; [|apply H]. intros s; apply E. Qed.

(** Mean value theorem. *)
Lemma mean_value : forall f f' a b, a < b -> (forall y, a <= y <= b -> derivable_pt_lim f y (f' y)) ->
  exists c, f b - f a = f' c * (b - a) /\ a < c < b.
Proof. intros f f' a b H D. apply MVT_cor2; assumption. Qed.

(** Two functions with the same derivative on an interval differ by a constant. *)
Lemma same_derivative : forall f g h a b, (forall y, a <= y <= b -> derivable_pt_lim f y (h y)) ->
  (forall y, a <= y <= b -> derivable_pt_lim g y (h y)) ->
  forall y, a <= y <= b -> f y - g y = f a - g a.
Proof.
  intros f g h a b Hf Hg y Hy. destruct (Req_dec a y) as [->|N]; [reflexivity|].
  destruct (mean_value (fun s => f s - g s) (fun _ => 0) a y ltac:(lra)) as [c [E _]].
  - intros z Hz. eapply dl_eq; [apply dl_minus; [apply Hf; lra|apply Hg; lra]|]. ring.
  - lra.
Qed.

(** A function with positive derivative increases. *)
Lemma increasing_by_derivative : forall f f' a b, (forall y, a <= y <= b -> derivable_pt_lim f y (f' y)) ->
  (forall y, a <= y <= b -> 0 < f' y) -> forall x y, a <= x -> x < y -> y <= b -> f x < f y.
Proof.
  intros f f' a b D P x y H1 H2 H3.
  destruct (mean_value f f' x y H2) as [c [E Hc]].
  - intros z Hz; apply D; lra.
  - assert (0 < f' c * (y - x)) by (apply Rmult_lt_0_compat; [apply P; lra|lra]). lra.
Qed.
