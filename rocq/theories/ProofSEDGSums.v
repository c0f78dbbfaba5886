(** Discontinuous Galerkin operator: conservation and decay from pairs of faces. *)
From Coq Require Import Permutation.
From Verif Require Import Prelude BigSum ModelStencils ModelSemiLagrangian ModelSEDG SpecSEDG ProofSEDG ProofSEDGRate.
Local Open Scope R_scope.

Lemma total_perm {A} (l l' : list A) g : Permutation l l' -> total l g = total l' g.
Proof. induction 1; cbn [total]; lra. Qed.
Lemma total_map {A B} (h : A -> B) l g : total (map h l) g = total l (fun x => g (h x)).
Proof. induction l as [|x l IH]; cbn [map total]; [reflexivity|]. rewrite IH. reflexivity. Qed.
Lemma total_le {A} (l : list A) g h : (forall x, In x l -> g x <= h x) -> total l g <= total l h.
Proof. induction l as [|x l IH]; intros H; cbn [total]; [lra|]. assert (g x <= h x) by (apply H; left; reflexivity). assert (total l g <= total l h) by (apply IH; intros y Hy; apply H; right; exact Hy). lra. Qed.
Lemma total_involution {A} (l : list A) (s : A -> A) g : NoDup l -> (forall x, In x l -> In (s x) l) -> (forall x, In x l -> s (s x) = x) ->
  total l (fun x => g (s x)) = total l g.
Proof.
  intros Hn Hi Hs. rewrite <- (total_map s l g). apply total_perm. apply NoDup_Permutation.
  - assert (X : forall m, (forall x, In x m -> In x l) -> NoDup m -> NoDup (map s m)).
    { induction m as [|x m IH]; intros Hm Hd; cbn [map]; [constructor|]. inversion Hd; subst. constructor; [|apply IH; auto; intros; apply Hm; right; assumption].
      intros H. apply in_map_iff in H. destruct H as (y & E & Hy). assert (x = y); [|congruence]. rewrite <- (Hs x), <- (Hs y); [congruence| |]; apply Hm; [right; exact Hy|left; reflexivity]. }
    apply X; auto.
  - exact Hn.
  - intros x. rewrite in_map_iff. split.
    + intros (y & <- & Hy). apply Hi. exact Hy.
    + intros Hx. exists (s x). split; [apply Hs; exact Hx|apply Hi; exact Hx].
Qed.
(** The sum is half the sum over the pairs. *)
Lemma total_pairs {A} (l : list A) (s : A -> A) g : NoDup l -> (forall x, In x l -> In (s x) l) -> (forall x, In x l -> s (s x) = x) ->
  total l g = 1 / 2 * total l (fun x => g x + g (s x)).
Proof. intros. rewrite total_plus, (total_involution l s g) by assumption. lra. Qed.
Lemma total_prod {A B} (l : list A) (m : list B) g : total (list_prod l m) g = total l (fun x => total m (fun y => g (x, y))).
Proof. induction l as [|x l IH]; cbn [list_prod total]; [reflexivity|]. rewrite total_app, IH, total_map. reflexivity. Qed.
Lemma NoDup_list_prod {A B} (l : list A) (m : list B) : NoDup l -> NoDup m -> NoDup (list_prod l m).
Proof.
  intros Hl Hm. induction Hl as [|x l Hx Hl IH]; cbn [list_prod]; [constructor|].
  assert (M : NoDup (map (fun y => (x, y)) m)).
  { clear -Hm. induction Hm as [|y m Hy Hm IH]; cbn [map]; [constructor|]. constructor; [|exact IH]. intros H. apply in_map_iff in H. destruct H as (z & E & Hz). congruence. }
  revert M. assert (D : forall p, In p (map (fun y => (x, y)) m) -> ~ In p (list_prod l m)).
  { intros p Hp Hq. apply in_map_iff in Hp. destruct Hp as (y & <- & _). apply in_prod_iff in Hq. destruct Hq. contradiction. }
  revert D. generalize (map (fun y => (x, y)) m). induction l0 as [|p r IHr]; intros D M; cbn [app]; [exact IH|]. inversion M; subst. constructor.
  - intros H. apply in_app_iff in H. destruct H as [H|H]; [contradiction|]. apply (D p (or_introl eq_refl) H).
  - apply IHr; [|assumption]. intros z Hz. apply D. right. exact Hz.
Qed.

Section Sums.
  Context {cell : Type} (S : space cell) (qn : nat -> nat) (fd : nat -> nat -> nat) (st : stencil)
          (velocity : nat -> option (point -> point)) (cells : list cell).
  Hypothesis G : good_mesh S qn fd cells.
  Hypothesis Hsup : supported S velocity cells.
  Notation n := (dofs_per_cell S).
  Notation nf := (n_face_points S).
  Notation nF := (faces_per_cell S).
  Notation behindx := (behind S fd st velocity).
  Notation contr := (contribution S fd st false velocity).
  Notation nrate := (node_rate S qn fd st false velocity).
  Let Hco := gm_collocated _ _ _ _ G.

  Lemma contribution_upwind F a c f q : In c cells -> (f < nF)%nat ->
    contr F a c f q = (if Rlt_dec (outward S st a c f q) 0 then face_JxW S c f q * outward S st a c f q else 0) * (F a (dof_index S c (fd f q)) - behindx F a c f q).
  Proof.
    intros Hc Hf. unfold contribution, behind, shift, own, far, coefficients. destruct (at_face S c f) as [c' f'|b] eqn:E.
    - destruct (Rlt_dec _ _); cbn [fst snd]; ring.
    - destruct (velocity b) as [u|] eqn:Eu; [|elim (Hsup c f b Hc Hf E Eu)]. destruct (Rlt_dec _ _); cbn [fst snd]; ring.
  Qed.

  (** Testing with a function [g] of the nodes of the cell. *)
  Lemma test_faces c (g : nat -> R) (h : nat -> nat -> R) : In c cells ->
    sumf n (fun i => volume S qn c i * (g i * (1 / volume S qn c i * sumf nF (fun f => sumf nf (fun q => if Nat.eqb i (fd f q) then h f q else 0)))))
    = sumf nF (fun f => sumf nf (fun q => g (fd f q) * h f q)).
  Proof.
    intros Hc. rewrite (sumf_ext n _ (fun i => sumf nF (fun f => sumf nf (fun q => if Nat.eqb i (fd f q) then g i * h f q else 0)))).
    - rewrite (sumf_swap n nF). apply sumf_ext. intros f Hf. rewrite (sumf_swap n nf). apply sumf_ext. intros q Hq.
      rewrite (sumf_ext n _ (fun i => if Nat.eqb (fd f q) i then g i * h f q else 0)).
      + rewrite (sumf_one n (fd f q) (fun i => g i * h f q)) by (apply (co_face _ _ _ Hco); assumption). reflexivity.
      + intros i Hi. rewrite Nat.eqb_sym. reflexivity.
    - intros i Hi. assert (V := gm_volume _ _ _ _ G c _ Hc (co_point _ _ _ Hco i Hi)). fold (volume S qn c i) in V.
      replace (volume S qn c i * (g i * (1 / volume S qn c i * sumf nF (fun f => sumf nf (fun q => if Nat.eqb i (fd f q) then h f q else 0)))))
        with (g i * sumf nF (fun f => sumf nf (fun q => if Nat.eqb i (fd f q) then h f q else 0))) by (field; lra).
      rewrite <- sumf_scal. apply sumf_ext. intros f Hf. rewrite <- sumf_scal. apply sumf_ext. intros q Hq. destruct (Nat.eqb i (fd f q)); ring.
  Qed.

  Lemma cell_mass F a c : In c cells -> sumf n (fun i => volume S qn c i * nrate F c i a)
    = sumf nF (fun f => sumf nf (fun q => contr F a c f q - face_JxW S c f q * outward S st a c f q * F a (dof_index S c (fd f q)))).
  Proof.
    intros Hc. set (v := fun j => F a (dof_index S c j)).
    rewrite (sumf_ext n _ (fun i => volume S qn c i * (1 * (1 / volume S qn c i * sumf nF (fun f => sumf nf (fun q => if Nat.eqb i (fd f q) then contr F a c f q else 0))))
       - sumf (sp_dim S) (fun k => st_e st a k * (volume S qn c i * (1 * slope S qn c v i k + slope S qn c (fun _ => 1) i k * v i))))).
    2:{ intros i Hi. unfold node_rate. fold v.
        rewrite (sumf_ext (sp_dim S) (fun k => st_e st a k * (volume S qn c i * _)) (fun k => volume S qn c i * (st_e st a k * slope S qn c v i k))).
        - rewrite sumf_scal. ring.
        - intros k Hk. rewrite (gm_flat _ _ _ _ G c Hc i k Hi Hk). ring. }
    rewrite sumf_minus, (test_faces c (fun _ => 1) (fun f q => contr F a c f q) Hc), (sumf_swap n (sp_dim S)).
    rewrite (sumf_ext (sp_dim S) _ (fun k => sumf nF (fun f => sumf nf (fun q => st_e st a k * face_normal S c f q k * (face_JxW S c f q * v (fd f q)))))).
    - rewrite (sumf_swap (sp_dim S) nF), <- sumf_minus. apply sumf_ext. intros f Hf. rewrite (sumf_swap (sp_dim S) nf), <- sumf_minus. apply sumf_ext. intros q Hq.
      rewrite sumf_scal_r. unfold outward, v. rewrite (sumf_ext (sp_dim S) (fun k => st_e st a k * face_normal S c f q k) (fun k => face_normal S c f q k * st_e st a k)) by (intros; ring). ring.
    - intros k Hk. rewrite sumf_scal, (gm_parts _ _ _ _ G c Hc k (fun _ => 1) v Hk), <- sumf_scal. apply sumf_ext. intros f Hf. rewrite <- sumf_scal. apply sumf_ext. intros q Hq. ring.
  Qed.
  Lemma cell_energy F a c : In c cells -> sumf n (fun i => volume S qn c i * (F a (dof_index S c i) * nrate F c i a))
    = sumf nF (fun f => sumf nf (fun q => F a (dof_index S c (fd f q)) * contr F a c f q - 1 / 2 * (face_JxW S c f q * outward S st a c f q * (F a (dof_index S c (fd f q)) * F a (dof_index S c (fd f q)))))).
  Proof.
    intros Hc. set (v := fun j => F a (dof_index S c j)).
    rewrite (sumf_ext n _ (fun i => volume S qn c i * (v i * (1 / volume S qn c i * sumf nF (fun f => sumf nf (fun q => if Nat.eqb i (fd f q) then contr F a c f q else 0))))
       - sumf (sp_dim S) (fun k => 1 / 2 * st_e st a k * (volume S qn c i * (v i * slope S qn c v i k + slope S qn c v i k * v i))))).
    2:{ intros i Hi. unfold node_rate. fold v.
        rewrite (sumf_ext (sp_dim S) (fun k => 1 / 2 * st_e st a k * (volume S qn c i * _)) (fun k => volume S qn c i * v i * (st_e st a k * slope S qn c v i k))).
        - rewrite sumf_scal. change (F a (dof_index S c i)) with (v i). ring.
        - intros k Hk. field. }
    rewrite sumf_minus, (test_faces c v (fun f q => contr F a c f q) Hc), (sumf_swap n (sp_dim S)).
    rewrite (sumf_ext (sp_dim S) _ (fun k => sumf nF (fun f => sumf nf (fun q => st_e st a k * face_normal S c f q k * (1 / 2 * (face_JxW S c f q * (v (fd f q) * v (fd f q)))))))).
    - rewrite (sumf_swap (sp_dim S) nF), <- sumf_minus. apply sumf_ext. intros f Hf. rewrite (sumf_swap (sp_dim S) nf), <- sumf_minus. apply sumf_ext. intros q Hq.
      rewrite sumf_scal_r. unfold outward, v. rewrite (sumf_ext (sp_dim S) (fun k => st_e st a k * face_normal S c f q k) (fun k => face_normal S c f q k * st_e st a k)) by (intros; ring). ring.
    - intros k Hk. rewrite sumf_scal, (gm_parts _ _ _ _ G c Hc k v v Hk), <- sumf_scal. apply sumf_ext. intros f Hf. rewrite <- sumf_scal. apply sumf_ext. intros q Hq. ring.
  Qed.

  (** ** Pairs *)
  Hypothesis Hopp : forall a, (1 <= a < st_Q st)%nat -> exists b, st_opp st a = Some b /\ (1 <= b < st_Q st)%nat /\ st_opp st b = Some a /\
    st_w st b = st_w st a /\ forall k, (k < sp_dim S)%nat -> st_e st b k = - st_e st a k.
  Definition places : list (cell * nat * nat) := list_prod (list_prod cells (List.seq 0 nF)) (List.seq 1 (st_Q st - 1)).
  Definition partner (p : cell * nat * nat) : cell * nat * nat :=
    let '(c, f, a) := p in match at_face S c f with Beyond c' f' => (c', f', a) | Outside _ => (c, f, opposite st a) end.
  Lemma in_places c f a : In (c, f, a) places <-> In c cells /\ (f < nF)%nat /\ (1 <= a < st_Q st)%nat.
  Proof. unfold places. rewrite !in_prod_iff, !in_seq. intuition lia. Qed.
  Lemma places_nodup : NoDup places.
  Proof. unfold places. apply NoDup_list_prod; [apply NoDup_list_prod; [apply (gm_nodup _ _ _ _ G)|]|]; apply seq_NoDup. Qed.
  Lemma partner_in p : In p places -> In (partner p) places.
  Proof.
    destruct p as [[c f] a]. intros H. apply in_places in H. destruct H as (Hc & Hf & Ha). unfold partner. destruct (at_face S c f) as [c' f'|b] eqn:E.
    - destruct (gm_conforming _ _ _ _ G c f c' f' Hc Hf E) as (H1 & H2 & _). apply in_places. auto.
    - destruct (Hopp a Ha) as (b' & E1 & H1 & _). unfold opposite. rewrite E1. apply in_places. auto.
  Qed.
  Lemma partner_twice p : In p places -> partner (partner p) = p.
  Proof.
    destruct p as [[c f] a]. intros H. apply in_places in H. destruct H as (Hc & Hf & Ha). unfold partner. destruct (at_face S c f) as [c' f'|b] eqn:E.
    - destruct (gm_conforming _ _ _ _ G c f c' f' Hc Hf E) as (_ & _ & H3 & _). rewrite H3. reflexivity.
    - rewrite E. destruct (Hopp a Ha) as (b' & E1 & _ & E2 & _). unfold opposite. rewrite E1, E2. reflexivity.
  Qed.
  Lemma partner_outward p q : In p places -> (q < nf)%nat -> let '(c, f, a) := p in let '(c', f', a') := partner p in
    outward S st a' c' f' q = - outward S st a c f q /\ face_JxW S c' f' q = face_JxW S c f q.
  Proof.
    destruct p as [[c f] a]. intros H Hq. apply in_places in H. destruct H as (Hc & Hf & Ha). unfold partner. destruct (at_face S c f) as [c' f'|b] eqn:E.
    - destruct (gm_conforming _ _ _ _ G c f c' f' Hc Hf E) as (_ & _ & _ & H4). destruct (H4 q Hq) as [H5 H6]. split; [|exact H5].
      unfold outward. rewrite <- sumf_opp. apply sumf_ext. intros k Hk. rewrite H6 by exact Hk. ring.
    - destruct (Hopp a Ha) as (b' & E1 & _ & _ & _ & H4). unfold opposite. rewrite E1. split; [|reflexivity].
      unfold outward. rewrite <- sumf_opp. apply sumf_ext. intros k Hk. rewrite H4 by exact Hk. ring.
  Qed.
  Lemma sum_places (g : cell * nat * nat -> R) : total places g = sumf (st_Q st - 1) (fun a => total cells (fun c => sumf nF (fun f => g (c, f, Datatypes.S a)))).
  Proof.
    unfold places. rewrite total_prod.
    rewrite (total_ext _ _ (fun x => sumf (st_Q st - 1) (fun a => g (x, Datatypes.S a)))).
    - rewrite total_prod. rewrite (total_ext _ _ (fun c => sumf (st_Q st - 1) (fun a => sumf nF (fun f => g (c, f, Datatypes.S a))))).
      + generalize (st_Q st - 1)%nat. intros m. induction m as [|m IH]; cbn [sumf].
        * apply total_zero. reflexivity.
        * rewrite total_plus, IH. reflexivity.
      + intros c Hc. rewrite total_seq. apply sumf_swap.
    - intros x Hx. rewrite <- seq_shift, total_map, total_seq. reflexivity.
  Qed.
End Sums.
