(** First crossed face. *)
From Verif Require Import Prelude BigSum ModelSemiLagrangian SpecSemiLagrangian.
Local Open Scope R_scope.

Lemma tol_small : 0 < tol < 1 / 100.
Proof. unfold tol. lra. Qed.

Lemma snap_close x : Rabs (snap x - x) < tol.
Proof.
  assert (T := tol_small). unfold snap.
  destruct (Rlt_dec (Rabs x) tol) as [H|H]; destruct (Rlt_dec _ tol) as [H'|H'].
  - exfalso. unfold Rabs in *. repeat destruct (Rcase_abs _); lra.
  - unfold Rabs in *. repeat destruct (Rcase_abs _); lra.
  - unfold Rabs in *. repeat destruct (Rcase_abs _); lra.
  - replace (x - x) with 0 by ring. rewrite Rabs_R0. lra.
Qed.
Lemma snap_cases x : (Rabs x < tol /\ snap x = 0) \/ (Rabs (x - 1) < tol /\ snap x = 1) \/
  (tol <= Rabs x /\ tol <= Rabs (x - 1) /\ snap x = x).
Proof.
  assert (T := tol_small). unfold snap.
  destruct (Rlt_dec (Rabs x) tol) as [H|H]; destruct (Rlt_dec _ tol) as [H'|H'].
  - exfalso. unfold Rabs in *. repeat destruct (Rcase_abs _); lra.
  - left; split; auto.
  - right; left; split; auto.
  - right; right. repeat split; lra.
Qed.
Lemma snap_inside x : 0 <= snap x <= 1 <-> - tol < x < 1 + tol.
Proof.
  assert (T := tol_small). destruct (snap_cases x) as [(A & ->)|[(A & ->)|(A & B & ->)]];
    unfold Rabs in *; repeat destruct (Rcase_abs _); split; intros; lra.
Qed.
Lemma snap_neg x : snap x < 0 <-> x <= - tol.
Proof.
  assert (T := tol_small). destruct (snap_cases x) as [(A & ->)|[(A & ->)|(A & B & ->)]];
    unfold Rabs in *; repeat destruct (Rcase_abs _); split; intros; lra.
Qed.
Lemma snap_above x : 1 < snap x <-> 1 + tol <= x.
Proof.
  assert (T := tol_small). destruct (snap_cases x) as [(A & ->)|[(A & ->)|(A & B & ->)]];
    unfold Rabs in *; repeat destruct (Rcase_abs _); split; intros; lra.
Qed.
Lemma snap_keeps x : 0 <= x <= 1 -> 0 <= snap x <= 1.
Proof. intros H. apply snap_inside. assert (T := tol_small). lra. Qed.
Lemma snap_0 : snap 0 = 0.
Proof. assert (T := tol_small). destruct (snap_cases 0) as [(A & ->)|[(A & B)|(A & B & ->)]]; auto. unfold Rabs in *; repeat destruct (Rcase_abs _); lra. Qed.
Lemma snap_1 : snap 1 = 1.
Proof. assert (T := tol_small). destruct (snap_cases 1) as [(A & B)|[(A & ->)|(A & B & ->)]]; auto. unfold Rabs in *; repeat destruct (Rcase_abs _); lra. Qed.

Lemma all_inside_iff dim x : all_inside dim x = true <-> inside dim x.
Proof.
  unfold inside. induction dim as [|k IH]; cbn [all_inside]; [split; [intros _ i Hi; lia|reflexivity]|].
  rewrite !andb_true_iff, IH. split.
  - intros [[H1 H2] H3] i Hi. destruct (Nat.eq_dec i k) as [->|N]; [|apply H1; lia].
    destruct (Rle_dec 0 (x k)); [|discriminate]. destruct (Rle_dec (x k) 1); [lra|discriminate].
  - intros H. split; [split|].
    + intros i Hi. apply H. lia.
    + assert (A := H k (Nat.lt_succ_diag_r k)). destruct (Rle_dec 0 (x k)); [reflexivity|lra].
    + assert (A := H k (Nat.lt_succ_diag_r k)). destruct (Rle_dec (x k) 1); [reflexivity|lra].
Qed.

Lemma lambda_ok (s pi po : R) : 0 <= pi <= 1 -> (s = 0 /\ po < 0) \/ (s = 1 /\ 1 < po) ->
  let l := (s - pi) / (po - pi) in
  checked_lambda s pi po = Ok l /\ 0 <= l <= 1 /\ pi + (po - pi) * l = s /\
  forall mu, 0 <= mu <= l -> 0 <= pi + mu * (po - pi) <= 1.
Proof.
  intros Hpi Hs l. assert (Hne : po - pi <> 0) by (destruct Hs as [[-> ?]|[-> ?]]; lra).
  assert (El : (po - pi) * l = s - pi) by (unfold l; field; exact Hne).
  assert (Hl : 0 <= l <= 1).
  { unfold l. destruct Hs as [[-> H]|[-> H]].
    - replace ((0 - pi) / (po - pi)) with (pi / (pi - po)) by (field; lra). split.
      + apply Rmult_le_pos; [lra|]. left. apply Rinv_0_lt_compat. lra.
      + apply Rmult_le_reg_r with (pi - po); [lra|]. unfold Rdiv. rewrite Rmult_assoc, Rinv_l by lra. lra.
    - split.
      + apply Rmult_le_pos; [lra|]. left. apply Rinv_0_lt_compat. lra.
      + apply Rmult_le_reg_r with (po - pi); [lra|]. unfold Rdiv. rewrite Rmult_assoc, Rinv_l by lra. lra. }
  split; [|split; [exact Hl|split; [lra|]]].
  - unfold checked_lambda. fold l. destruct (Rle_dec 0 l); [|lra]. destruct (Rle_dec l 1); [reflexivity|lra].
  - intros mu Hmu. destruct Hs as [[-> H]|[-> H]].
    + assert (A : mu * (pi - po) <= l * (pi - po)) by (apply Rmult_le_compat_r; lra).
      assert (B : 0 <= mu * (pi - po)) by (apply Rmult_le_pos; lra).
      assert (C : l * (pi - po) = pi) by lra. lra.
    + assert (A : mu * (po - pi) <= l * (po - pi)) by (apply Rmult_le_compat_r; lra).
      assert (B : 0 <= mu * (po - pi)) by (apply Rmult_le_pos; lra).
      assert (C : l * (po - pi) = 1 - pi) by lra. lra.
Qed.

Lemma convex (pi po mu : R) : 0 <= pi <= 1 -> 0 <= po <= 1 -> 0 <= mu <= 1 -> 0 <= pi + mu * (po - pi) <= 1.
Proof.
  intros. replace (pi + mu * (po - pi)) with ((1 - mu) * pi + mu * po) by ring.
  assert (0 <= (1 - mu) * pi) by (apply Rmult_le_pos; lra). assert (0 <= mu * po) by (apply Rmult_le_pos; lra).
  assert ((1 - mu) * pi <= (1 - mu) * 1) by (apply Rmult_le_compat_l; lra).
  assert (mu * po <= mu * 1) by (apply Rmult_le_compat_l; lra). lra.
Qed.

(** State after the first directions. *)
Definition dir_inv (n : nat) (pi po : point) (s : option nat * R) : Prop :=
  match fst s with
  | None => snd s = 100 /\ forall i, (i <= n)%nat -> 0 <= po i <= 1
  | Some f => 0 <= snd s <= 1 /\
      (exists d sd, (d <= n)%nat /\ is_face f d sd /\ pi d + (po d - pi d) * snd s = INR sd /\
         ((sd = 0%nat /\ po d < 0) \/ (sd = 1%nat /\ 1 < po d))) /\
      forall i, (i <= n)%nat -> forall mu, 0 <= mu <= snd s -> 0 <= pi i + mu * (po i - pi i) <= 1
  end.

Lemma direction0_ok pi po : 0 <= pi 0%nat <= 1 -> exists s, direction0 pi po = Ok s /\ dir_inv 0 pi po s.
Proof.
  intros H. unfold direction0. destruct (Rlt_dec (po 0%nat) 0) as [A|A].
  - destruct (lambda_ok 0 (pi 0%nat) (po 0%nat) H (or_introl (conj eq_refl A))) as (E & Hl & E1 & Hm). rewrite E. cbn [obind].
    eexists. split; [reflexivity|]. unfold dir_inv. cbn [fst snd]. split; [exact Hl|]. split.
    + exists 0%nat, 0%nat. split; [lia|]. split; [split; [reflexivity|auto]|]. split; [exact E1|left; auto].
    + intros i Hi. assert (i = 0%nat) by lia. subst. exact Hm.
  - destruct (Rlt_dec 1 (po 0%nat)) as [B|B].
    + destruct (lambda_ok 1 (pi 0%nat) (po 0%nat) H (or_intror (conj eq_refl B))) as (E & Hl & E1 & Hm). rewrite E. cbn [obind].
      eexists. split; [reflexivity|]. unfold dir_inv. cbn [fst snd]. split; [exact Hl|]. split.
      * exists 0%nat, 1%nat. split; [lia|]. split; [split; [reflexivity|auto]|]. split; [exact E1|right; auto].
      * intros i Hi. assert (i = 0%nat) by lia. subst. exact Hm.
    + eexists. split; [reflexivity|]. unfold dir_inv. cbn [fst snd]. split; [reflexivity|].
      intros i Hi. assert (i = 0%nat) by lia. subst. lra.
Qed.

Lemma dir_inv_up n pi po s : dir_inv n pi po s -> 0 <= pi (S n) <= 1 ->
  (forall mu, 0 <= mu <= snd s -> mu <= 1 -> 0 <= pi (S n) + mu * (po (S n) - pi (S n)) <= 1) ->
  (fst s = None -> 0 <= po (S n) <= 1) -> dir_inv (S n) pi po s.
Proof.
  intros H Hpi Hm Hn. unfold dir_inv in *. destruct (fst s) as [f|].
  - destruct H as (H1 & (d & sd & Hd & H2) & H3). split; [exact H1|]. split.
    + exists d, sd. split; [lia|exact H2].
    + intros i Hi mu Hmu. destruct (Nat.eq_dec i (S n)) as [->|N]; [apply Hm; lra|]. apply H3; [lia|exact Hmu].
  - destruct H as (H1 & H2). split; [exact H1|]. intros i Hi. destruct (Nat.eq_dec i (S n)) as [->|N]; [auto|]. apply H2. lia.
Qed.

Lemma dir_inv_100 n pi po s : dir_inv n pi po s -> (snd s = 100 /\ fst s = None) \/ (snd s <= 1 /\ fst s <> None).
Proof. unfold dir_inv. destruct (fst s); [right|left]; split; try tauto; try discriminate. Qed.

Lemma direction_side n pi po s sd : dir_inv n pi po s -> (forall i, (i <= S n)%nat -> 0 <= pi i <= 1) ->
  (sd = 0%nat /\ po (S n) < 0) \/ (sd = 1%nat /\ 1 < po (S n)) ->
  exists s', obind (checked_lambda (INR sd) (pi (S n)) (po (S n))) (fun l =>
    if Rlt_dec l (snd s) then Ok (Some (2 * S n + sd)%nat, l) else Ok s) = Ok s' /\ dir_inv (S n) pi po s'.
Proof.
  intros Hinv Hall Hsd. assert (Hpi := Hall (S n) (le_n _)).
  assert (Hs : (INR sd = 0 /\ po (S n) < 0) \/ (INR sd = 1 /\ 1 < po (S n))) by (destruct Hsd as [[-> H]|[-> H]]; [left|right]; split; auto).
  destruct (lambda_ok (INR sd) (pi (S n)) (po (S n)) Hpi Hs) as (E & Hl & E1 & Hm).
  rewrite E. cbn [obind]. set (l := (INR sd - pi (S n)) / (po (S n) - pi (S n))) in *.
  destruct (Rlt_dec l (snd s)) as [L|L].
  - eexists. split; [reflexivity|]. unfold dir_inv. cbn [fst snd]. split; [exact Hl|]. split.
    + exists (S n), sd. split; [lia|]. split; [split; [reflexivity|destruct Hsd as [[-> _]|[-> _]]; auto]|]. split; [exact E1|exact Hsd].
    + intros i Hi mu Hmu. destruct (Nat.eq_dec i (S n)) as [->|N]; [apply Hm; exact Hmu|].
      unfold dir_inv in Hinv. destruct (fst s) as [f|].
      * destruct Hinv as (H1 & _ & H3). apply H3; [lia|lra].
      * destruct Hinv as (H1 & H2). apply convex; [apply Hall; lia|apply H2; lia|lra].
  - eexists. split; [reflexivity|]. apply dir_inv_up; [exact Hinv|exact Hpi| |].
    + intros mu H1 H2. apply Hm. lra.
    + intros Hn. destruct (dir_inv_100 _ _ _ _ Hinv) as [[H1 _]|[_ H1]]; [lra|congruence].
Qed.

Lemma direction_ok n pi po s : dir_inv n pi po s -> (forall i, (i <= S n)%nat -> 0 <= pi i <= 1) ->
  exists s', direction (S n) pi po s = Ok s' /\ dir_inv (S n) pi po s'.
Proof.
  intros Hinv Hall. unfold direction. destruct (Rlt_dec (po (S n)) 0) as [A|A].
  - assert (H := direction_side n pi po s 0 Hinv Hall (or_introl (conj eq_refl A))).
    rewrite Nat.add_0_r in H. exact H.
  - destruct (Rlt_dec 1 (po (S n))) as [B|B].
    + exact (direction_side n pi po s 1 Hinv Hall (or_intror (conj eq_refl B))).
    + eexists. split; [reflexivity|]. apply dir_inv_up; [exact Hinv|apply Hall; lia| |intros; lra].
      intros mu H1 H2. apply convex; [apply Hall; lia|lra|lra].
Qed.

Lemma directions_ok n pi po : (forall i, (i <= n)%nat -> 0 <= pi i <= 1) ->
  exists s, directions n pi po = Ok s /\ dir_inv n pi po s.
Proof.
  induction n as [|n IH]; intros H; cbn [directions].
  - apply direction0_ok. apply H. lia.
  - destruct IH as (s & E & Hinv); [intros; apply H; lia|]. rewrite E. cbn [obind]. apply direction_ok; assumption.
Qed.

Lemma prodf_zero n f i : (i < n)%nat -> f i = 0 -> prodf n f = 0.
Proof.
  induction n as [|n IH]; intros Hi E; [lia|]. cbn [prodf]. destruct (Nat.eq_dec i n) as [->|N]; [rewrite E; ring|].
  rewrite IH by (auto; lia). ring.
Qed.

Lemma tol_eq : tol = 1 / 10 ^ 10.
Proof. reflexivity. Qed.

Lemma path_close a a' b b' mu : 0 <= mu <= 1 -> Rabs (a' - a) < tol -> Rabs (b' - b) < tol ->
  Rabs (a' + mu * (b' - a') - (a + mu * (b - a))) < tol.
Proof.
  intros Hmu Ha Hb. replace (a' + mu * (b' - a') - (a + mu * (b - a))) with ((1 - mu) * (a' - a) + mu * (b' - b)) by ring.
  apply Rle_lt_trans with ((1 - mu) * Rabs (a' - a) + mu * Rabs (b' - b)).
  - eapply Rle_trans; [apply Rabs_triang|]. rewrite !Rabs_mult, (Rabs_pos_eq (1 - mu)), (Rabs_pos_eq mu) by lra. lra.
  - destruct (Rle_lt_dec mu (1 / 2)) as [C|C].
    + assert ((1 - mu) * Rabs (a' - a) < (1 - mu) * tol) by (apply Rmult_lt_compat_l; lra).
      assert (mu * Rabs (b' - b) <= mu * tol) by (apply Rmult_le_compat_l; lra). lra.
    + assert ((1 - mu) * Rabs (a' - a) <= (1 - mu) * tol) by (apply Rmult_le_compat_l; lra).
      assert (mu * Rabs (b' - b) < mu * tol) by (apply Rmult_lt_compat_l; lra). lra.
Qed.

Theorem crossed_unit_spec dim pi po : (0 < dim)%nat -> nearly_inside dim pi ->
  exists r, crossed_unit dim pi po = Ok r /\ (r = None <-> nearly_inside dim po) /\
    forall k, r = Some k -> exists d s, (d < dim)%nat /\ is_face (cr_face k) d s /\ beyond po d s /\
      cr_point k d = INR s /\ inside dim (cr_point k) /\ 0 <= cr_lambda k <= 1 /\
      (forall i, (i < dim)%nat -> Rabs (cr_point k i - along pi po (cr_lambda k) i) < 2 / 10 ^ 10) /\
      (forall mu, 0 <= mu <= cr_lambda k -> nearly_inside dim (along pi po mu)).
Proof.
  intros Hd Hpi. unfold crossed_unit.
  assert (Hin : inside dim (snap_point pi)) by (intros i Hi; apply snap_inside; apply Hpi; exact Hi).
  assert (E := proj2 (all_inside_iff dim (snap_point pi)) Hin). rewrite E. clear E.
  destruct (directions_ok (dim - 1) (snap_point pi) (snap_point po)) as (s & E & Hinv); [intros i Hi; apply Hin; lia|].
  rewrite E. cbn [obind]. unfold dir_inv in Hinv. destruct (fst s) as [f|] eqn:Ef.
  - destruct Hinv as (Hl & (d & sd & Hdn & Hf & Hpt & Hout) & Hpath).
    set (h := snap_point _). assert (Ed : h d = INR sd).
    { unfold h, snap_point at 1. fold (snap_point pi d) (snap_point po d). cbn beta. rewrite Hpt.
      destruct Hout as [[-> _]|[-> _]]; [exact snap_0|exact snap_1]. }
    assert (Hh : inside dim h).
    { intros i Hi. apply snap_keeps. rewrite (Rmult_comm _ (snd s)). apply Hpath; [lia|lra]. }
    assert (Ez : prodf dim h * prodf dim (fun i => 1 - h i) = 0).
    { destruct Hout as [[-> _]|[-> _]].
      - rewrite (prodf_zero dim h d) by (auto; lia). ring.
      - rewrite (prodf_zero dim (fun i => 1 - h i) d); [ring|lia|]. rewrite Ed. cbn. ring. }
    destruct (Req_EM_T _ 0) as [_|N]; [|contradiction]. eexists. split; [reflexivity|]. split.
    + split; [discriminate|]. intros Hpo. exfalso. assert (A := Hpo d ltac:(lia)). fold tol in A. apply snap_inside in A.
      unfold snap_point in Hout. destruct Hout as [[_ H]|[_ H]]; lra.
    + intros k Ek. injection Ek as <-. cbn [cr_face cr_lambda cr_point].
      exists d, sd. split; [lia|]. split; [exact Hf|]. split.
      { unfold beyond, snap_point in *. destruct Hout as [[-> H]|[-> H]]; cbn [Nat.eqb]; fold tol; [apply snap_neg|apply snap_above]; exact H. }
      split; [exact Ed|]. split; [exact Hh|]. split; [exact Hl|]. split.
      * intros i Hi. unfold along. fold tol.
        assert (A := snap_close (snap_point pi i + (snap_point po i - snap_point pi i) * snd s)).
        assert (B := path_close (pi i) (snap_point pi i) (po i) (snap_point po i) (snd s) Hl (snap_close (pi i)) (snap_close (po i))).
        unfold h, snap_point at 1. cbn beta. set (y := snap (snap_point pi i + (snap_point po i - snap_point pi i) * snd s)) in *.
        replace (2 / 10 ^ 10) with (tol + tol) by (unfold tol; field; apply pow_nonzero; lra).
        rewrite (Rmult_comm (snap_point po i - snap_point pi i) (snd s)) in A.
        replace (y - (pi i + snd s * (po i - pi i))) with
          ((y - (snap_point pi i + snd s * (snap_point po i - snap_point pi i))) +
           (snap_point pi i + snd s * (snap_point po i - snap_point pi i) - (pi i + snd s * (po i - pi i)))) by ring.
        eapply Rle_lt_trans; [apply Rabs_triang|]. apply Rplus_lt_compat; assumption.
      * intros mu Hmu i Hi. unfold along. fold tol.
        assert (A := Hpath i ltac:(lia) mu Hmu).
        assert (B := path_close (pi i) (snap_point pi i) (po i) (snap_point po i) mu ltac:(lra) (snap_close (pi i)) (snap_close (po i))).
        apply Rabs_def2 in B. split; lra.
  - eexists. split; [reflexivity|]. split; [|discriminate]. split; [|reflexivity]. intros _ i Hi. fold tol. apply snap_inside.
    apply (proj2 Hinv). lia.
Qed.

(** ** Without mapping *)
Section Planes.
  Context {cell : Type} (M : mesh cell) (c : cell) (sign : nat -> R) (pin pout : point).
  Let D := dim M.
  Let g := side D (face_plane M c) sign.
  Hypothesis Hsign : is_sign D sign.
  Hypothesis Hin : strictly_in_cell D (face_plane M c) sign pin.

  Lemma side_along f l : g f (along pin pout l) = g f pin + l * (g f pout - g f pin).
  Proof.
    unfold g, side, along, dot.
    replace (sumf D (fun a => (pin a + l * (pout a - pin a) - fst (face_plane M c f) a) * snd (face_plane M c f) a)) with
      (sumf D (fun a => (pin a - fst (face_plane M c f) a) * snd (face_plane M c f) a) +
       l * (sumf D (fun a => (pout a - fst (face_plane M c f) a) * snd (face_plane M c f) a) -
            sumf D (fun a => (pin a - fst (face_plane M c f) a) * snd (face_plane M c f) a))).
    - ring.
    - rewrite <- sumf_minus, <- sumf_scal, <- sumf_plus. apply sumf_ext. intros; ring.
  Qed.

  (** lambda of a plane in terms of [g]. *)
  Lemma plane_lambda_side f : (f < 2 * D)%nat ->
    plane_lambda M (fst (face_plane M c f)) (snd (face_plane M c f)) pin pout
    = if Req_EM_T (g f pin - g f pout) 0 then None else Some (g f pin / (g f pin - g f pout)).
  Proof.
    intros Hf. unfold plane_lambda.
    assert (E : g f pin - g f pout = sign f * dot (dim M) (fun i => pin i - pout i) (snd (face_plane M c f))).
    { unfold g, side, dot. fold D. rewrite <- Rmult_minus_distr_l, <- sumf_minus. f_equal. apply sumf_ext. intros; ring. }
    assert (S := Hsign f Hf). assert (Hs : sign f <> 0) by (destruct S as [-> | ->]; lra).
    destruct (Req_EM_T (dot _ _ _) 0) as [Z|Z]; destruct (Req_EM_T (g f pin - g f pout) 0) as [Z'|Z'].
    - reflexivity.
    - exfalso. apply Z'. rewrite E, Z. ring.
    - exfalso. apply Z. rewrite E in Z'. apply Rmult_integral in Z'. destruct Z'; [contradiction|assumption].
    - f_equal. rewrite E. unfold g, side. fold D. field. split; assumption.
  Qed.

  (** A face is selectable iff the end point is beyond it. *)
  Lemma lambda_range f : (f < 2 * D)%nat -> g f pin - g f pout <> 0 ->
    let l := g f pin / (g f pin - g f pout) in
    (0 < g f pout -> 0 < l < 1 /\ g f pin + l * (g f pout - g f pin) = 0) /\ (g f pout <= 0 -> l < 0 \/ 1 <= l).
  Proof.
    intros Hf Hne l. assert (Hp := Hin f Hf). fold g in Hp.
    assert (El : l * (g f pin - g f pout) = g f pin) by (unfold l; field; exact Hne).
    split.
    - intros Ho. split; [|lra]. unfold l.
      replace (g f pin / (g f pin - g f pout)) with ((- g f pin) / (g f pout - g f pin)) by (field; lra). split.
      + apply Rmult_lt_0_compat; [lra|]. apply Rinv_0_lt_compat. lra.
      + apply Rmult_lt_reg_r with (g f pout - g f pin); [lra|]. unfold Rdiv. rewrite Rmult_assoc, Rinv_l by lra. lra.
    - intros Ho. destruct (Rlt_dec (g f pin - g f pout) 0) as [N|N].
      + right. apply Rmult_le_reg_r with (g f pout - g f pin); [lra|]. replace (l * (g f pout - g f pin)) with (- g f pin) by lra. lra.
      + left. apply Rmult_lt_reg_r with (g f pin - g f pout); [lra|]. rewrite El. lra.
  Qed.

  Definition plane_inv (n : nat) (s : R * nat) : Prop :=
    0 < fst s <= 1 /\
    (fst s = 1 -> forall f, (f < n)%nat -> g f pout <= 0) /\
    (fst s < 1 -> (snd s < n)%nat /\ 0 < g (snd s) pout /\ g (snd s) pin + fst s * (g (snd s) pout - g (snd s) pin) = 0) /\
    (forall f, (f < n)%nat -> g f pin + fst s * (g f pout - g f pin) <= 0).

  Lemma try_faces_inv n : (n <= 2 * D)%nat -> plane_inv n (try_faces M c n pin pout).
  Proof.
    induction n as [|n IH]; intros Hn; cbn [try_faces].
    - unfold plane_inv. cbn [fst snd]. repeat split; try lra; try lia; intros; try lia; lra.
    - specialize (IH ltac:(lia)). set (s := try_faces M c n pin pout) in *. unfold try_face.
      rewrite plane_lambda_side by lia. assert (Hp := Hin n ltac:(lia)). fold g in Hp.
      destruct IH as (H1 & H2 & H3 & H4).
      (* a state that is kept *)
      assert (Keep : (fst s = 1 -> g n pout <= 0) -> g n pin + fst s * (g n pout - g n pin) <= 0 -> plane_inv (S n) s).
      { intros K1 K2. split; [exact H1|]. split; [|split].
        - intros E f Hf. destruct (Nat.eq_dec f n) as [->|N]; [auto|apply H2; [exact E|lia]].
        - intros L. destruct (H3 L) as (A & B & C). repeat split; [lia|exact B|exact C].
        - intros f Hf. destruct (Nat.eq_dec f n) as [->|N]; [exact K2|apply H4; lia]. }
      assert (KeepIn : g n pout <= 0 -> plane_inv (S n) s).
      { intros Ho. apply Keep; [auto|]. assert (A : 0 <= (1 - fst s) * - g n pin) by (apply Rmult_le_pos; lra).
        assert (B : 0 <= fst s * - g n pout) by (apply Rmult_le_pos; lra). lra. }
      destruct (Req_EM_T (g n pin - g n pout) 0) as [Z|Z]; [apply KeepIn; lra|].
      destruct (lambda_range n ltac:(lia) Z) as [R1 R2].
      set (l := g n pin / (g n pin - g n pout)) in *.
      destruct (Rlt_dec l 0) as [L|L].
      + apply KeepIn. destruct (Rle_lt_dec (g n pout) 0) as [Y|Y]; [exact Y|]. destruct (R1 Y). lra.
      + destruct (Rlt_dec l (fst s)) as [L'|L'].
        * assert (Ho : 0 < g n pout). { destruct (Rle_lt_dec (g n pout) 0) as [Y|Y]; [|exact Y]. destruct (R2 Y); lra. }
          destruct (R1 Ho) as [R3 R4]. unfold plane_inv. cbn [fst snd].
          split; [lra|]. split; [intros E; lra|]. split; [intros _; split; [lia|split; [exact Ho|exact R4]]|].
          intros f Hf. destruct (Nat.eq_dec f n) as [->|N]; [lra|].
          assert (Hf' : (f < n)%nat) by lia. assert (A := H4 f Hf'). assert (B := Hin f ltac:(lia)). fold g in B.
          assert (C : 0 <= (fst s - l) * - g f pin) by (apply Rmult_le_pos; lra).
          assert (E : 0 <= l * - (g f pin + fst s * (g f pout - g f pin))) by (apply Rmult_le_pos; lra).
          assert (F : fst s * (g f pin + l * (g f pout - g f pin)) <= 0) by lra.
          destruct (Rle_lt_dec (g f pin + l * (g f pout - g f pin)) 0) as [G|G]; [exact G|].
          assert (0 < fst s * (g f pin + l * (g f pout - g f pin))) by (apply Rmult_lt_0_compat; lra). lra.
        * apply Rnot_lt_le in L'. destruct (Rle_lt_dec (g n pout) 0) as [Y|Y]; [apply KeepIn; exact Y|].
          destruct (R1 Y) as [R3 R4]. apply Keep.
          -- intros E. lra.
          -- assert (A : 0 <= (l - fst s) * (g n pout - g n pin)) by (apply Rmult_le_pos; lra). lra.
  Qed.

  Theorem without_mapping_spec : (forall x, to_unit M c x <> None) ->
    exists r, withoutMapping M c pin pout = Ok r /\ (r = None <-> in_cell D (face_plane M c) sign pout) /\
      forall k, r = Some k -> (cr_face k < 2 * D)%nat /\ 0 < cr_lambda k < 1 /\
        side D (face_plane M c) sign (cr_face k) pout > 0 /\
        side D (face_plane M c) sign (cr_face k) (cr_point k) = 0 /\
        (forall i, cr_point k i = along pin pout (cr_lambda k) i) /\
        (forall mu, 0 <= mu <= cr_lambda k -> in_cell D (face_plane M c) sign (along pin pout mu)).
  Proof.
    intros Hmap. destruct (try_faces_inv (2 * D) (le_n _)) as (H1 & H2 & H3 & H4). unfold withoutMapping. fold D.
    set (s := try_faces M c (2 * D) pin pout) in *. destruct (Req_EM_T (fst s) 1) as [E|E].
    - eexists. split; [reflexivity|]. split; [|discriminate]. split; [|reflexivity]. intros _ f Hf. apply H2; assumption.
    - assert (L : fst s < 1) by lra. destruct (H3 L) as (A & B & C).
      destruct (to_unit M c _) as [u|] eqn:Eu; [|exfalso; exact (Hmap _ Eu)].
      eexists. split; [reflexivity|]. split.
      + split; [discriminate|]. intros Hc. assert (X := Hc (snd s) A). fold (g (snd s) pout) in X. lra.
      + intros k Ek. injection Ek as <-. cbn [cr_face cr_lambda cr_point]. split; [exact A|]. split; [lra|]. split; [exact B|].
        assert (Hp : forall i, pin i + (pout i - pin i) * fst s = along pin pout (fst s) i) by (intros; unfold along; ring).
        split; [|split; [exact Hp|]].
        * transitivity (g (snd s) (along pin pout (fst s))).
          -- unfold g, side. f_equal. apply sumf_ext. intros i _. rewrite Hp. reflexivity.
          -- rewrite side_along. exact C.
        * intros mu Hmu f Hf. fold (g f (along pin pout mu)). rewrite side_along.
          assert (X := H4 f Hf). assert (Y := Hin f Hf). fold (g f pin) in Y.
          destruct (Rle_lt_dec (g f pout) (g f pin)) as [Z|Z].
          -- assert (0 <= mu * - (g f pout - g f pin)) by (apply Rmult_le_pos; lra). lra.
          -- assert (0 <= (fst s - mu) * (g f pout - g f pin)) by (apply Rmult_le_pos; lra). lra.
  Qed.
End Planes.
