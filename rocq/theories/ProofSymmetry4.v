(** Every exchange and reversal of axes is a symmetry of the cubic stencils. *)
From Coq Require Import QArith Qreals.
From Verif Require Import Prelude StencilData ModelStencils SpecStencils BigSum ProofStencils ModelEquilibria SpecSymmetry.
Open Scope R_scope.

Section Table.
Variables D n : nat.
Variable dir : list (list Q).
Variable wt : list Q.

Definition sq (b : bool) (x : Q) : Q := if b then x else (- x)%Q.
Definition image_row (p : list nat) (sg : list bool) (i a : nat) : Q := sq (nth a sg true) (tblQ dir i (nth a p 0%nat)).
Definition row_is (j : nat) (f : nat -> Q) : bool := forallb (fun a => qeqb (tblQ dir j a) (f a)) (seq 0 D).
Definition find_image (p : list nat) (sg : list bool) (i : nat) : option nat := find (fun j => row_is j (image_row p sg i)) (seq 0 n).
Definition image_ok (p : list nat) (sg : list bool) : bool :=
  forallb (fun i => match find_image p sg i with Some j => qeqb (nth j wt 0%Q) (nth i wt 0%Q) | None => false end) (seq 0 n).
Fixpoint lists {X} (l : list X) (d : nat) : list (list X) :=
  match d with O => [[]] | S d => flat_map (fun x => map (cons x) (lists l d)) l end.
Definition nodupb (l : list nat) : bool := forallb (fun i => forallb (fun j => negb (Nat.eqb (nth i l 0%nat) (nth j l 0%nat)) || Nat.eqb i j) (seq 0 D)) (seq 0 D).
Definition group_ok : bool :=
  forallb (fun p => negb (nodupb p) || forallb (image_ok p) (lists [true; false] D)) (lists (seq 0 D) D).
Definition distinct_ok : bool := forallb (fun i => forallb (fun j => negb (row_is j (tblQ dir i)) || Nat.eqb i j) (seq 0 n)) (seq 0 n).

Lemma lists_In {X} (l : list X) d x : length x = d -> (forall y, In y x -> In y l) -> In x (lists l d).
Proof.
  revert x. induction d as [|d IH]; intros [|y x] Hl Hu; cbn in Hl; try discriminate; [left; reflexivity|].
  cbn [lists]. apply in_flat_map. exists y. split; [apply Hu; left; reflexivity|]. apply in_map. apply IH; [lia|]. intros z Hz. apply Hu. right. assumption.
Qed.
Lemma row_is_true j f : row_is j f = true -> forall a, (a < D)%nat -> tblQ dir j a = f a.
Proof. unfold row_is. rewrite forallb_forall. intros H a Ha. apply qeqb_eq. apply H. apply in_seq. lia. Qed.
Lemma qeqb_refl x : qeqb x x = true.
Proof. unfold qeqb. rewrite Z.eqb_refl, Pos.eqb_refl. reflexivity. Qed.

Variable st : stencil.
Variable val wval : Q -> R.
Hypothesis HD : st_D st = D.
Hypothesis Hn : st_Q st = n.
Hypothesis He : forall i a, (i < n)%nat -> (a < D)%nat -> st_e st i a = val (tblQ dir i a).
Hypothesis Hw : forall i, (i < n)%nat -> st_w st i = wval (nth i wt 0%Q).
Hypothesis Hval : forall x, val (- x)%Q = - val x.
Hypothesis Hg : group_ok = true.
Hypothesis Hdist : distinct_ok = true.

Lemma nth_map_seq {X} (f : nat -> X) d a : (a < D)%nat -> nth a (map f (seq 0 D)) d = f a.
Proof. intros Ha. rewrite (nth_indep _ d (f 0%nat)) by (rewrite map_length, seq_length; assumption). rewrite map_nth, seq_nth by assumption. reflexivity. Qed.

Lemma sq_twice b x y : sq b x = sq b y -> x = y.
Proof. destruct b; cbn; [auto|]. intros H. assert (E : (- - x)%Q = (- - y)%Q) by (rewrite H; reflexivity). destruct x as [a d], y as [a' d']. unfold Qopp in E. cbn in E. rewrite !Z.opp_involutive in E. exact E. Qed.

Lemma table_group A : signed_permutation D A -> exists pi, symmetry st A pi.
Proof.
  intros (p & sg & Hp & Hinj & Hsg & HA).
  set (pl := map p (seq 0 D)). set (sl := map (fun a => if Rlt_dec 0 (sg a) then true else false) (seq 0 D)).
  exists (fun i => match find_image pl sl i with Some j => j | None => 0%nat end).
  assert (Hok : image_ok pl sl = true).
  { unfold group_ok in Hg. rewrite forallb_forall in Hg.
    assert (Hpl : In pl (lists (seq 0 D) D)).
    { apply lists_In; [unfold pl; rewrite map_length, seq_length; reflexivity|]. intros y Hy. apply in_map_iff in Hy. destruct Hy as (x & <- & Hx). apply in_seq in Hx. apply in_seq. pose proof (Hp x). lia. }
    specialize (Hg pl Hpl). apply orb_prop in Hg. destruct Hg as [K|K].
    - exfalso. apply negb_true_iff in K. apply not_true_iff_false in K. apply K. unfold nodupb. apply forallb_forall. intros i Hi. apply forallb_forall. intros j Hj.
      apply in_seq in Hi, Hj. unfold pl. rewrite !nth_map_seq by lia. destruct (Nat.eqb (p i) (p j)) eqn:E; [|reflexivity]. cbn. apply Nat.eqb_eq. apply Hinj; [lia|lia|]. apply Nat.eqb_eq. assumption.
    - rewrite forallb_forall in K. apply K. apply lists_In; [unfold sl; rewrite map_length, seq_length; reflexivity|]. intros [|] _; cbn; auto. }
  assert (Hfind : forall i, (i < n)%nat -> exists j, find_image pl sl i = Some j /\ (j < n)%nat /\ nth j wt 0%Q = nth i wt 0%Q /\
            forall a, (a < D)%nat -> tblQ dir j a = image_row pl sl i a).
  { intros i Hi. unfold image_ok in Hok. rewrite forallb_forall in Hok. specialize (Hok i ltac:(apply in_seq; lia)).
    destruct (find_image pl sl i) as [j|] eqn:E; [|discriminate]. exists j. split; [reflexivity|]. apply find_some in E. destruct E as [Hj Hr]. apply in_seq in Hj.
    split; [lia|]. split; [apply qeqb_eq; assumption|]. apply row_is_true. assumption. }
  assert (Hval' : forall i a, (i < n)%nat -> (a < D)%nat -> val (image_row pl sl i a) = sg a * st_e st i (p a)).
  { intros i a Hi Ha. unfold image_row, pl, sl. rewrite !nth_map_seq by assumption. rewrite (He i (p a) Hi (Hp a Ha)).
    destruct (Hsg a Ha) as [E|E]; rewrite E; destruct (Rlt_dec 0 _); try lra; cbn [sq]; rewrite ?Hval; ring. }
  constructor; rewrite ?HD, ?Hn.
  - intros a b Ha Hb. transitivity (sumf D (fun c => delta (p c) a * delta (p c) b)).
    { apply sumf_ext. intros c Hc. rewrite !HA by assumption. destruct (Hsg c Hc) as [E|E]; rewrite E; ring. }
    assert (Hsurj : sumf D (fun c => delta (p c) a * delta (p c) b) = sumf D (fun c => delta c a * delta c b)).
    { assert (HB : forall g, sumf D (fun i => g (p i)) = sumf D g).
      { intros g. rewrite !sumf_suml, <- (suml_map g p). apply suml_perm. apply Permutation.NoDup_Permutation_bis.
        - assert (H : forall l, NoDup l -> (forall x, In x l -> (x < D)%nat) -> NoDup (map p l)).
          { induction l as [|x l IH]; intros Hd Hl; [constructor|]. inversion Hd as [|? ? Hx Hd']; subst. cbn [map]. constructor.
            - intros Hin. apply in_map_iff in Hin. destruct Hin as (y & Hy & Hin). apply Hx.
              rewrite <- (Hinj y x); [assumption|apply Hl; right; assumption|apply Hl; left; reflexivity|assumption].
            - apply IH; [assumption|]. intros z Hz. apply Hl. right. assumption. }
          apply H; [apply seq_NoDup|]. intros x Hx. apply in_seq in Hx. lia.
        - rewrite map_length. reflexivity.
        - intros y Hy. apply in_map_iff in Hy. destruct Hy as (x & <- & Hx). apply in_seq in Hx. apply in_seq. pose proof (Hp x). lia. }
      apply (HB (fun c => delta c a * delta c b)). }
    rewrite Hsurj. transitivity (sumf D (fun c => delta a c * delta c b)); [apply sumf_ext; intros c _; rewrite (delta_sym c a); reflexivity|].
    apply (sumf_delta D a (fun c => delta c b)). assumption.
  - intros i Hi. destruct (Hfind i Hi) as (j & -> & Hj & _). assumption.
  - intros i j Hi Hj. destruct (Hfind i Hi) as (i' & -> & Hi' & _ & Ri). destruct (Hfind j Hj) as (j' & -> & Hj' & _ & Rj). intros <-.
    assert (Hrow : forall b, (b < D)%nat -> (exists a, (a < D)%nat /\ p a = b) -> tblQ dir j b = tblQ dir i b).
    { intros b Hb (a & Ha & <-). specialize (Ri a Ha). specialize (Rj a Ha). rewrite Ri in Rj. unfold image_row, pl in Rj. rewrite !nth_map_seq in Rj by assumption.
      apply sq_twice in Rj. symmetry. assumption. }
    assert (Hall : forall b, (b < D)%nat -> exists a, (a < D)%nat /\ p a = b).
    { intros b Hb. assert (Hin : In b (map p (seq 0 D))).
      { assert (Hincl : incl (seq 0 D) (map p (seq 0 D))).
        { apply NoDup_length_incl; [|rewrite map_length; lia|].
          - assert (H : forall l, NoDup l -> (forall x, In x l -> (x < D)%nat) -> NoDup (map p l)).
            { induction l as [|x l IH]; intros Hd Hl; [constructor|]. inversion Hd as [|? ? Hx Hd']; subst. cbn [map]. constructor.
              - intros Hin. apply in_map_iff in Hin. destruct Hin as (y & Hy & Hin). apply Hx.
                rewrite <- (Hinj y x); [assumption|apply Hl; right; assumption|apply Hl; left; reflexivity|assumption].
              - apply IH; [assumption|]. intros z Hz. apply Hl. right. assumption. }
            apply H; [apply seq_NoDup|]. intros x Hx. apply in_seq in Hx. lia.
          - intros y Hy. apply in_map_iff in Hy. destruct Hy as (x & <- & Hx). apply in_seq in Hx. apply in_seq. pose proof (Hp x). lia. }
        apply Hincl. apply in_seq. lia. }
      apply in_map_iff in Hin. destruct Hin as (a & Ha & Hin). apply in_seq in Hin. exists a. split; [lia|assumption]. }
    unfold distinct_ok in Hdist. rewrite forallb_forall in Hdist. specialize (Hdist i ltac:(apply in_seq; lia)).
    rewrite forallb_forall in Hdist. specialize (Hdist j ltac:(apply in_seq; lia)).
    assert (Hr : row_is j (tblQ dir i) = true).
    { unfold row_is. apply forallb_forall. intros a Ha. apply in_seq in Ha. rewrite (Hrow a) by (try apply Hall; lia). apply qeqb_refl. }
    rewrite Hr in Hdist. cbn in Hdist. apply Nat.eqb_eq. assumption.
  - intros i a Hi Ha. destruct (Hfind i Hi) as (j & -> & Hj & _ & Rj). rewrite (He j a Hj Ha), (Rj a Ha), (Hval' i a Hi Ha).
    unfold turned. transitivity (sg a * sumf D (fun b => delta (p a) b * st_e st i b)).
    + rewrite (sumf_delta D (p a) (fun b => st_e st i b)) by (apply Hp; assumption). reflexivity.
    + rewrite <- sumf_scal. apply sumf_ext. intros b Hb. rewrite (HA a b Ha Hb). ring.
  - intros i Hi. destruct (Hfind i Hi) as (j & -> & Hj & Ew & _). rewrite (Hw j Hj), (Hw i Hi), Ew. reflexivity.
Qed.
End Table.

(** The rows of D2Q25H with 1 for c_m and 2 for c_n, and its weight classes. *)
Definition code25 : list (list Q) :=
  [[0; 0]; [1; 0]; [0; 1]; [-(1); 0]; [0; -(1)];
   [1; 1]; [-(1); 1]; [-(1); -(1)]; [1; -(1)];
   [2; 0]; [0; 2]; [-(2); 0]; [0; -(2)];
   [2; 2]; [-(2); 2]; [-(2); -(2)]; [2; -(2)];
   [1; 2]; [1; -(2)]; [-(1); -(2)]; [-(1); 2];
   [2; 1]; [2; -(1)]; [-(2); -(1)]; [-(2); 1]]%Q.
Definition wcode25 : list Q := [0; 1; 1; 1; 1; 2; 2; 2; 2; 3; 3; 3; 3; 4; 4; 4; 4; 5; 5; 5; 5; 5; 5; 5; 5]%Q.
Definition val25 (s : R) (x : Q) : R :=
  match QArith_base.Qnum x with
  | 1%Z => s * sqrt (5 - sqrt 10) / sqrt 3
  | (-1)%Z => - (s * sqrt (5 - sqrt 10) / sqrt 3)
  | 2%Z => sqrt (5 + sqrt 10) * s / sqrt 3
  | (-2)%Z => - (sqrt (5 + sqrt 10) * s / sqrt 3)
  | _ => 0
  end.
Definition wval25 (x : Q) : R := nth (match QArith_base.Qnum x with 0%Z => 0 | 1%Z => 1 | 2%Z => 5 | 3%Z => 9 | 4%Z => 13 | _ => 17 end)%nat D2Q25H_wts 0.

Lemma val25_opp s x : val25 s (- x)%Q = - val25 s x.
Proof.
  destruct x as [a d]. unfold val25, Qopp. cbn [QArith_base.Qnum].
  destruct a as [|a|a]; cbn [Z.opp]; [ring| |]; destruct a as [[a|a|]|[a|a|]|]; ring.
Qed.

Lemma scale_opp c x : c * Q2R (- x)%Q = - (c * Q2R x). Proof. rewrite Q2R_opp. ring. Qed.

Lemma cubic_group t s A : cubic t = true -> signed_permutation (st_D (stencil_of t s)) A -> exists pi, symmetry (stencil_of t s) A pi.
Proof.
  intros Ht HA. destruct t; try discriminate Ht; cbn [stencil_of] in *.
  - apply (table_group 2 9 D2Q9_dir D2Q9_wt (D2Q9 s) (fun x => s * Q2R x) Q2R); [reflexivity|reflexivity|reflexivity|reflexivity|apply scale_opp|vm_compute; reflexivity|vm_compute; reflexivity|exact HA].
  - apply (table_group 3 19 D3Q19_dir D3Q19_wt (D3Q19 s) (fun x => s * Q2R x) Q2R); [reflexivity|reflexivity|reflexivity|reflexivity|apply scale_opp|vm_compute; reflexivity|vm_compute; reflexivity|exact HA].
  - apply (table_group 3 15 D3Q15_dir D3Q15_wt (D3Q15 s) (fun x => s * Q2R x) Q2R); [reflexivity|reflexivity|reflexivity|reflexivity|apply scale_opp|vm_compute; reflexivity|vm_compute; reflexivity|exact HA].
  - apply (table_group 3 27 D3Q27_dir D3Q27_wt (D3Q27 s) (fun x => s * Q2R x) Q2R); [reflexivity|reflexivity|reflexivity|reflexivity|apply scale_opp|vm_compute; reflexivity|vm_compute; reflexivity|exact HA].
  - apply (table_group 2 25 code25 wcode25 (D2Q25H s) (val25 s) wval25); [reflexivity|reflexivity| | |apply val25_opp|vm_compute; reflexivity|vm_compute; reflexivity|exact HA].
    + intros i a Hi Ha. do 25 (destruct i as [|i]; [do 2 (destruct a as [|a]; [reflexivity|]); lia|]). lia.
    + intros i Hi. do 25 (destruct i as [|i]; [reflexivity|]). lia.
  - apply (table_group 3 27 RD3Q27_dir RD3Q27_wt (RD3Q27 s) (fun x => s * Q2R x) Q2R); [reflexivity|reflexivity|reflexivity|reflexivity|apply scale_opp|vm_compute; reflexivity|vm_compute; reflexivity|exact HA].
  - apply (table_group 3 77 D3Q77_dir D3Q77_wt (D3Q77 s) (fun x => s * Q2R x / sqrt 3) Q2R); [reflexivity|reflexivity|reflexivity|reflexivity|intros x; rewrite Q2R_opp; unfold Rdiv; ring|vm_compute; reflexivity|vm_compute; reflexivity|exact HA].
  - apply (table_group 3 27 D3V27_dir D3V27_wt (D3V27 s) (fun x => s * Q2R x / sqrt 3) Q2R); [reflexivity|reflexivity|reflexivity|reflexivity|intros x; rewrite Q2R_opp; unfold Rdiv; ring|vm_compute; reflexivity|vm_compute; reflexivity|exact HA].
Qed.
