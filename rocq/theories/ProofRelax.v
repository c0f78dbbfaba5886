(** Moments of the relaxation schemes in lattice units. *)
From Coq Require Import QArith Qreals.
From Verif Require Import Prelude StencilData MRTData ModelStencils SpecStencils SpecCollision BigSum ProofStencils
  ProofWick ModelConfigNames ModelEquilibria ModelCollision ProofEquilibria ProofQuartic ProofEqMoments.
Open Scope R_scope.

(** ** BGK *)
Lemma bgk_relax_mass L tau f feq :
  mass L (relax_BGK tau f feq) = mass L f - 1 / tau * (mass L f - mass L feq).
Proof. unfold mass, relax_BGK. rewrite sumf_minus, sumf_scal, sumf_minus. reflexivity. Qed.
Lemma bgk_relax_momentum L tau f feq a :
  momentum L (relax_BGK tau f feq) a = momentum L f a - 1 / tau * (momentum L f a - momentum L feq a).
Proof.
  unfold momentum. rewrite <- sumf_minus, <- sumf_scal, <- sumf_minus. apply sumf_ext. intros. unfold relax_BGK. ring.
Qed.
Lemma bgk_relax_moment2 L tau f feq a b :
  moment2 L (relax_BGK tau f feq) a b = moment2 L f a b - 1 / tau * (moment2 L f a b - moment2 L feq a b).
Proof.
  unfold moment2. rewrite <- sumf_minus, <- sumf_scal, <- sumf_minus. apply sumf_ext. intros. unfold relax_BGK. ring.
Qed.

(** ** Regularized *)
Section Reg.
  Variables (L : stencil) (n : nat).
  Hypothesis Hiso : isotropic L n.
  Let D := st_D L.
  Let cs2 := st_cs2 L.
  Hypothesis Hcs : cs2 <> 0.
  Hypothesis Hn : (5 <= n)%nat.
  Variable Pi : nat -> nat -> R.
  Hypothesis Psym : forall b c, Pi b c = Pi c b.

  (** the Hermite-2 polynomial contracted with Pi *)
  Definition her2 (i : nat) : R :=
    sumf D (fun b => sumf D (fun c => Pi b c / (2 * cs2 * cs2) * (eprod L i [b; c] - cs2 * delta b c))).

  Lemma Ex_her2 (l : list nat) :
    Ex L (fun i => her2 i * eprod L i l) =
    sumf D (fun b => sumf D (fun c => Pi b c / (2 * cs2 * cs2) *
      (Ex L (fun i => eprod L i (b :: c :: l)) - cs2 * delta b c * Ex L (fun i => eprod L i l)))).
  Proof.
    transitivity (Ex L (fun i => sumf D (fun b => sumf D (fun c => Pi b c / (2 * cs2 * cs2) *
       (eprod L i (b :: c :: l) - cs2 * delta b c * eprod L i l))))).
    - apply Ex_ext. intros i. unfold her2. rewrite <- sumf_scal_r. apply sumf_ext. intros b _.
      rewrite <- sumf_scal_r. apply sumf_ext. intros c _. cbn [eprod]. ring.
    - rewrite Ex_sum. apply sumf_ext. intros b _. rewrite Ex_sum. apply sumf_ext. intros c _.
      rewrite Ex_scal, Ex_minus, Ex_scal. reflexivity.
  Qed.

  Ltac fa := repeat (constructor; [assumption|]); constructor.

  Lemma her2_0 : Ex L her2 = 0.
  Proof.
    transitivity (Ex L (fun i => her2 i * eprod L i [])).
    { apply Ex_ext. intros. cbn [eprod]. ring. }
    rewrite Ex_her2. apply sumf_zero. intros b Hb. apply sumf_zero. intros c Hc.
    change (Ex L (fun i => eprod L i [])) with (Ex L (fun _ => 1)).
    rewrite (Ex1 L n Hiso), (Ex2 L n Hiso) by (assumption || lia). fold cs2. ring.
  Qed.
  Lemma her2_1 a : (a < D)%nat -> Ex L (fun i => her2 i * st_e L i a) = 0.
  Proof.
    intros Ha. transitivity (Ex L (fun i => her2 i * eprod L i [a])).
    { apply Ex_ext. intros. cbn [eprod]. ring. }
    rewrite Ex_her2. apply sumf_zero. intros b Hb. apply sumf_zero. intros c Hc.
    rewrite (Ex_odd L n Hiso [b; c; a]), (Ex_odd L n Hiso [a]) by (try reflexivity; try fa; cbn [length]; lia). ring.
  Qed.
  Lemma her2_2 a d : (a < D)%nat -> (d < D)%nat ->
    Ex L (fun i => her2 i * st_e L i a * st_e L i d) = Pi a d.
  Proof.
    intros Ha Hd. transitivity (Ex L (fun i => her2 i * eprod L i [a; d])).
    { apply Ex_ext. intros. cbn [eprod]. ring. }
    rewrite Ex_her2.
    rewrite (sumf_ext D _ (fun b => / 2 * (delta b a * Pi b d + delta b d * Pi b a))).
    - rewrite sumf_scal, sumf_plus.
      rewrite (sumf_ext D (fun i => delta i a * Pi i d) (fun i => Pi i d * delta i a)) by (intros; ring).
      rewrite (sumf_ext D (fun i => delta i d * Pi i a) (fun i => Pi i a * delta i d)) by (intros; ring).
      rewrite (sumf_delta_r D a (fun i => Pi i d)), (sumf_delta_r D d (fun i => Pi i a)) by assumption.
      rewrite (Psym d a). field.
    - intros b Hb.
      rewrite (sumf_ext D _ (fun c => / 2 * delta b a * (Pi b c * delta c d) + / 2 * delta b d * (Pi b c * delta c a))).
      + rewrite sumf_plus, !sumf_scal, !sumf_delta_r by assumption. ring.
      + intros c Hc. rewrite (Ex4 L n Hiso), (Ex2 L n Hiso) by (assumption || lia). fold cs2. field. assumption.
  Qed.
End Reg.

Lemma reg_split L tau f feq i :
  relax_Regularized L tau f feq i =
  feq i + st_w L i * (1 - 1 / tau) * her2 L (fun b c => moment2 L f b c - moment2 L feq b c) i.
Proof.
  unfold relax_Regularized. cbv zeta beta. f_equal. rewrite (Rmult_comm (st_w L i) (1 - 1 / tau)), (Rmult_assoc (1 - 1 / tau) (st_w L i)). f_equal.
  unfold her2. rewrite <- sumf_scal. apply sumf_ext. intros b _. rewrite <- sumf_scal. apply sumf_ext. intros c _.
  cbn [eprod]. unfold reg_Q, moment2, delta. destruct (Nat.eqb b c); unfold Rdiv; ring.
Qed.

Section Reg2.
  Variables (L : stencil) (n : nat).
  Hypothesis Hiso : isotropic L n.
  Let D := st_D L.
  Hypothesis Hcs : st_cs2 L <> 0.
  Hypothesis Hn : (5 <= n)%nat.
  Variables (tau : R) (f feq : nat -> R).
  Let P := fun b c => moment2 L f b c - moment2 L feq b c.
  Lemma moment2_sym g a b : moment2 L g a b = moment2 L g b a.
  Proof. apply sumf_ext. intros. ring. Qed.
  Lemma Psym b c : P b c = P c b.
  Proof. unfold P. rewrite (moment2_sym f b c), (moment2_sym feq b c). reflexivity. Qed.

  Lemma reg_mass : mass L (relax_Regularized L tau f feq) = mass L feq.
  Proof.
    unfold mass. rewrite (sumf_ext _ _ _ (fun i _ => reg_split L tau f feq i)), sumf_plus.
    change (mass L feq + mass L (fun i => st_w L i * (1 - 1 / tau) * her2 L P i) = mass L feq).
    rewrite mass_Ex, (her2_0 L n Hiso) by assumption. ring.
  Qed.
  Lemma reg_momentum a : (a < D)%nat -> momentum L (relax_Regularized L tau f feq) a = momentum L feq a.
  Proof.
    intros Ha. unfold momentum at 1.
    rewrite (sumf_ext _ _ (fun i => feq i * st_e L i a + st_w L i * (1 - 1 / tau) * her2 L P i * st_e L i a))
      by (intros; rewrite reg_split; unfold P; ring).
    rewrite sumf_plus.
    change (momentum L feq a + momentum L (fun i => st_w L i * (1 - 1 / tau) * her2 L P i) a = momentum L feq a).
    rewrite momentum_Ex, (her2_1 L n Hiso) by assumption. ring.
  Qed.
  Lemma reg_moment2 a b : (a < D)%nat -> (b < D)%nat ->
    moment2 L (relax_Regularized L tau f feq) a b = moment2 L feq a b + (1 - 1 / tau) * (moment2 L f a b - moment2 L feq a b).
  Proof.
    intros Ha Hb. unfold moment2 at 1.
    rewrite (sumf_ext _ _ (fun i => feq i * st_e L i a * st_e L i b
                                   + st_w L i * (1 - 1 / tau) * her2 L P i * st_e L i a * st_e L i b))
      by (intros; rewrite reg_split; unfold P; ring).
    rewrite sumf_plus.
    change (moment2 L feq a b + moment2 L (fun i => st_w L i * (1 - 1 / tau) * her2 L P i) a b = moment2 L feq a b + (1 - 1 / tau) * P a b).
    rewrite moment2_Ex, (her2_2 L n Hiso) by (assumption || apply Psym). ring.
  Qed.
End Reg2.

Lemma reg_ext L tau f f' feq : (forall a b, (a < st_D L)%nat -> (b < st_D L)%nat -> moment2 L f a b = moment2 L f' a b) ->
  forall i, relax_Regularized L tau f feq i = relax_Regularized L tau f' feq i.
Proof.
  intros H i. unfold relax_Regularized. cbv zeta beta. f_equal. f_equal. apply sumf_ext. intros b Hb. apply sumf_ext. intros c Hc.
  f_equal. f_equal. apply H; assumption.
Qed.

(** ** MRT *)
Definition qmulsum (Qn : nat) (A B : list (list Q)) (i k : nat) : Q :=
  fold_left (fun acc j => (acc + nth j (nth i A []) 0 * nth k (nth j B []) 0)%Q) (seq 0 Qn) 0%Q.
(** over the common denominators dA, dB *)
Definition znum (d : positive) (q : Q) : option Z := if Pos.eqb (QArith_base.Qden q) d then Some (QArith_base.Qnum q) else None.
Definition row_ok (d : positive) (row : list Q) : bool := forallb (fun q => Pos.eqb (QArith_base.Qden q) d) row.
Fixpoint zdot (x y : list Q) : Z :=
  match x, y with
  | a :: x', b :: y' => (QArith_base.Qnum a * QArith_base.Qnum b + zdot x' y')%Z
  | _, _ => 0%Z
  end.
Definition column (k : nat) (B : list (list Q)) : list Q := map (fun r => nth k r 0%Q) B.
Definition mul_check (Qn : nat) (dA dB : positive) (A B : list (list Q)) : bool :=
  Nat.eqb (length A) Qn && Nat.eqb (length B) Qn &&
  forallb (fun r => row_ok dA r && Nat.eqb (length r) Qn) A &&
  forallb (fun r => row_ok dB r && Nat.eqb (length r) Qn) B &&
  forallb (fun i => forallb (fun k =>
     Z.eqb (zdot (nth i A []) (column k B)) (if Nat.eqb i k then Z.pos (dA * dB) else 0)) (seq 0 Qn)) (seq 0 Qn).

Lemma zdot_sound dA dB x : forall y, length x = length y -> row_ok dA x = true -> row_ok dB y = true ->
  sumf (length x) (fun j => Q2R (nth j x 0%Q) * Q2R (nth j y 0%Q)) = IZR (zdot x y) / IZR (Z.pos (dA * dB)).
Proof.
  induction x as [|a x IH]; intros [|b y] Hl Hx Hy; cbn [length zdot sumf] in *; try discriminate.
  - unfold Rdiv. ring.
  - cbn [row_ok forallb] in Hx, Hy. apply andb_prop in Hx, Hy. destruct Hx as [Ha Hx], Hy as [Hb Hy].
    change (sumf (S (length x)) (fun j => Q2R (nth j (a :: x) 0%Q) * Q2R (nth j (b :: y) 0%Q)) =
            IZR (QArith_base.Qnum a * QArith_base.Qnum b + zdot x y) / IZR (Z.pos (dA * dB))).
    rewrite sumf_S_first. cbn [nth]. rewrite (IH y) by (try assumption; lia).
    apply Pos.eqb_eq in Ha, Hb. unfold Q2R. rewrite Ha, Hb.
    rewrite Pos2Z.inj_mul, plus_IZR, !mult_IZR. field. split; apply IZR_neq; lia.
Qed.

Lemma mul_check_sound Qn dA dB A B : mul_check Qn dA dB A B = true ->
  forall i k, (i < Qn)%nat -> (k < Qn)%nat -> sumf Qn (fun j => matR A i j * matR B j k) = delta i k.
Proof.
  unfold mul_check. intros H i k Hi Hk.
  apply andb_prop in H. destruct H as [H H5]. apply andb_prop in H. destruct H as [H H4].
  apply andb_prop in H. destruct H as [H H3]. apply andb_prop in H. destruct H as [H1 H2].
  apply Nat.eqb_eq in H1, H2. rewrite forallb_forall in H3, H4, H5.
  assert (HA : row_ok dA (nth i A []) = true /\ length (nth i A []) = Qn).
  { specialize (H3 (nth i A [])). rewrite <- H1 in Hi. specialize (H3 (nth_In A [] Hi)).
    apply andb_prop in H3. destruct H3 as [Ha Hb]. split; [assumption|]. now apply Nat.eqb_eq. }
  destruct HA as [HA HAl].
  assert (HB : row_ok dB (column k B) = true).
  { apply forallb_forall. intros q Hq. apply in_map_iff in Hq. destruct Hq as [r [Hr Hin]].
    specialize (H4 r Hin). apply andb_prop in H4. destruct H4 as [Ha Hb]. apply Nat.eqb_eq in Hb.
    unfold row_ok in Ha. rewrite forallb_forall in Ha. subst q. apply Ha. apply nth_In. lia. }
  assert (HBl : length (column k B) = Qn) by (unfold column; rewrite map_length; assumption).
  specialize (H5 i). rewrite forallb_forall in H5 by (apply in_seq; lia).
  specialize (H5 (proj2 (in_seq _ _ _) (conj (Nat.le_0_l _) Hi)) k (proj2 (in_seq _ _ _) (conj (Nat.le_0_l _) Hk))).
  apply Z.eqb_eq in H5.
  rewrite (sumf_ext Qn _ (fun j => Q2R (nth j (nth i A []) 0%Q) * Q2R (nth j (column k B) 0%Q))).
  - rewrite <- HAl. rewrite (zdot_sound dA dB) by (try assumption; lia). rewrite H5. unfold delta.
    destruct (Nat.eqb i k); unfold Rdiv; [|ring]. apply Rinv_r. apply IZR_neq. lia.
  - intros j Hj. unfold matR. f_equal. f_equal. unfold column.
    rewrite (nth_indep (map (fun r => nth k r 0%Q) B) 0%Q (nth k [] 0%Q)) by (rewrite map_length; lia).
    rewrite (map_nth (fun r => nth k r 0%Q) B [] j). reflexivity.
Qed.

(** Composition of matrix-vector products. *)
Lemma matvec_inverse Qn A B : (forall i k, (i < Qn)%nat -> (k < Qn)%nat -> sumf Qn (fun j => A i j * B j k) = delta i k) ->
  forall x i, (i < Qn)%nat -> matvec Qn A (matvec Qn B x) i = x i.
Proof.
  intros H x i Hi. unfold matvec.
  transitivity (sumf Qn (fun k => delta i k * x k)).
  - rewrite (sumf_ext Qn _ (fun j => sumf Qn (fun k => A i j * B j k * x k))).
    + rewrite sumf_swap. apply sumf_ext. intros k Hk. rewrite sumf_scal_r, H by assumption. reflexivity.
    + intros j Hj. rewrite <- sumf_scal. apply sumf_ext. intros. ring.
  - apply sumf_delta. assumption.
Qed.

Lemma dellar_MT : mul_check 9 2 216 MRTDellarD2Q9_M MRTDellarD2Q9_T = true. Proof. vm_compute. reflexivity. Qed.
Lemma dellar_TM : mul_check 9 216 2 MRTDellarD2Q9_T MRTDellarD2Q9_M = true. Proof. vm_compute. reflexivity. Qed.
Lemma lallemand_MT : mul_check 9 1 36 MRTLallemandD2Q9_M MRTLallemandD2Q9_T = true. Proof. vm_compute. reflexivity. Qed.
Lemma lallemand_TM : mul_check 9 36 1 MRTLallemandD2Q9_T MRTLallemandD2Q9_M = true. Proof. vm_compute. reflexivity. Qed.
Lemma dhumieres_MT : mul_check 19 1 47880 MRTDHumieresD3Q19_M MRTDHumieresD3Q19_T = true. Proof. vm_compute. reflexivity. Qed.
Lemma dhumieres_TM : mul_check 19 47880 1 MRTDHumieresD3Q19_T MRTDHumieresD3Q19_M = true. Proof. vm_compute. reflexivity. Qed.

Lemma mrt_inverse Qn basis M T : make_M Qn basis = Ok M -> make_T Qn basis = Ok T ->
  forall f i, (i < Qn)%nat ->
    matvec Qn T (matvec Qn M f) i = f i /\ matvec Qn M (matvec Qn T f) i = f i.
Proof.
  unfold make_M, make_T. intros HM HT f i Hi.
  destruct (Nat.eqb Qn 9) eqn:E9.
  - apply Nat.eqb_eq in E9. subst Qn.
    destruct basis; try discriminate; injection HM as <-; injection HT as <-; split; apply matvec_inverse; try assumption.
    + exact (mul_check_sound _ _ _ _ _ dellar_TM).
    + exact (mul_check_sound _ _ _ _ _ dellar_MT).
    + exact (mul_check_sound _ _ _ _ _ lallemand_TM).
    + exact (mul_check_sound _ _ _ _ _ lallemand_MT).
  - destruct (Nat.eqb Qn 19) eqn:E19; [|discriminate]. apply Nat.eqb_eq in E19. subst Qn.
    destruct basis; try discriminate; injection HM as <-; injection HT as <-; split; apply matvec_inverse; try assumption.
    + exact (mul_check_sound _ _ _ _ _ dhumieres_TM).
    + exact (mul_check_sound _ _ _ _ _ dhumieres_MT).
Qed.

(** moments of the relaxed distribution *)
Lemma mrt_moment Qn basis M T om f feq r : make_M Qn basis = Ok M -> make_T Qn basis = Ok T -> (r < Qn)%nat ->
  matvec Qn M (relax_MRT Qn M T om f feq) r =
  matvec Qn M f r - om r * (matvec Qn M f r - matvec Qn M feq r).
Proof.
  intros HM HT Hr. unfold relax_MRT.
  exact (proj2 (mrt_inverse Qn basis M T HM HT _ r Hr)).
Qed.

(** position of the momentum components among the moments *)
Definition mom_row (Qn a : nat) : nat := if Nat.eqb Qn 9 then S a else (3 + 2 * a)%nat.

Lemma mrt_row0 Qn basis M f : make_M Qn basis = Ok M -> matvec Qn M f 0 = sumf Qn f.
Proof.
  unfold make_M. intros HM. unfold matvec.
  destruct (Nat.eqb Qn 9) eqn:E9; [|destruct (Nat.eqb Qn 19) eqn:E19; [|discriminate]];
    apply Nat.eqb_eq in E9 || apply Nat.eqb_eq in E19; subst Qn;
    destruct basis; try discriminate; injection HM as <-;
    apply sumf_ext; intros j Hj; (transitivity (1 * f j); [f_equal|ring]);
    unfold matR; cbn [nth MRTDellarD2Q9_M MRTLallemandD2Q9_M MRTDHumieresD3Q19_M];
    repeat (destruct j as [|j]; [cbn [nth]; unfold Q2R; cbn; lra|]); lia.
Qed.

Lemma mrt_row_9 basis M s f a : s <> 0 -> make_M 9 basis = Ok M -> (a < 2)%nat ->
  matvec 9 M f (S a) = momentum (unscale (D2Q9 s) s) f a.
Proof.
  intros Hs HM Ha. unfold make_M in HM. cbn [Nat.eqb] in HM. unfold matvec, momentum. cbn [unscale D2Q9 st_Q st_e].
  apply sumf_ext; intros j Hj.
  transitivity ((s * tbl D2Q9_dir j a / s) * f j); [f_equal|cbn; ring].
  destruct basis; try discriminate; injection HM as <-; unfold matR;
  do 2 (destruct a as [|a]; [cbn [nth MRTDellarD2Q9_M MRTLallemandD2Q9_M];
    do 9 (destruct j as [|j]; [cbn [nth]; lit; field; repeat split; assumption|]); lia|]); lia.
Qed.

Lemma mrt_row_19 basis M s f a : s <> 0 -> make_M 19 basis = Ok M -> (a < 3)%nat ->
  matvec 19 M f (3 + 2 * a) = momentum (unscale (D3Q19 s) s) f a.
Proof.
  intros Hs HM Ha. unfold make_M in HM. cbn [Nat.eqb] in HM. unfold matvec, momentum. cbn [unscale D3Q19 st_Q st_e].
  apply sumf_ext; intros j Hj.
  transitivity ((s * tbl D3Q19_dir j a / s) * f j); [f_equal|cbn; ring].
  destruct basis; try discriminate; injection HM as <-; unfold matR;
  do 3 (destruct a as [|a]; [cbn [nth MRTDHumieresD3Q19_M Nat.mul Nat.add];
    do 19 (destruct j as [|j]; [cbn [nth]; lit; field; repeat split; assumption|]); lia|]); lia.
Qed.

Lemma matvec_ext Qn A x y i : (forall j, (j < Qn)%nat -> x j = y j) -> matvec Qn A x i = matvec Qn A y i.
Proof. intros H. apply sumf_ext. intros j Hj. rewrite H by assumption. reflexivity. Qed.

(** With all rates equal MRT is BGK; more generally where every moment either has
    the BGK rate or is at equilibrium. *)
Lemma mrt_bgk Qn basis M T om tau f feq : make_M Qn basis = Ok M -> make_T Qn basis = Ok T ->
  (forall r, (r < Qn)%nat -> om r = 1 / tau \/ matvec Qn M f r = matvec Qn M feq r) ->
  forall i, (i < Qn)%nat -> relax_MRT Qn M T om f feq i = relax_BGK tau f feq i.
Proof.
  intros HM HT H i Hi. unfold relax_MRT.
  transitivity (matvec Qn T (matvec Qn M (relax_BGK tau f feq)) i).
  - apply matvec_ext. intros j Hj.
    transitivity (matvec Qn M f j - 1 / tau * (matvec Qn M f j - matvec Qn M feq j)).
    + cbv beta zeta. destruct (H j Hj) as [E | E]; rewrite E; ring.
    + unfold matvec, relax_BGK. rewrite <- sumf_minus, <- sumf_scal, <- sumf_minus. apply sumf_ext. intros. ring.
  - exact (proj1 (mrt_inverse Qn basis M T HM HT _ i Hi)).
Qed.
