(** Streaming with linear elements creates no new extremes; with quadratic ones it does. *)
From Verif Require Import Prelude BigSum ModelSemiLagrangian ModelWalls ModelSimulationSL SpecSemiLagrangian SpecStream SpecExtremes
  ProofSemiLagrangian ProofSemiLagrangian2 ProofSemiLagrangian3 ProofSemiLagrangian4 ProofSemiLagrangian5 ProofStream.
Local Open Scope R_scope.

Lemma Rabs_le_between x y : Rabs x <= y -> - y <= x <= y.
Proof. intros H. assert (A := Rle_abs x). assert (B := Rle_abs (- x)). rewrite Rabs_Ropp in B. lra. Qed.

(** ** Linear shape functions *)
Lemma sumf_double n f : sumf (n + n) f = sumf n (fun i => f i + f (n + i)%nat).
Proof.
  assert (G : forall m, sumf (n + m) f = sumf n f + sumf m (fun i => f (n + i)%nat)).
  { induction m as [|m IH]; [rewrite Nat.add_0_r; cbn [sumf]; ring|]. rewrite Nat.add_succ_r. cbn [sumf]. rewrite IH. ring. }
  rewrite G, sumf_plus. reflexivity.
Qed.
Lemma linear_nonneg d : forall j u, inside d u -> 0 <= linear_shape d j u.
Proof.
  induction d as [|d IH]; intros j u H; cbn [linear_shape]; [lra|]. apply Rmult_le_pos; [apply IH; intros i Hi; apply H; lia|].
  assert (X := H d ltac:(lia)). destruct (Nat.eqb _ _); lra.
Qed.
Lemma linear_unity d : partition_of_unity d (2 ^ d) (linear_shape d).
Proof.
  induction d as [|d IH]; intros u H; [cbn; ring|].
  replace (2 ^ S d)%nat with (2 ^ d + 2 ^ d)%nat by (cbn [Nat.pow]; lia). rewrite sumf_double.
  assert (P : (2 ^ d <> 0)%nat) by (apply Nat.pow_nonzero; lia).
  rewrite (sumf_ext (2 ^ d) _ (fun j => linear_shape d j u)); [apply IH; intros i Hi; apply H; lia|].
  intros j Hj. cbn [linear_shape]. rewrite (Nat.mod_small j), (Nat.div_small j) by exact Hj.
  replace (2 ^ d + j)%nat with (j + 1 * 2 ^ d)%nat by lia. rewrite Nat.mod_add, Nat.div_add by exact P.
  rewrite (Nat.mod_small j), (Nat.div_small j) by exact Hj. cbn [Nat.eqb Nat.add]. ring.
Qed.

(** ** Rows *)
Lemma kept_between m (v g : nat -> R) lo hi : lo <= 0 <= hi -> (forall k, (k < m)%nat -> 0 <= v k) -> sumf m v <= 1 ->
  (forall k, lo <= g k <= hi) -> lo <= sumf m (fun k => if Rlt_dec (Rabs (v k)) tol then 0 else v k * g k) <= hi.
Proof.
  intros Hl Hv Hs Hg.
  assert (A : forall k, (k < m)%nat -> v k * lo <= (if Rlt_dec (Rabs (v k)) tol then 0 else v k * g k) <= v k * hi).
  { intros k Hk. assert (X := Hv k Hk). assert (Y := Hg k). destruct (Rlt_dec _ _); nra. }
  assert (S0 := sumf_nonneg m v Hv). split.
  - apply Rle_trans with (sumf m v * lo); [nra|]. rewrite <- sumf_scal_r. apply sumf_le. intros k Hk. apply A, Hk.
  - apply Rle_trans with (sumf m v * hi); [|nra]. rewrite <- sumf_scal_r. apply sumf_le. intros k Hk. apply A, Hk.
Qed.

Section Any.
  Context {cell : Type} (M : mesh cell) (e : nat -> point) (opp : nat -> nat) (dt : R)
          (n : nat) (node : nat -> point) (dofs : cell -> nat -> nat) (Q : nat) (shape : nat -> point -> R) (cells : list cell).
  Hypothesis Hpos : forall u j, inside (dim M) u -> (j < n)%nat -> 0 <= shape j u.
  Hypothesis Hone : partition_of_unity (dim M) n shape.
  Let dirs := List.seq 1 (Q - 1).
  Variables (lo hi : R) (f : nat -> nat -> R).
  Hypothesis Hlh : lo <= 0 <= hi.
  Hypothesis Hf : forall b j, lo <= f b j <= hi.

  Definition bounded (x : list entry) : Prop := forall a i, lo <= apply_row x f a i <= hi.
  Lemma bounded_nil : bounded [].
  Proof. intros a i. exact Hlh. Qed.

  Lemma event_bounded ev x : event_entries M shape dofs n ev = Ok x -> bounded x.
  Proof.
    intros H a i. destruct ev as [el|el bi|el|el|el bi]; cbn [event_entries] in H; try (injection H as <-; exact Hlh).
    - injection H as <-. unfold apply_row. cbn [fold_right]. unfold entry_term. destruct (_ && _)%bool; [|lra].
      match goal with |- context [f ?b ?j] => assert (X := Hf b j) end. lra.
    - unfold shapeValues in H. destruct (to_unit M _ _) as [u|]; [|discriminate].
      destruct (all_inside (dim M) (snap_point u)) eqn:A; [|discriminate]. apply all_inside_iff in A. cbn [obind] in H. injection H as <-.
      destruct (Nat.eq_dec a (dest_direction el - 1)) as [->|Na]; [destruct (Nat.eq_dec i (dest_index el)) as [->|Ni]|].
      + rewrite apply_row_entries. apply kept_between; [exact Hlh| |rewrite (Hone _ A); lra|intros; apply Hf]. intros k Hk. apply Hpos; assumption.
      + rewrite apply_row_zero; [exact Hlh|]. intros a' b i' j v Hin. apply row_entries_shape in Hin. destruct Hin as (j' & w & E).
        injection E as -> -> -> -> ->. right. congruence.
      + rewrite apply_row_zero; [exact Hlh|]. intros a' b i' j v Hin. apply row_entries_shape in Hin. destruct Hin as (j' & w & E).
        injection E as -> -> -> -> ->. left. congruence.
  Qed.

  Lemma silent_event ev x : final ev = None -> event_entries M shape dofs n ev = Ok x -> x = [].
  Proof. destruct ev; cbn [final event_entries]; intros F E; try discriminate; injection E as <-; reflexivity. Qed.

  Lemma events_bounded l : forall x, (length (finals l) <= 1)%nat -> collect (event_entries M shape dofs n) l = Ok x -> bounded x.
  Proof.
    induction l as [|ev l IH]; intros x Hl H; cbn [collect] in H; [injection H as <-; apply bounded_nil|].
    destruct (event_entries M shape dofs n ev) as [y| |] eqn:E; try discriminate. cbn [obind] in H.
    destruct (collect _ l) as [w| |] eqn:C; try discriminate. cbn [obind] in H. injection H as <-. cbn [finals] in Hl.
    destruct (final ev) as [d|] eqn:F.
    - cbn [length] in Hl. assert (Hnil : w = []).
      { clear -C Hl. revert w C. induction l as [|v l IH]; intros w C; cbn [collect] in C; [injection C as <-; reflexivity|].
        cbn [finals] in Hl. destruct (final v) eqn:Fv; [cbn [length] in Hl; lia|].
        destruct (event_entries M shape dofs n v) as [y| |] eqn:E; try discriminate. cbn [obind] in C.
        destruct (collect _ l) as [w'| |] eqn:C'; try discriminate. cbn [obind] in C. injection C as <-.
        rewrite (silent_event v y Fv E). apply IH; [exact Hl|reflexivity]. }
      subst w. rewrite app_nil_r. exact (event_bounded ev y E).
    - rewrite (silent_event ev y F E). apply IH; [exact Hl|reflexivity].
  Qed.

  Lemma rows_bounded z : assemble M e opp dt n node dofs Q shape cells = Some (Ok z) -> bounded z.
  Proof.
    unfold assemble. intros H. apply fill_ok in H. destruct H as (xs & F & ->). fold dirs in F.
    assert (Fr : forall el, In el (trackers M e dt n node dofs dirs cells []) -> lifeTimeCounter el = 0%nat)
      by (intros; eapply trackers_fresh; eassumption).
    assert (Dr : forall el, In el (trackers M e dt n node dofs dirs cells []) -> (1 <= dest_direction el)%nat).
    { intros e1 He1. apply trackers_origin in He1. destruct He1 as (c' & j' & a' & _ & _ & Ha' & _ & ->). apply in_seq in Ha'. cbn [dest_direction]. lia. }
    assert (Nd : NoDup (map dest (trackers M e dt n node dofs dirs cells []))) by (apply trackers_nodup, seq_NoDup).
    assert (Fd : Forall2 (fun el x => bounded x /\ forall a b i j v, In (a, b, i, j, v) x -> a = (dest_direction el - 1)%nat /\ i = dest_index el)
      (trackers M e dt n node dofs dirs cells []) xs).
    { clear Dr Nd. induction F as [|e0 x0 q xs O F IH]; constructor.
      - split; [|exact (entries_row M e opp dt n dofs shape e0 x0 (Fr e0 (or_introl eq_refl)) O)].
        destruct O as (l & Hl & Hc). apply (events_bounded l); [|exact Hc].
        assert (P := follow_some M e opp dt e0 (Fr e0 (or_introl eq_refl))). rewrite Hl in P. apply loop_dest in P. rewrite P. cbn. lia.
      - apply IH. intros el Hel. apply Fr. right. exact Hel. }
    clear F Fr. intros a i.
    (* induction: either no list writes to the row, or one *)
    set (q := trackers M e dt n node dofs dirs cells []) in *. clearbody q. induction Fd as [|e0 x0 q xs (B & R) Fd IH]; [exact Hlh|].
    cbn [concat map] in *. inversion Nd as [|? ? N1 N2]; subst. rewrite apply_row_app.
    destruct (Nat.eq_dec a (dest_direction e0 - 1)) as [Ea|Na]; [destruct (Nat.eq_dec i (dest_index e0)) as [Ei|Ni]|].
    - rewrite (apply_row_zero (concat xs)); [rewrite Rplus_0_r; apply B|]. intros a' b i' j v Hc.
      apply in_concat in Hc. destruct Hc as (y & Hy & Hc). destruct (Forall2_in_r _ _ _ _ Fd Hy) as (e1 & He1 & _ & P).
      destruct (P _ _ _ _ _ Hc) as [-> ->]. subst a i.
      destruct (Nat.eq_dec (dest_index e1) (dest_index e0)) as [Ei|Ei]; [left|right; exact Ei].
      intros Ex. apply N1. apply in_map_iff. exists e1. split; [|exact He1]. unfold dest. rewrite Ei. f_equal.
      assert (A1 := Dr e1 (or_intror He1)). assert (A2 := Dr e0 (or_introl eq_refl)). lia.
    - rewrite (apply_row_zero x0); [rewrite Rplus_0_l; apply IH; [intros; apply Dr; right; assumption|exact N2]|].
      intros a' b i' j v Hc. destruct (R _ _ _ _ _ Hc) as [-> ->]. right. congruence.
    - rewrite (apply_row_zero x0); [rewrite Rplus_0_l; apply IH; [intros; apply Dr; right; assumption|exact N2]|].
      intros a' b i' j v Hc. destruct (R _ _ _ _ _ Hc) as [-> ->]. left. congruence.
  Qed.
End Any.

Lemma stream_range {cell} (M : mesh cell) e opp dt node dofs Q cells z lo hi :
  assemble M e opp dt (2 ^ dim M) node dofs Q (linear_shape (dim M)) cells = Some (Ok z) -> lo <= 0 <= hi ->
  forall k f, (forall n a, lo <= f n a <= hi) -> forall n a, lo <= Nat.iter k (sl_stream Q z) f n a <= hi.
Proof.
  intros Hz Hlh. induction k as [|k IH]; intros f Hf n a; [apply Hf|]. change (Nat.iter (S k) (sl_stream Q z) f) with (sl_stream Q z (Nat.iter k (sl_stream Q z) f)).
  assert (X := IH f Hf). set (y := Nat.iter k (sl_stream Q z) f) in *. unfold sl_stream. destruct (Nat.ltb a Q); [|apply X].
  destruct a as [|b]; cbn [multiply]; [apply X|].
  apply (rows_bounded M e opp dt (2 ^ dim M) node dofs Q (linear_shape (dim M)) cells
    (fun u j Hu _ => linear_nonneg (dim M) j u Hu) (linear_unity (dim M)) lo hi (fun c j => y j (S c)) Hlh); [|exact Hz].
  intros c j. apply X.
Qed.

(** ** Without boundaries *)
Lemma apply_row_minus z f g a i : apply_row z (fun b j => f b j - g b j) a i = apply_row z f a i - apply_row z g a i.
Proof.
  induction z as [|en z IH]; [unfold apply_row; cbn; ring|]. unfold apply_row in *. cbn [fold_right]. rewrite IH.
  destruct en as [[[[a' b] i'] j] v]. unfold entry_term. destruct (_ && _)%bool; ring.
Qed.
Lemma closed_range {cell} (M : mesh cell) ok same e opp dt : (0 < dim M)%nat -> closed_mesh M ok same ->
  forall node dofs Q cells, let n := (2 ^ dim M)%nat in (forall c, In c cells -> ok c) -> (forall j, (j < n)%nat -> inside (dim M) (node j)) ->
  within_limit M n node e dt Q cells -> dofs_agree M same n node dofs cells ->
  exists z, assemble M e opp dt n node dofs Q (linear_shape (dim M)) cells = Some (Ok z) /\
  forall f lo hi, (forall i a, lo <= f i a <= hi) -> forall c j a, In c cells -> (j < n)%nat -> (a < Q)%nat ->
    lo - INR n * (1 / 10 ^ 10 * Rabs lo) <= sl_stream Q z f (dofs c j) a <= hi + INR n * (1 / 10 ^ 10 * Rabs hi).
Proof.
  intros Hd CM node dofs Q cells n Hc Hn W Ha.
  destruct (closed_uniform M ok same e opp dt Hd CM n node dofs Q (linear_shape (dim M)) cells Hc Hn W Ha (linear_unity (dim M))) as (z & Hz & U).
  exists z. split; [exact Hz|]. intros f lo hi Hf c j a Hin Hj HQ. unfold sl_stream. rewrite (proj2 (Nat.ltb_lt a Q) HQ).
  assert (P : forall v, 0 <= INR n * (1 / 10 ^ 10 * Rabs v)).
  { intros v. apply Rmult_le_pos; [apply pos_INR|]. apply Rmult_le_pos; [apply Rlt_le, Rdiv_lt_0_compat; [lra|apply pow_lt; lra]|apply Rabs_pos]. }
  assert (Plo := P lo). assert (Phi := P hi). destruct a as [|b]; cbn [multiply]; [assert (X := Hf (dofs c j) 0%nat); lra|].
  set (F := fun c0 j0 => f j0 (S c0)).
  assert (Hlh : lo <= hi) by (assert (X := Hf 0%nat 0%nat); lra).
  assert (Row : forall g, (forall b j, 0 <= g b j <= hi - lo) -> 0 <= apply_row z g b (dofs c j)).
  { intros g Hg. apply (rows_bounded M e opp dt n node dofs Q (linear_shape (dim M)) cells
      (fun u j Hu _ => linear_nonneg (dim M) j u Hu) (linear_unity (dim M)) 0 (hi - lo) g ltac:(lra) Hg z Hz b (dofs c j)). }
  assert (UL := U (S b) (fun _ _ => lo) lo ltac:(lia) (fun _ => eq_refl) c j Hin Hj).
  assert (UH := U (S b) (fun _ _ => hi) hi ltac:(lia) (fun _ => eq_refl) c j Hin Hj).
  replace (S b - 1)%nat with b in UL, UH by lia.
  assert (R1 := Row (fun b' j' => F b' j' - (fun _ _ => lo) b' j')). rewrite apply_row_minus in R1.
  assert (R2 := Row (fun b' j' => (fun _ _ => hi) b' j' - F b' j')). rewrite apply_row_minus in R2.
  assert (R1' := R1 (fun b' j' => ltac:(unfold F; assert (X := Hf j' (S b')); lra))).
  assert (R2' := R2 (fun b' j' => ltac:(unfold F; assert (X := Hf j' (S b')); lra))).
  apply Rabs_le_between in UL. apply Rabs_le_between in UH. lra.
Qed.

(** ** Quadratic elements *)
Definition node33 (j : nat) : point := pt2 (INR (j mod 3) / 2) (INR (j / 3) / 2).
(** 25 degrees of freedom, numbered by position. *)
Definition dofs33 (c : index) (j : nat) : nat := (2 * Z.to_nat (c 0%nat) + j mod 3 + 5 * (2 * Z.to_nat (c 1%nat) + j / 3))%nat.
Definition right (a : nat) : point := if Nat.eqb a 1 then pt2 1 0 else pt2 0 0.
Definition one_column (i _ : nat) : R := if Nat.eqb (i mod 5) 0 then 1 else 0.
Lemma setup33 : (forall c, In c grid22 -> in_grid 2 (fun _ => 2%Z) c) /\ (forall j, (j < 9)%nat -> inside 2 (node33 j)) /\
  short_paths 2 (fun _ => 1) right (1/4) 2 /\
  consistent_dofs 2 (fun _ => 2%Z) (fun _ => 1) (torus 2 (fun _ => 2%Z) (fun _ => 1) (fun _ _ => (pt2 0 0, pt2 0 0))) 9 node33 dofs33 grid22.
Proof.
  split; [exact (proj1 torus_setup)|]. split; [|split].
  - intros j Hj i Hi. unfold node33, pt2.
    assert (B : (j mod 3 < 3)%nat) by (apply Nat.mod_upper_bound; lia). assert (B2 : (j / 3 < 3)%nat) by (apply Nat.div_lt_upper_bound; lia).
    assert (K : forall m, (m < 3)%nat -> 0 <= INR m / 2 <= 1).
    { intros m Hm. assert (X := le_INR m 2 ltac:(lia)). assert (Y := pos_INR m). cbn [INR] in X. lra. }
    destruct (Nat.eqb i 0); apply K; assumption.
  - intros a Ha. replace a with 1%nat by lia. unfold right. cbn [Nat.eqb sumf]. unfold pt2. cbn [Nat.eqb INR].
    rewrite Rmult_0_r, Rmult_1_r, Rabs_R0, (Rabs_pos_eq (1/4)) by lra. lra.
  - intros c c' j j' Hc Hc' Hj Hj' E i Hi.
    assert (Key : forall c, In c grid22 -> exists x y, (x = 0 \/ x = 1)%nat /\ (y = 0 \/ y = 1)%nat /\ c = cell22 (Z.of_nat x) (Z.of_nat y)).
    { intros b Hb. cbn [grid22 In] in Hb. destruct Hb as [<-|[<-|[<-|[<-|[]]]]]; [exists 0%nat, 0%nat|exists 1%nat, 0%nat|exists 0%nat, 1%nat|exists 1%nat, 1%nat];
        (split; [lia|]; split; [lia|]; reflexivity). }
    destruct (Key c Hc) as (x & y & Hx & Hy & ->). destruct (Key c' Hc') as (x' & y' & Hx' & Hy' & ->).
    unfold dofs33, cell22 in E. cbn [Nat.eqb] in E. rewrite !Nat2Z.id in E.
    assert (B : (j mod 3 < 3)%nat) by (apply Nat.mod_upper_bound; lia). assert (B' : (j' mod 3 < 3)%nat) by (apply Nat.mod_upper_bound; lia).
    assert (B2 : (j / 3 < 3)%nat) by (apply Nat.div_lt_upper_bound; lia). assert (B2' : (j' / 3 < 3)%nat) by (apply Nat.div_lt_upper_bound; lia).
    assert (E0 : (2 * x + j mod 3 = 2 * x' + j' mod 3)%nat) by lia. assert (E1 : (2 * y + j / 3 = 2 * y' + j' / 3)%nat) by lia.
    exists 0%Z. unfold torus. cbn [to_real]. unfold node33, pt2, cell22. rewrite Rmult_0_l, Rplus_0_r, !Rmult_1_r.
    assert (G : forall k x m x' m', (2 * x + m = 2 * x' + m')%nat -> k = 2 -> INR m / k + IZR (Z.of_nat x) = INR m' / k + IZR (Z.of_nat x')).
    { intros k x0 m x1 m' H ->. rewrite <- !INR_IZR_INZ. apply (f_equal INR) in H. rewrite !plus_INR, !mult_INR in H. cbn [INR] in H. lra. }
    destruct (Nat.eqb i 0); apply G; auto.
Qed.

Lemma new_minimum : exists z, assemble (torus 2 (fun _ => 2%Z) (fun _ => 1) (fun _ _ => (pt2 0 0, pt2 0 0))) right (fun a => a) (1/4) 9 node33 dofs33 2 biquadratic grid22
    = Some (Ok z) /\ sl_stream 2 z one_column 2 1 < - (1/10).
Proof.
  destruct setup33 as (Hc & Hn & Hs & Hd).
  destruct (torus_assembly 2 (fun _ => 2%Z) (fun _ => 1) (fun _ _ => (pt2 0 0, pt2 0 0)) right (fun a => a) (1/4) 9 node33 dofs33 2 biquadratic grid22
    ltac:(lia) (fun _ _ => ltac:(lia)) (fun _ _ => Rlt_0_1) Hc Hn Hs Hd) as (z & Hz & Hrow).
  exists z. split; [exact Hz|].
  destruct (Hrow (cell22 0 0) 2%nat 1%nat (or_introl eq_refl) ltac:(lia) ltac:(lia)) as (c2 & u & G & Hu & Hnc & Hap).
  unfold sl_stream. change (Nat.ltb 1 2) with true. cbn [multiply].
  change (apply_row z (fun c j => one_column j (S c)) (1 - 1) (dofs33 (cell22 0 0) 2) < - (1/10)). rewrite (Hap (fun c j => one_column j (S c))).
  destruct (Hnc 0%nat ltac:(lia)) as [k Hk]. cbn [torus to_real] in Hk. unfold node33, right, cell22, pt2 in Hk. cbn [Nat.eqb Nat.modulo Nat.divmod snd Nat.sub INR] in Hk.
  assert (G0 := G 0%nat ltac:(lia)). assert (U0 := Hu 0%nat ltac:(lia)). assert (U1 := Hu 1%nat ltac:(lia)).
  assert (T : 1 / 10 ^ 10 < 1 / 1000) by (assert (X : 1000 < 10 ^ 10) by lra; unfold Rdiv; rewrite !Rmult_1_l; apply Rinv_lt_contravar; lra).
  apply Rabs_le_between in Hk.
  assert (Ec : c2 0%nat = 0%Z).
  { destruct (Z.eq_dec (c2 0%nat) 0) as [E|E]; [exact E|]. replace (c2 0%nat) with 1%Z in Hk by lia.
    assert (Kl : (0 < k)%Z) by (apply lt_IZR; lra). assert (Ku : (k < 1)%Z) by (apply lt_IZR; lra). lia. }
  rewrite Ec in Hk.
  assert (Ek : k = 0%Z).
  { assert (Kl : (-1 < k)%Z) by (apply lt_IZR; lra). assert (Ku : (k < 1)%Z) by (apply lt_IZR; lra). lia. }
  rewrite Ek in Hk. assert (Ux : 749 / 1000 <= u 0%nat <= 751 / 1000) by lra.
  assert (Dr := dropped_small 9 (fun k => biquadratic k u) (fun k => one_column (dofs33 c2 k) 1) 1).
  assert (Ob : forall k, (k < 9)%nat -> Rabs (one_column (dofs33 c2 k) 1) <= 1)
    by (intros; unfold one_column; destruct (Nat.eqb _ _); rewrite ?Rabs_R1, ?Rabs_R0; lra).
  specialize (Dr Ob). apply Rabs_le_between in Dr.
  assert (Full : sumf 9 (fun k => biquadratic k u * one_column (dofs33 c2 k) 1) = (2 * u 0%nat - 1) * (u 0%nat - 1)).
  { assert (Col : forall k, (k < 9)%nat -> one_column (dofs33 c2 k) 1 = if Nat.eqb (k mod 3) 0 then 1 else 0).
    { intros m Hm. unfold one_column, dofs33. rewrite Ec. change (2 * Z.to_nat 0)%nat with 0%nat. rewrite Nat.add_0_l.
      rewrite (Nat.mul_comm 5), Nat.mod_add by lia. assert (B : (m mod 3 < 3)%nat) by (apply Nat.mod_upper_bound; lia).
      rewrite (Nat.mod_small (m mod 3)) by lia. reflexivity. }
    rewrite (sumf_ext 9 _ (fun k => biquadratic k u * if Nat.eqb (k mod 3) 0 then 1 else 0)) by (intros m Hm; rewrite (Col m Hm); reflexivity).
    unfold biquadratic. cbn [sumf Nat.modulo Nat.div Nat.divmod fst snd Nat.sub Nat.eqb quadratic]. ring. }
  rewrite Full in Dr. change (INR 9) with (1+1+1+1+1+1+1+1+1) in Dr.
  change (1 / 10 ^ 10) with tol in T. change (1 - 1)%nat with 0%nat. cbn beta in *.
  assert (Q : (2 * u 0%nat - 1) * (u 0%nat - 1) <= - (12/100)).
  { assert (X : 0 <= (u 0%nat - 749/1000) * (751/1000 - u 0%nat)) by (apply Rmult_le_pos; lra). lra. }
  lra.
Qed.
Lemma one_column_range n a : 0 <= one_column n a <= 1.
Proof. unfold one_column. destruct (Nat.eqb _ _); lra. Qed.
Lemma torus_linear : exists z, assemble (torus 2 (fun _ => 2%Z) (fun _ => 1) (fun _ _ => (pt2 0 0, pt2 0 0))) (fun a => pt2 (INR (a mod 2)) 0) (fun a => a) 20
    (2 ^ 2) corner dofs22 5 (linear_shape 2) grid22 = Some (Ok z).
Proof.
  destruct torus_setup as (Hc & Hn & Hs & Hd & _).
  destruct (torus_assembly 2 (fun _ => 2%Z) (fun _ => 1) (fun _ _ => (pt2 0 0, pt2 0 0)) (fun a => pt2 (INR (a mod 2)) 0) (fun a => a) 20 4 corner dofs22 5 (linear_shape 2) grid22
    ltac:(lia) (fun _ _ => ltac:(lia)) (fun _ _ => Rlt_0_1) Hc Hn Hs Hd) as (z & Hz & _). exists z. exact Hz.
Qed.
