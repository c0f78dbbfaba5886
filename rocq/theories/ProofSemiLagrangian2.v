(** Path following. *)
From Verif Require Import Prelude BigSum ModelSemiLagrangian SpecSemiLagrangian ProofSemiLagrangian.
Local Open Scope R_scope.

Section Any.
  Context {cell : Type} (M : mesh cell) (e : nat -> point) (opp : nat -> nat) (dt : R).

  Definition cost (el : tracker cell) : nat := Nat.max 1 (51 - lifeTimeCounter el).
  Fixpoint costs (q : list (tracker cell)) : nat := match q with [] => 0%nat | el :: r => (cost el + costs r)%nat end.

  Lemma step_life el el' : step M e opp dt el = Ok (Continue el') \/ (exists bi, step M e opp dt el = Ok (ContinueHit el' bi)) ->
    lifeTimeCounter el' = S (lifeTimeCounter el) /\ (S (lifeTimeCounter el) <= 50)%nat.
  Proof.
    unfold step. cbn [lifeTimeCounter]. destruct (Nat.ltb_spec 50 (S (lifeTimeCounter el))) as [L|L].
    - intros [H|[bi H]]; discriminate.
    - intros H. split; [|exact L]. cbn [currentCell currentPoint departurePoint dest_index dest_direction currentDirection hit_do_nothing] in H.
      destruct (findFace M _ _ _) as [r| |]; cbn [obind] in H; [|destruct H as [H|[bi H]]; discriminate|destruct H as [H|[bi H]]; discriminate].
      destruct r as [k|]; [|destruct H as [H|[bi H]]; discriminate].
      destruct (face_behind M _ _) as [c| |ac op|b|b|b]; try (destruct H as [H|[bi H]]; try discriminate; injection H as <-; reflexivity).
      + destruct (owned_or_ghost M c); destruct H as [H|[bi H]]; try discriminate; injection H as <-; reflexivity.
  Qed.

  Lemma loop_terminates fuel : forall q, (costs q <= fuel)%nat -> path_loop M e opp dt fuel q <> None.
  Proof.
    induction fuel as [|fuel IH]; intros q Hq.
    - destruct q as [|el r]; [cbn; discriminate|]. cbn [costs] in Hq. unfold cost in Hq. lia.
    - destruct q as [|el r]; cbn [path_loop]; [discriminate|]. cbn [costs] in Hq.
      destruct (step M e opp dt el) as [ev| |] eqn:E; try discriminate.
      assert (Rest : path_loop M e opp dt fuel r <> None) by (apply IH; unfold cost in Hq; lia).
      destruct ev as [el'|el' bi|el'|el'|el' bi].
      + destruct (step_life el el' (or_introl E)) as [A B]. apply IH. cbn [costs]. unfold cost in *. lia.
      + destruct (step_life el el' (or_intror (ex_intro _ bi E))) as [A B].
        assert (X : path_loop M e opp dt fuel (el' :: r) <> None) by (apply IH; cbn [costs]; unfold cost in *; lia).
        destruct (path_loop M e opp dt fuel (el' :: r)); cbn; congruence.
      + destruct (path_loop M e opp dt fuel r); cbn; congruence.
      + destruct (path_loop M e opp dt fuel r); cbn; congruence.
      + destruct (path_loop M e opp dt fuel r); cbn; congruence.
  Qed.

  Lemma costs_fresh q : (forall el, In el q -> lifeTimeCounter el = 0%nat) -> costs q = (51 * length q)%nat.
  Proof.
    induction q as [|el r IH]; intros H; cbn [costs length]; [lia|].
    rewrite IH by (intros; apply H; right; assumption). unfold cost. rewrite (H el (or_introl eq_refl)). cbn. lia.
  Qed.

  Lemma start_fresh dirs (c : cell) pts el : In el (start_trackers e dt dirs c pts) -> lifeTimeCounter el = 0%nat.
  Proof.
    unfold start_trackers. intros H. apply in_flat_map in H. destruct H as (ix & _ & H). apply in_map_iff in H.
    destruct H as (a & <- & _). reflexivity.
  Qed.

  Lemma more_fuel fuel : forall q r extra, path_loop M e opp dt fuel q = Some r -> path_loop M e opp dt (fuel + extra) q = Some r.
  Proof.
    induction fuel as [|fuel IH]; intros q r extra H.
    - destruct q; cbn in H; [|discriminate]. destruct extra; cbn; exact H.
    - destruct q as [|el q]; cbn [path_loop Nat.add] in *; [exact H|].
      destruct (step M e opp dt el) as [ev| |]; auto. destruct ev as [el'|el' bi|el'|el'|el' bi].
      + apply IH. exact H.
      + destruct (path_loop M e opp dt fuel (el' :: q)) as [x|] eqn:E; cbn in H; [|discriminate]. rewrite (IH _ _ extra E). exact H.
      + destruct (path_loop M e opp dt fuel q) as [x|] eqn:E; cbn in H; [|discriminate]. rewrite (IH _ _ extra E). exact H.
      + destruct (path_loop M e opp dt fuel q) as [x|] eqn:E; cbn in H; [|discriminate]. rewrite (IH _ _ extra E). exact H.
      + destruct (path_loop M e opp dt fuel q) as [x|] eqn:E; cbn in H; [|discriminate]. rewrite (IH _ _ extra E). exact H.
  Qed.

  (** *** Destinations *)
  Definition dest (el : tracker cell) : nat * nat := (dest_index el, dest_direction el).
  Definition final (ev : event cell) : option (nat * nat) :=
    match ev with Diagonal el | Found el | Hit el _ => Some (dest el) | Continue _ | ContinueHit _ _ => None end.
  Fixpoint finals (l : list (event cell)) : list (nat * nat) :=
    match l with [] => [] | ev :: r => match final ev with Some d => d :: finals r | None => finals r end end.

  Lemma step_dest el ev : step M e opp dt el = Ok ev ->
    match ev with Continue el' | ContinueHit el' _ | Diagonal el' | Found el' | Hit el' _ => dest el' = dest el end.
  Proof.
    unfold step. cbn [lifeTimeCounter currentCell currentPoint departurePoint dest_index dest_direction currentDirection hit_do_nothing].
    destruct (Nat.ltb 50 _); [intros H; injection H as <-; reflexivity|].
    destruct (findFace M _ _ _) as [r| |]; cbn [obind]; try discriminate.
    destruct r as [k|]; [|intros H; injection H as <-; reflexivity].
    destruct (face_behind M _ _) as [c| |ac op|b|b|b]; try discriminate; try (intros H; injection H as <-; reflexivity).
    destruct (owned_or_ghost M c); [|discriminate]. intros H; injection H as <-; reflexivity.
  Qed.

  Lemma loop_dest fuel : forall q l, path_loop M e opp dt fuel q = Some (Ok l) -> finals l = map dest q.
  Proof.
    induction fuel as [|fuel IH]; intros q l H.
    - destruct q; cbn in H; [injection H as <-; reflexivity|discriminate].
    - destruct q as [|el q]; cbn [path_loop] in H; [injection H as <-; reflexivity|].
      destruct (step M e opp dt el) as [ev| |] eqn:S; try discriminate. apply step_dest in S.
      destruct ev as [el'|el' bi|el'|el'|el' bi].
      + apply IH in H. cbn [map] in *. rewrite <- S. exact H.
      + destruct (path_loop M e opp dt fuel (el' :: q)) as [[x| |]|] eqn:E; cbn in H; try discriminate.
        injection H as <-. apply IH in E. cbn [finals final map] in *. rewrite <- S. exact E.
      + destruct (path_loop M e opp dt fuel q) as [[x| |]|] eqn:E; cbn in H; try discriminate.
        injection H as <-. apply IH in E. cbn [finals final map]. rewrite <- S, E. reflexivity.
      + destruct (path_loop M e opp dt fuel q) as [[x| |]|] eqn:E; cbn in H; try discriminate.
        injection H as <-. apply IH in E. cbn [finals final map]. rewrite <- S, E. reflexivity.
      + destruct (path_loop M e opp dt fuel q) as [[x| |]|] eqn:E; cbn in H; try discriminate.
        injection H as <-. apply IH in E. cbn [finals final map]. rewrite <- S, E. reflexivity.
  Qed.

  (** *** Found points *)
  Hypothesis Hdim : (0 < dim M)%nat.
  Hypothesis Hmap : forall c x, to_unit M c x <> None.

  Lemma find_none c x y : findFace M c x y = Ok None -> located M c y.
  Proof.
    unfold findFace, faceCrossedFirst. destruct (to_unit M c x) as [u|] eqn:E; [|discriminate].
    destruct (to_unit M c y) as [v|] eqn:E'; [|exfalso; exact (Hmap c y E')].
    intros H. exists v. split; [exact E'|]. destruct (crossed_unit (dim M) u v) as [r| |] eqn:C; try discriminate.
    assert (Hu : nearly_inside (dim M) u).
    { unfold crossed_unit in C. destruct (all_inside (dim M) (snap_point u)) eqn:A; [|discriminate].
      apply all_inside_iff in A. intros i Hi. fold tol. apply snap_inside. apply A. exact Hi. }
    destruct (crossed_unit_spec (dim M) u v Hdim Hu) as (r' & C' & N & _). rewrite C in C'. injection C' as <-.
    cbn [obind option_map] in H. apply N. destruct r; [discriminate|reflexivity].
  Qed.

  Lemma step_found el el' : step M e opp dt el = Ok (Found el') -> located M (currentCell el') (departurePoint el').
  Proof.
    unfold step. cbn [lifeTimeCounter currentCell currentPoint departurePoint dest_index dest_direction currentDirection hit_do_nothing].
    destruct (Nat.ltb 50 _); [discriminate|].
    destruct (findFace M _ _ _) as [r| |] eqn:F; cbn [obind]; try discriminate.
    destruct r as [k|].
    - destruct (face_behind M _ _) as [c| |ac op|b|b|b]; try discriminate. destruct (owned_or_ghost M c); discriminate.
    - intros H. injection H as <-. cbn [currentCell departurePoint]. exact (find_none _ _ _ F).
  Qed.

  Lemma loop_found fuel : forall q l el, path_loop M e opp dt fuel q = Some (Ok l) -> In (Found el) l ->
    located M (currentCell el) (departurePoint el).
  Proof.
    induction fuel as [|fuel IH]; intros q l el H Hin.
    - destruct q; cbn in H; [injection H as <-; destruct Hin|discriminate].
    - destruct q as [|e0 q]; cbn [path_loop] in H; [injection H as <-; destruct Hin|].
      destruct (step M e opp dt e0) as [ev| |] eqn:S; try discriminate.
      destruct ev as [el'|el' bi|el'|el'|el' bi].
      + exact (IH _ _ _ H Hin).
      + destruct (path_loop M e opp dt fuel (el' :: q)) as [[x| |]|] eqn:E; cbn in H; try discriminate.
        injection H as <-. destruct Hin as [X|Hin]; [discriminate|exact (IH _ _ _ E Hin)].
      + destruct (path_loop M e opp dt fuel q) as [[x| |]|] eqn:E; cbn in H; try discriminate.
        injection H as <-. destruct Hin as [X|Hin]; [discriminate|exact (IH _ _ _ E Hin)].
      + destruct (path_loop M e opp dt fuel q) as [[x| |]|] eqn:E; cbn in H; try discriminate.
        injection H as <-. destruct Hin as [X|Hin]; [injection X as <-; exact (step_found _ _ S)|exact (IH _ _ _ E Hin)].
      + destruct (path_loop M e opp dt fuel q) as [[x| |]|] eqn:E; cbn in H; try discriminate.
        injection H as <-. destruct Hin as [X|Hin]; [discriminate|exact (IH _ _ _ E Hin)].
  Qed.
End Any.

(** ** Periodic Cartesian meshes *)
Section Torus.
  Context (D : nat) (N : nat -> Z) (h : nat -> R) (plane : index -> nat -> point * point)
          (e : nat -> point) (opp : nat -> nat) (dt : R).
  Hypothesis HD : (0 < D)%nat.
  Hypothesis HN : forall i, (i < D)%nat -> (2 <= N i)%Z.
  Hypothesis Hh : forall i, (i < D)%nat -> 0 < h i.
  Let M := torus D N h plane.

  Definition nearly_in (z : index) (x : point) : Prop := nearly_inside D (fun i => x i / h i - IZR (z i)).

  Lemma find_face z x y : nearly_in z x -> exists r, findFace M z x y = Ok r /\ (r = None <-> nearly_in z y) /\
    forall k, r = Some k -> exists d s, (d < D)%nat /\ is_face (cr_face k) d s /\
      beyond (fun i => y i / h i - IZR (z i)) d s /\
      cr_point k d / h d - IZR (z d) = INR s /\ inside D (fun i => cr_point k i / h i - IZR (z i)).
  Proof.
    intros Hx. destruct (crossed_unit_spec D _ (fun i => y i / h i - IZR (z i)) HD Hx) as (r & E & Hn & Hk).
    unfold findFace, faceCrossedFirst. cbn [to_unit M torus dim]. unfold M, torus. cbn [to_unit dim to_real].
    rewrite E. cbn [obind]. eexists. split; [reflexivity|]. split.
    - destruct r; cbn [option_map]; [|tauto]. split; [discriminate|]. intros Hy. apply Hn in Hy. discriminate.
    - intros k Ek. destruct r as [k0|]; [|discriminate]. cbn [option_map] in Ek. injection Ek as <-. cbn [cr_face cr_point].
      destruct (Hk k0 eq_refl) as (d & s & H1 & H2 & H3 & H4 & H5 & _). exists d, s.
      split; [exact H1|]. split; [exact H2|]. split; [exact H3|].
      assert (C : forall i, (i < D)%nat -> (cr_point k0 i + IZR (z i)) * h i / h i - IZR (z i) = cr_point k0 i).
      { intros i Hi. assert (P := Hh i Hi). field. lra. }
      split; [rewrite C by exact H1; exact H4|]. intros i Hi. rewrite C by exact Hi. apply H5. exact Hi.
  Qed.

  Lemma distance_move n t z d k : (distance n t z = distance n t (move z d k) + (if Nat.ltb d n then Z.abs_nat (t d - z d) else 0)
     - (if Nat.ltb d n then Z.abs_nat (t d - k) else 0))%nat /\
     ((if Nat.ltb d n then Z.abs_nat (t d - k) else 0) <= distance n t (move z d k))%nat.
  Proof.
    induction n as [|n IH]; cbn [distance].
    - destruct d; cbn; lia.
    - unfold move at 2 4. destruct IH as [IH1 IH2].
      destruct (Nat.eqb_spec n d) as [->|Hne].
      + rewrite Nat.ltb_irrefl in *. assert (L : Nat.ltb d (S d) = true) by (apply Nat.ltb_lt; lia). rewrite L.
        rewrite Nat.sub_0_r, Nat.add_0_r in IH1. lia.
      + assert (L : Nat.ltb d (S n) = Nat.ltb d n).
        { destruct (Nat.ltb_spec d n); [apply Nat.ltb_lt; lia|apply Nat.ltb_ge; lia]. }
        rewrite L. destruct (Nat.ltb d n); lia.
  Qed.

  Lemma distance_0 n t z : distance n t z = 0%nat -> forall i, (i < n)%nat -> z i = t i.
  Proof.
    induction n as [|n IH]; intros E i Hi; [lia|]. cbn [distance] in E.
    destruct (Nat.eq_dec i n) as [->|Hne]; [|apply IH; lia]. assert (Z.abs_nat (t n - z n) = 0)%nat by lia. lia.
  Qed.

  (** One pass: found, or one face closer to the target. *)
  Definition good (el : tracker index) (t : index) : Prop :=
    in_grid D N (currentCell el) /\ nearly_in (currentCell el) (currentPoint el) /\ nearly_in t (departurePoint el) /\
    hit_do_nothing el = false.
  Definition same (el el' : tracker index) : Prop :=
    dest_index el' = dest_index el /\ dest_direction el' = dest_direction el /\ currentDirection el' = currentDirection el.

  Lemma congruent_refl x : congruent D N h x x.
  Proof. intros i _. exists 0%Z. ring. Qed.
  Lemma congruent_trans x y w : congruent D N h x y -> congruent D N h y w -> congruent D N h x w.
  Proof.
    intros A B i Hi. destruct (A i Hi) as [k Ek]. destruct (B i Hi) as [j Ej]. exists (k + j)%Z. rewrite Ek, Ej, plus_IZR. ring.
  Qed.

  Lemma torus_step el t : good el t -> (lifeTimeCounter el < 50)%nat ->
    (exists el', step M e opp dt el = Ok (Found el') /\ same el el' /\ in_grid D N (currentCell el') /\
       nearly_in (currentCell el') (departurePoint el') /\ congruent D N h (departurePoint el') (departurePoint el)) \/
    (exists el' t', step M e opp dt el = Ok (Continue el') /\ same el el' /\ good el' t' /\
       lifeTimeCounter el' = S (lifeTimeCounter el) /\ congruent D N h (departurePoint el') (departurePoint el) /\
       ~ nearly_in (currentCell el) (departurePoint el) /\
       distance D t (currentCell el) = S (distance D t' (currentCell el'))).
  Proof.
    intros (G1 & G2 & G3 & G4) HL. unfold step.
    cbn [lifeTimeCounter currentCell currentPoint departurePoint dest_index dest_direction currentDirection hit_do_nothing].
    destruct (Nat.ltb_spec 50 (S (lifeTimeCounter el))) as [L|L]; [lia|].
    set (z := currentCell el) in *. set (y := departurePoint el) in *.
    destruct (find_face z (currentPoint el) y G2) as (r & E & Hn & Hk). rewrite E. cbn [obind].
    destruct r as [k|].
    2:{ left. rewrite G4. eexists. split; [reflexivity|]. cbn [currentCell departurePoint].
        split; [split; [|split]; reflexivity|]. split; [exact G1|]. split; [apply Hn; reflexivity|apply congruent_refl]. }
    right. destruct (Hk k eq_refl) as (d & s & Hd & (Ef & Hs) & Hb & Hp & Hpin).
    assert (HN' := HN d Hd). assert (Hhd := Hh d Hd). assert (Hz := G1 d Hd). assert (Ht := G3 d Hd). cbn beta in Ht. fold tol in Ht.
    assert (T := tol_small).
    assert (Hnot : ~ nearly_in z y) by (intros C; apply Hn in C; discriminate).
    assert (Ediv : (cr_face k / 2)%nat = d).
    { rewrite Ef. destruct Hs as [-> | ->]; [rewrite Nat.add_0_r, Nat.mul_comm; apply Nat.div_mul; lia|].
      rewrite (Nat.mul_comm 2 d), Nat.div_add_l by lia. cbn. lia. }
    assert (Emod : (cr_face k mod 2)%nat = s).
    { rewrite Ef. destruct Hs as [-> | ->]; rewrite Nat.add_comm, Nat.mul_comm, Nat.mod_add by lia; reflexivity. }
    (* the unit coordinates of a point behind the face *)
    assert (Pt : forall a z' x', (forall i, i <> d -> z' i = z i /\ x' i = cr_point k i) ->
      x' d / h d - IZR (z' d) = a -> 0 <= a <= 1 -> nearly_in z' x').
    { intros a z' x' Hother Ha Ha01 i Hi. fold tol. destruct (Nat.eq_dec i d) as [->|Hne].
      - rewrite Ha. lra.
      - destruct (Hother i Hne) as [-> ->]. assert (X := Hpin i Hi). cbn beta in X. lra. }
    (* shifting target and departure point *)
    assert (Sh : forall m : Z, nearly_in (move t d (t d + m * N d)) (shift d (IZR m * (IZR (N d) * h d)) y) /\
                 congruent D N h (shift d (IZR m * (IZR (N d) * h d)) y) y).
    { intros m. split.
      - intros i Hi. unfold move, shift. assert (X := G3 i Hi). cbn beta in X. destruct (Nat.eqb_spec i d) as [->|Hne]; [|exact X].
        replace ((y d + IZR m * (IZR (N d) * h d)) / h d - IZR (t d + m * N d)) with (y d / h d - IZR (t d)); [exact X|].
        rewrite plus_IZR, mult_IZR. field. lra.
      - intros i Hi. unfold shift. destruct (Nat.eqb_spec i d) as [->|Hne]; [exists m; reflexivity|exists 0%Z; ring]. }
    assert (Move1 : forall i v, i <> d -> move z d v i = z i).
    { intros i v Hne. unfold move. destruct (Nat.eqb_spec i d); [contradiction|reflexivity]. }
    assert (Moved : forall v, move z d v d = v) by (intros v; unfold move; rewrite Nat.eqb_refl; reflexivity).
    assert (MoveT : forall v, move t d v d = v) by (intros v; unfold move; rewrite Nat.eqb_refl; reflexivity).
    assert (Grid : forall v, (0 <= v < N d)%Z -> in_grid D N (move z d v)).
    { intros v Hv i Hi. destruct (Nat.eq_dec i d) as [->|Hne]; [rewrite Moved; exact Hv|rewrite Move1 by exact Hne; apply G1; exact Hi]. }
    assert (Dist : forall v w, (Z.abs_nat (t d - z d) = S (Z.abs_nat (v - w)))%nat ->
       distance D t z = S (distance D (move t d v) (move z d w))).
    { intros v w Hvw.
      assert (Sym : forall n a b, distance n a b = distance n b a).
      { induction n as [|n IHn]; intros a b; cbn [distance]; [reflexivity|]. rewrite (IHn a b). f_equal. lia. }
      assert (Ltb : Nat.ltb d D = true) by (apply Nat.ltb_lt; exact Hd).
      destruct (distance_move D t z d w) as [A1 A2]. rewrite Ltb in A1, A2.
      destruct (distance_move D (move z d w) t d v) as [B1 B2]. rewrite Ltb in B1, B2. rewrite Moved in B1, B2.
      rewrite (Sym D (move z d w) t) in B1. rewrite (Sym D (move z d w) (move t d v)) in B1, B2.
      replace (Z.abs_nat (w - v)) with (Z.abs_nat (v - w)) in * by lia.
      replace (Z.abs_nat (w - t d)) with (Z.abs_nat (t d - w)) in * by lia. lia. }
    assert (MT : forall v, v = t d -> forall i, move t d v i = t i).
    { intros v -> i. unfold move. destruct (Nat.eqb_spec i d) as [->|]; reflexivity. }
    unfold M, torus. cbn [face_behind owned_or_ghost]. unfold torus_behind. rewrite Ediv, Emod.
    destruct Hs as [-> | ->]; cbn [Nat.eqb].
    - (* lower face *)
      unfold beyond in Hb. cbn [Nat.eqb] in Hb. fold tol in Hb. cbn [INR] in Hp.
      assert (Lt : (t d < z d)%Z) by (apply lt_IZR; lra).
      destruct (Z.eqb_spec (z d) 0) as [E0|E0].
      + destruct (Sh 1%Z) as [S1 S2].
        eexists _, (move t d (t d + 1 * N d)). split; [reflexivity|].
        cbn [currentCell currentPoint departurePoint hit_do_nothing lifeTimeCounter].
        assert (Esh : shift d (IZR (N d) * h d) = shift d (1 * (IZR (N d) * h d))) by (rewrite Rmult_1_l; reflexivity).
        split; [split; [|split]; reflexivity|]. split; [|split; [reflexivity|split; [rewrite Esh; exact S2|split; [exact Hnot|]]]].
        * split; [apply Grid; lia|]. split; [|split; [rewrite Esh; exact S1|exact G4]].
          apply (Pt 1 (move z d (N d - 1)%Z) (shift d (IZR (N d) * h d) (cr_point k))); [|rewrite Moved; unfold shift; rewrite Nat.eqb_refl|lra].
          -- intros i Hne. split; [apply Move1; exact Hne|]. unfold shift. destruct (Nat.eqb_spec i d); [contradiction|reflexivity].
          -- rewrite minus_IZR. replace ((cr_point k d + IZR (N d) * h d) / h d) with (cr_point k d / h d + IZR (N d)) by (field; lra).
             rewrite E0 in Hp. lra.
        * apply Dist. lia.
      + eexists _, (move t d (t d)). split; [reflexivity|].
        cbn [currentCell currentPoint departurePoint hit_do_nothing lifeTimeCounter].
        split; [split; [|split]; reflexivity|]. split; [|split; [reflexivity|split; [apply congruent_refl|split; [exact Hnot|]]]].
        * split; [apply Grid; lia|]. split; [|split; [|exact G4]].
          -- apply (Pt 1 (move z d (z d - 1)%Z) (cr_point k)); [|rewrite Moved|lra].
             ++ intros i Hne. split; [apply Move1; exact Hne|reflexivity].
             ++ rewrite minus_IZR. lra.
          -- intros i Hi. rewrite (MT _ eq_refl). apply G3. exact Hi.
        * apply Dist. lia.
    - (* upper face *)
      unfold beyond in Hb. cbn [Nat.eqb] in Hb. fold tol in Hb. cbn [INR] in Hp.
      assert (Lt : (z d < t d)%Z) by (apply lt_IZR; lra).
      destruct (Z.eqb_spec (z d) (N d - 1)) as [E0|E0].
      + destruct (Sh (-1)%Z) as [S1 S2].
        eexists _, (move t d (t d + -1 * N d)). split; [reflexivity|].
        cbn [currentCell currentPoint departurePoint hit_do_nothing lifeTimeCounter].
        assert (Esh : shift d (- (IZR (N d) * h d)) = shift d (-1 * (IZR (N d) * h d))) by (f_equal; ring).
        split; [split; [|split]; reflexivity|]. split; [|split; [reflexivity|split; [rewrite Esh; exact S2|split; [exact Hnot|]]]].
        * split; [apply Grid; lia|]. split; [|split; [rewrite Esh; exact S1|exact G4]].
          apply (Pt 0 (move z d 0%Z) (shift d (- (IZR (N d) * h d)) (cr_point k))); [|rewrite Moved; unfold shift; rewrite Nat.eqb_refl|lra].
          -- intros i Hne. split; [apply Move1; exact Hne|]. unfold shift. destruct (Nat.eqb_spec i d); [contradiction|reflexivity].
          -- replace ((cr_point k d + - (IZR (N d) * h d)) / h d) with (cr_point k d / h d - IZR (N d)) by (field; lra).
             rewrite E0, minus_IZR in Hp. lra.
        * apply Dist. lia.
      + eexists _, (move t d (t d)). split; [reflexivity|].
        cbn [currentCell currentPoint departurePoint hit_do_nothing lifeTimeCounter].
        split; [split; [|split]; reflexivity|]. split; [|split; [reflexivity|split; [apply congruent_refl|split; [exact Hnot|]]]].
        * split; [apply Grid; lia|]. split; [|split; [|exact G4]].
          -- apply (Pt 0 (move z d (z d + 1)%Z) (cr_point k)); [|rewrite Moved|lra].
             ++ intros i Hne. split; [apply Move1; exact Hne|reflexivity].
             ++ rewrite plus_IZR. lra.
          -- intros i Hi. rewrite (MT _ eq_refl). apply G3. exact Hi.
        * apply Dist. lia.
  Qed.

  (** The whole path of one tracker. *)
  Definition arrived (el : tracker index) (ev : event index) : Prop :=
    exists el', ev = Found el' /\ same el el' /\ in_grid D N (currentCell el') /\
      nearly_in (currentCell el') (departurePoint el') /\ congruent D N h (departurePoint el') (departurePoint el).

  Lemma torus_path m : forall el t rest fuel, good el t -> distance D t (currentCell el) = m ->
    (lifeTimeCounter el + m < 50)%nat -> exists ev, arrived el ev /\
    exists fuel', (fuel' <= S m)%nat /\ path_loop M e opp dt (fuel' + fuel) (el :: rest)
      = option_map (fun o => obind o (fun l => Ok (ev :: l))) (path_loop M e opp dt fuel rest).
  Proof.
    induction m as [|m IH]; intros el t rest fuel Hg Hm Hl.
    - destruct (torus_step el t Hg ltac:(lia)) as [(el' & E & H)|(el' & t' & E & _ & _ & _ & _ & _ & Hd)]; [|lia].
      exists (Found el'). split; [exists el'; split; [reflexivity|exact H]|]. exists 1%nat. split; [lia|].
      cbn [Nat.add path_loop]. rewrite E. reflexivity.
    - destruct (torus_step el t Hg ltac:(lia)) as [(el' & E & H)|(el' & t' & E & Hs & Hg' & Hlife & Hc & _ & Hd)].
      + exists (Found el'). split; [exists el'; split; [reflexivity|exact H]|]. exists 1%nat. split; [lia|].
        cbn [Nat.add path_loop]. rewrite E. reflexivity.
      + destruct (IH el' t' rest fuel Hg' ltac:(lia) ltac:(lia)) as (ev & (el2 & E2 & S2 & A & B & C) & fuel' & Hf & P).
        exists ev. split.
        * exists el2. split; [exact E2|]. split; [|split; [exact A|split; [exact B|apply (congruent_trans _ _ _ C Hc)]]].
          destruct S2 as (X1 & X2 & X3). destruct Hs as (Y1 & Y2 & Y3). unfold same. rewrite X1, X2, X3. auto.
        * exists (S fuel'). split; [lia|]. cbn [Nat.add path_loop]. rewrite E. exact P.
  Qed.

  Lemma torus_all : forall q, (forall el, In el q -> lifeTimeCounter el = 0%nat /\
      exists t, good el t /\ (distance D t (currentCell el) < 50)%nat) ->
    exists l, path_loop M e opp dt (51 * length q) q = Some (Ok l) /\ Forall2 arrived q l.
  Proof.
    induction q as [|el q IH]; intros H.
    - exists []. split; [reflexivity|constructor].
    - destruct IH as (l & E & F); [intros x Hx; apply H; right; exact Hx|].
      destruct (H el (or_introl eq_refl)) as (H0 & t & Hg & Hd).
      destruct (torus_path _ el t q (51 * length q) Hg eq_refl ltac:(lia)) as (ev & Ha & fuel' & Hf & P).
      rewrite E in P. cbn [option_map obind] in P. exists (ev :: l). split; [|constructor; assumption].
      cbn [length]. replace (51 * S (length q))%nat with (fuel' + 51 * length q + (51 - fuel'))%nat by lia.
      apply more_fuel. exact P.
  Qed.

  (** The limit: a path with 50 or more faces is dropped. *)
  Lemma torus_dropped n : forall el t rest fuel, good el t -> (lifeTimeCounter el + n = 50)%nat ->
    (n <= distance D t (currentCell el))%nat ->
    (forall z x, nearly_in z x -> congruent D N h x (departurePoint el) -> forall t', nearly_in t' x -> forall i, (i < D)%nat -> z i = t' i) ->
    exists el', same el el' /\ path_loop M e opp dt (S n + fuel) (el :: rest)
      = option_map (fun o => obind o (fun l => Ok (Diagonal el' :: l))) (path_loop M e opp dt fuel rest).
  Proof.
    induction n as [|n IH]; intros el t rest fuel Hg Hl Hd Hcong.
    - cbn [Nat.add path_loop]. unfold step. cbn [lifeTimeCounter].
      destruct (Nat.ltb_spec 50 (S (lifeTimeCounter el))) as [L|L]; [|lia]. eexists. split; [|reflexivity]. split; [|split]; reflexivity.
    - destruct (torus_step el t Hg ltac:(lia)) as [(el' & E & Hs & G & Hn & Hc)|(el' & t' & E & Hs & Hg' & Hlife & Hc & _ & Hd')].
      + exfalso. unfold step in E.
        cbn [lifeTimeCounter currentCell currentPoint departurePoint dest_index dest_direction currentDirection hit_do_nothing] in E.
        destruct (Nat.ltb 50 _); [discriminate|]. destruct Hg as (G1 & G2 & G3 & G4).
        destruct (find_face (currentCell el) (currentPoint el) (departurePoint el) G2) as (r & E' & Hnone & _).
        rewrite E' in E. cbn [obind] in E. destruct r as [k|].
        * destruct (face_behind M _ _) as [c| |ac op|b|b|b]; try discriminate; destruct (owned_or_ghost M c); discriminate.
        * assert (X := proj1 Hnone eq_refl).
          assert (Y : forall i, (i < D)%nat -> currentCell el i = t i).
          { apply (Hcong (currentCell el) (departurePoint el) X (congruent_refl _) t G3). }
          assert (Z : distance D t (currentCell el) = 0%nat).
          { clear - Y. induction D as [|k IHk]; cbn [distance]; [reflexivity|]. rewrite IHk by (intros; apply Y; lia).
            rewrite (Y k) by lia. lia. }
          lia.
      + destruct (IH el' t' rest fuel Hg' ltac:(lia) ltac:(lia)) as (el2 & S2 & P).
        * intros z x Hx Hcx t2 Ht2 i Hi. apply (Hcong z x Hx (congruent_trans _ _ _ Hcx Hc) t2 Ht2 i Hi).
        * exists el2. split.
          -- destruct S2 as (X1 & X2 & X3). destruct Hs as (Y1 & Y2 & Y3). unfold same. rewrite X1, X2, X3. auto.
          -- change (S (S n) + fuel)%nat with (S (S n + fuel)). cbn [path_loop]. rewrite E. exact P.
  Qed.
End Torus.
