(** Streaming on any mesh without boundaries. *)
From Coq Require Import FunctionalExtensionality.
From Verif Require Import Prelude BigSum ModelSemiLagrangian SpecSemiLagrangian SpecStream ProofSemiLagrangian ProofSemiLagrangian2
  ProofSemiLagrangian3 ProofSemiLagrangian4.
Local Open Scope R_scope.

(** ** From the rows of the paths to the rows of the matrix *)
Section Rows.
  Context {cell : Type} (M : mesh cell) (e : nat -> point) (opp : nat -> nat) (dt : R)
          (n : nat) (node : nat -> point) (dofs : cell -> nat -> nat) (Q : nat) (shape : nat -> point -> R) (cells : list cell).
  Let dirs := List.seq 1 (Q - 1).
  Context (P : point -> cell -> point -> Prop).
  Hypothesis Hrow : forall el, In el (trackers M e dt n node dofs dirs cells []) ->
    exists c2 u, P (departurePoint el) c2 u /\
      outputs M e opp dt (event_entries M shape dofs n) el (row_entries n (dest_direction el) (dest_direction el) (dest_index el) (dofs c2) (fun j => shape j u)).

  Lemma rows_assembled : exists z, assemble M e opp dt n node dofs Q shape cells = Some (Ok z) /\
    forall c j a, In c cells -> (j < n)%nat -> (1 <= a < Q)%nat ->
    exists c' j' c2 u, In c' cells /\ (j' < n)%nat /\ dofs c' j' = dofs c j /\
      P (fun i => to_real M c' (node j') i + minus_dtealpha e dt a i) c2 u /\
      forall f, apply_row z f (a - 1) (dofs c j)
        = sumf n (fun k => if Rlt_dec (Rabs (shape k u)) tol then 0 else shape k u * f (a - 1)%nat (dofs c2 k)).
  Proof.
    destruct (Forall2_build (fun el x => exists c2 u, P (departurePoint el) c2 u /\
      outputs M e opp dt (event_entries M shape dofs n) el x /\
      x = row_entries n (dest_direction el) (dest_direction el) (dest_index el) (dofs c2) (fun j => shape j u))
      (trackers M e dt n node dofs dirs cells [])) as (xs & F).
    { intros el Hel. destruct (Hrow el Hel) as (c2 & u & A & O). eexists. exists c2, u.
      split; [exact A|]. split; [exact O|reflexivity]. }
    exists (concat xs). split.
    { unfold assemble. apply fill_ok. exists xs. split; [|reflexivity]. fold dirs. clear -F.
      induction F as [|e0 x0 q xs (c2 & u & _ & O & _) F IH]; constructor; assumption. }
    intros c j a Hc Hj Ha.
    destruct (trackers_complete M e dt n node dofs dirs cells [] c j a Hc Hj ltac:(apply in_seq; lia) ltac:(intros [])) as (el & Hel & Ed).
    assert (Hcomb : exists x, In (el, x) (combine (trackers M e dt n node dofs dirs cells []) xs) /\ exists c2 u, P (departurePoint el) c2 u /\
      x = row_entries n (dest_direction el) (dest_direction el) (dest_index el) (dofs c2) (fun j => shape j u)).
    { clear -F Hel. induction F as [|e0 x0 q xs (c2 & u & A & O & X) F IH]; [destruct Hel|]. destruct Hel as [<-|Hel].
      - exists x0. split; [left; reflexivity|]. exists c2, u. auto.
      - destruct (IH Hel) as (x & Hx & I). exists x. split; [right; exact Hx|exact I]. }
    destruct Hcomb as (x & Hx & c2 & u & HP & Ex).
    unfold dest in Ed. injection Ed as Ei Ea.
    destruct (trackers_origin M e dt n node dofs dirs cells [] el Hel) as (c' & j' & a' & Hc' & Hj' & _ & _ & El).
    exists c', j', c2, u. split; [exact Hc'|]. split; [exact Hj'|].
    split; [rewrite El in Ei; exact Ei|]. split.
    - rewrite El in Ea, HP. cbn [dest_direction departurePoint] in Ea, HP. subst a'. exact HP.
    - intros f. rewrite <- Ea, <- Ei. rewrite (row_of_tracker xs (trackers M e dt n node dofs dirs cells []) f el x); [rewrite Ex; apply apply_row_entries| | | |exact Hx].
      + assert (Fr : forall el, In el (trackers M e dt n node dofs dirs cells []) -> lifeTimeCounter el = 0%nat)
          by (intros; eapply trackers_fresh; eassumption).
        clear -F Fr. induction F as [|e0 x0 q xs (c2 & u & A & O & X) F IH]; constructor.
        * apply (entries_row M e opp dt n dofs shape e0 x0 (Fr e0 (or_introl eq_refl)) O).
        * apply IH. intros el Hel. apply Fr. right. exact Hel.
      + intros e1 He1. apply trackers_origin in He1. destruct He1 as (c1 & j1 & a1 & _ & _ & Ha' & _ & ->). apply in_seq in Ha'.
        cbn [dest_direction]. lia.
      + apply trackers_nodup. apply seq_NoDup.
  Qed.
End Rows.

(** ** Paths *)
Section Paths.
  Context {cell : Type} (M : mesh cell) (ok : cell -> Prop) (same : point -> point -> Prop) (e : nat -> point) (opp : nat -> nat) (dt : R).
  Hypothesis Hdim : (0 < dim M)%nat.
  Hypothesis CM : closed_mesh M ok same.

  Lemma is_face_div f d s : is_face f d s -> (f / 2 = d /\ f mod 2 = s)%nat.
  Proof.
    intros [-> Hs]. assert (s < 2)%nat by lia. split.
    - rewrite Nat.mul_comm, Nat.div_add_l by lia. rewrite Nat.div_small by lia. lia.
    - rewrite Nat.add_comm, Nat.mul_comm, Nat.mod_add by lia. apply Nat.mod_small. lia.
  Qed.

  (** One crossing, or arrival. *)
  Lemma find_face_closed c p q : ok c -> located M c p -> exists r, findFace M c p q = Ok r /\ (r = None -> located M c q) /\
    forall k, r = Some k -> exists f u pu qu lam, cr_face k = f /\ cr_point k = to_real M c u /\ to_unit M c p = Some pu /\ to_unit M c q = Some qu /\
      ~ nearly_inside (dim M) qu /\ on_face (dim M) f u /\ beyond qu (f / 2) (f mod 2) /\ 0 <= lam <= 1 /\
      (forall i, (i < dim M)%nat -> Rabs (u i - along pu qu lam i) < 2 / 10 ^ 10).
  Proof.
    intros Hc (pu & Ep & Np). destruct (cm_unit _ _ _ CM c q Hc) as (qu & Eq & _). unfold findFace, faceCrossedFirst. rewrite Ep, Eq.
    destruct (crossed_unit_spec (dim M) pu qu Hdim Np) as (r & E & N & H). rewrite E. cbn [obind]. eexists. split; [reflexivity|]. split.
    - intros H0. exists qu. split; [exact Eq|]. apply N. destruct r; [discriminate|reflexivity].
    - intros k Hk. destruct r as [k0|]; [|discriminate]. cbn [option_map] in Hk. injection Hk as <-. destruct (H k0 eq_refl) as (d & s & Hd & Hf & B & C & I & L & A & _).
      exists (cr_face k0), (cr_point k0), pu, qu, (cr_lambda k0). cbn [cr_face cr_point]. destruct (is_face_div _ _ _ Hf) as [E1 E2]. unfold on_face. rewrite E1, E2.
      split; [reflexivity|]. split; [reflexivity|]. split; [reflexivity|]. split; [reflexivity|]. split; [intros X; apply N in X; discriminate|].
      split; [split; [destruct Hf as [Hf1 Hs]; lia|split; [exact I|exact C]]|]. split; [exact B|]. split; [exact L|exact A].
  Qed.

  (** Followed to its end, or 50 cells left. *)
  Lemma path_closed m : forall el, ok (currentCell el) -> located M (currentCell el) (currentPoint el) -> hit_do_nothing el = false -> (lifeTimeCounter el + m = 50)%nat ->
    (exists el', path_loop M e opp dt (S m) [el] = Some (Ok [Found el']) /\ dest_index el' = dest_index el /\ dest_direction el' = dest_direction el /\ currentDirection el' = currentDirection el /\
       ok (currentCell el') /\ located M (currentCell el') (departurePoint el') /\ same (departurePoint el') (departurePoint el)) \/
    chain M m (currentCell el) (currentPoint el) (departurePoint el).
  Proof.
    induction m as [|m IH]; intros el Hc Hl Hn Hm; [right; constructor|].
    destruct (find_face_closed _ _ (departurePoint el) Hc Hl) as (r & Er & N & H). cbn [path_loop]. unfold step at 1.
    cbn [lifeTimeCounter currentCell currentPoint departurePoint dest_index dest_direction currentDirection hit_do_nothing].
    destruct (Nat.ltb_spec 50 (S (lifeTimeCounter el))) as [Hlt|_]; [lia|]. rewrite Er. cbn [obind]. destruct r as [k|].
    - destruct (H k eq_refl) as (f & u & pu & qu & lam & Ef & Epk & Ep & Eq & Nq & Of & B & L & A). assert (F := cm_face _ _ _ CM _ _ _ Hc Of). rewrite Ef, Epk.
      destruct (face_behind M (currentCell el) f) as [c'| |across c'| | |] eqn:E; try destruct F.
      + destruct H1 as [Ho Hl']. rewrite Ho.
        destruct (IH (mkTracker (dest_index el) (dest_direction el) (currentDirection el) (S (lifeTimeCounter el)) (departurePoint el) (to_real M (currentCell el) u) c' (hit_do_nothing el)))
          as [(el' & P)|P]; try assumption; cbn [currentCell currentPoint departurePoint hit_do_nothing lifeTimeCounter dest_index dest_direction currentDirection] in *; [lia| |].
        * left. exists el'. exact P.
        * right. eapply (chain_next M m (currentCell el) _ _ f u pu qu lam c'); try eassumption. rewrite E. auto.
      + destruct H1 as [Hl' Hs].
        destruct (IH (mkTracker (dest_index el) (dest_direction el) (currentDirection el) (S (lifeTimeCounter el)) (across (departurePoint el)) (across (to_real M (currentCell el) u)) c' (hit_do_nothing el)))
          as [(el' & P)|P]; try assumption; cbn [currentCell currentPoint departurePoint hit_do_nothing lifeTimeCounter dest_index dest_direction currentDirection] in *; [lia| |].
        * left. exists el'. destruct P as (P1 & P2 & P3 & P4 & P5 & P6 & P7). repeat (split; [assumption|]). exact (cm_trans _ _ _ CM _ _ _ P7 (Hs _)).
        * right. eapply (chain_next M m (currentCell el) _ _ f u pu qu lam c' (across (to_real M (currentCell el) u)) (across (departurePoint el))); try eassumption. rewrite E. auto.
    - left. destruct m as [|m]; rewrite Hn; (eexists; split; [reflexivity|]; cbn [currentCell currentPoint departurePoint dest_index dest_direction currentDirection];
        repeat (split; [first [reflexivity|assumption|exact (N eq_refl)]|]); apply (cm_agree _ _ _ CM); intros i Hi; reflexivity).
  Qed.

  Context (n : nat) (node : nat -> point) (dofs : cell -> nat -> nat) (Q : nat) (shape : nat -> point -> R) (cells : list cell).
  Let dirs := List.seq 1 (Q - 1).
  Hypothesis Hcells : forall c, In c cells -> ok c.
  Hypothesis Hnode : forall j, (j < n)%nat -> inside (dim M) (node j).

  (** The cell and the unit coordinates in which a departure point is found. *)
  Definition found_at (x : point) (c : cell) (u : point) : Prop :=
    ok c /\ inside (dim M) u /\ exists v, (forall i, (i < dim M)%nat -> Rabs (u i - v i) <= 1 / 10 ^ 10) /\ same (to_real M c v) x.

  Lemma chain_agree k : forall c p q q', ok c -> (forall i, q i = q' i) -> chain M k c p q -> chain M k c p q'.
  Proof.
    intros c p q q' _ H C. assert (q = q') as <-; [|exact C]. apply functional_extensionality. exact H.
  Qed.

  Lemma tracker_row_closed : within_limit M n node e dt Q cells -> forall el, In el (trackers M e dt n node dofs dirs cells []) ->
    exists c2 u, found_at (departurePoint el) c2 u /\
      outputs M e opp dt (event_entries M shape dofs n) el (row_entries n (dest_direction el) (dest_direction el) (dest_index el) (dofs c2) (fun j => shape j u)).
  Proof.
    intros W el Hin. destruct (trackers_origin M e dt n node dofs dirs cells [] el Hin) as (c & j & a & Hc & Hj & Ha & _ & El). apply in_seq in Ha.
    destruct (path_closed 50 el) as [(el' & P1 & P2 & P3 & P4 & P5 & P6 & P7)|P].
    - rewrite El. cbn [currentCell]. apply Hcells. exact Hc.
    - rewrite El. cbn [currentCell currentPoint]. destruct (cm_real _ _ _ CM c (node j) (Hcells c Hc) (Hnode j Hj)) as (v & Ev & Av). exists v. split; [exact Ev|].
      intros i Hi. rewrite (Av i Hi). assert (X := Hnode j Hj i Hi). assert (T := tol_small). rewrite tol_eq in T. lra.
    - rewrite El. reflexivity.
    - rewrite El. reflexivity.
    - destruct P6 as (v & Ev & Nv). destruct (cm_unit _ _ _ CM (currentCell el') (departurePoint el') P5) as (v' & Ev' & Av). rewrite Ev in Ev'. injection Ev' as <-. specialize (Av Nv).
      assert (Hi : inside (dim M) (snap_point v)) by (intros i Hi; apply snap_inside; apply (Nv i Hi)).
      exists (currentCell el'), (snap_point v). split.
      + split; [exact P5|]. split; [exact Hi|]. exists v. split.
        * intros i _. rewrite <- tol_eq. left. apply snap_close.
        * apply (cm_trans _ _ _ CM _ (departurePoint el')); [apply (cm_agree _ _ _ CM); exact Av|exact P7].
      + exists [Found el']. split; [unfold follow; rewrite P1; reflexivity|]. cbn [collect event_entries]. unfold shapeValues. rewrite Ev.
        rewrite (proj2 (all_inside_iff (dim M) (snap_point v)) Hi). cbn [obind]. rewrite app_nil_r.
        assert (Hcur : currentDirection el = dest_direction el) by (rewrite El; reflexivity). rewrite P2, P3, P4, Hcur. reflexivity.
    - exfalso. apply (W c j a Hc Hj ltac:(lia)). rewrite El in P. cbn [currentCell currentPoint departurePoint] in P. revert P. apply chain_agree; [apply Hcells; exact Hc|].
      intros i. unfold minus_dtealpha. ring.
  Qed.

  Theorem closed_stream : within_limit M n node e dt Q cells -> dofs_agree M same n node dofs cells ->
    exists z, assemble M e opp dt n node dofs Q shape cells = Some (Ok z) /\
    forall a F f B eps, (1 <= a < Q)%nat ->
      (forall c k, ok c -> (k < n)%nat -> f (a - 1)%nat (dofs c k) = F (to_real M c (node k)) /\ Rabs (F (to_real M c (node k))) <= B) ->
      (forall c, ok c -> reproduces M n node shape F c) ->
      (forall x y, same x y -> F x = F y) -> changes_little M ok F eps ->
      forall c j, In c cells -> (j < n)%nat ->
      Rabs (apply_row z f (a - 1) (dofs c j) - F (fun i => to_real M c (node j) i - dt * e a i)) <= INR n * (1 / 10 ^ 10 * B) + eps.
  Proof.
    intros W Hd. destruct (rows_assembled M e opp dt n node dofs Q shape cells found_at (tracker_row_closed W)) as (z & Hz & Hrow). exists z. split; [exact Hz|].
    intros a F f B eps Ha Hf Hrep Hper Hch c j Hc Hj. destruct (Hrow c j a Hc Hj Ha) as (c' & j' & c2 & u & Hc' & Hj' & Ed & (G & Hu & v & Hv & Hs) & ->).
    assert (E1 := dropped_small n (fun k => shape k u) (fun k => f (a - 1)%nat (dofs c2 k)) B).
    assert (E2 : sumf n (fun k => shape k u * f (a - 1)%nat (dofs c2 k)) = F (to_real M c2 u)).
    { rewrite <- (Hrep c2 G u Hu). apply sumf_ext. intros k Hk. rewrite (proj1 (Hf c2 k G Hk)). reflexivity. }
    assert (E3 := Hch c2 u v G Hv).
    assert (E4 : F (to_real M c2 v) = F (fun i => to_real M c (node j) i - dt * e a i)).
    { rewrite (Hper _ _ Hs). transitivity (F (fun i => to_real M c' (node j') i - dt * e a i)).
      - f_equal. apply functional_extensionality. intros i. unfold minus_dtealpha. ring.
      - apply Hper. apply (Hd c' c j' j (fun i => dt * e a i)); assumption. }
    assert (E1' : forall k, (k < n)%nat -> Rabs (f (a - 1)%nat (dofs c2 k)) <= B).
    { intros k Hk. destruct (Hf c2 k G Hk) as [-> Hb]. exact Hb. }
    specialize (E1 E1'). cbn beta in E1. rewrite E2 in E1. rewrite E4 in E3. rewrite <- tol_eq.
    match goal with |- Rabs (?s - ?t) <= _ => replace (s - t) with ((s - F (to_real M c2 u)) + (F (to_real M c2 u) - t)) by ring end.
    eapply Rle_trans; [apply Rabs_triang|]. lra.
  Qed.

  Theorem closed_uniform : within_limit M n node e dt Q cells -> dofs_agree M same n node dofs cells -> partition_of_unity (dim M) n shape ->
    exists z, assemble M e opp dt n node dofs Q shape cells = Some (Ok z) /\
    forall a f v, (1 <= a < Q)%nat -> (forall i, f (a - 1)%nat i = v) -> forall c j, In c cells -> (j < n)%nat ->
      Rabs (apply_row z f (a - 1) (dofs c j) - v) <= INR n * (1 / 10 ^ 10 * Rabs v).
  Proof.
    intros W Hd Hp. destruct (closed_stream W Hd) as (z & Hz & H). exists z. split; [exact Hz|]. intros a f v Ha Hf c j Hin Hj.
    assert (X := H a (fun _ => v) f (Rabs v) 0 Ha). rewrite Rplus_0_r in X. apply X; auto.
    - intros. split; [apply Hf|apply Rle_refl].
    - intros c' Hc' u Hu. cbn beta. rewrite sumf_scal_r, (Hp u Hu). ring.
    - intros c' u' v' _ _. replace (v - v) with 0 by ring. rewrite Rabs_R0. apply Rle_refl.
  Qed.
End Paths.
