(** Boundary collections, boundary check, periodic transport. *)
From Verif Require Import Prelude BigSum ModelBoundary SpecBoundary.
From Coq Require Import Permutation.
Local Open Scope R_scope.

(** ** Collections *)
Lemma find_app {A} (f : A -> bool) l m : find f (l ++ m) = match find f l with Some x => Some x | None => find f m end.
Proof. induction l as [|a l IH]; cbn; [reflexivity|]. destruct (f a); [reflexivity|exact IH]. Qed.

Lemma insert_find m k b k' : find_id (fst (insert m k b)) k' =
  match find_id m k' with Some x => Some x | None => if Nat.eqb k k' then Some b else None end.
Proof.
  unfold insert. destruct (find_id m k) as [x|] eqn:E; cbn [fst].
  - destruct (find_id m k') eqn:E'; [reflexivity|]. destruct (Nat.eqb_spec k k'); [subst; congruence|reflexivity].
  - unfold find_id in *. rewrite find_app. destruct (find (fun e => Nat.eqb (fst e) k') m); cbn; [reflexivity|].
    destruct (Nat.eqb k k'); reflexivity.
Qed.

Lemma insert_flag m k b : snd (insert m k b) = match find_id m k with Some _ => false | None => true end.
Proof. unfold insert. destruct (find_id m k); reflexivity. Qed.

Lemma add_find c b k : find_id (m_boundaries (fst (addBoundary c b))) k =
  match find_id (m_boundaries c) k with Some x => Some x | None => if existsb (Nat.eqb k) (ids_of b) then Some b else None end.
Proof.
  destruct b as [t i|t i j]; unfold addBoundary; cbn [isPeriodicObject addPlain addPeriodic fst m_boundaries ids_of existsb].
  - rewrite insert_find, (Nat.eqb_sym k i), orb_false_r. reflexivity.
  - destruct (insert (m_boundaries c) i _) as [m1 s1] eqn:E1. destruct (insert m1 j _) as [m2 s2] eqn:E2.
    assert (A : m_boundaries (fst (if (negb s1 || negb s2)%bool then (mkCollection m2 (m_periodicBoundaries c), true)
      else (mkCollection m2 (fst (insert (fst (insert (m_periodicBoundaries c) i (PeriodicB t i j))) j (PeriodicB t i j))), false))) = m2)
      by (destruct (negb s1 || negb s2)%bool; reflexivity).
    rewrite A. assert (B := insert_find m1 j (PeriodicB t i j) k). rewrite E2 in B. cbn [fst] in B. rewrite B.
    assert (C := insert_find (m_boundaries c) i (PeriodicB t i j) k). rewrite E1 in C. cbn [fst] in C. rewrite C.
    rewrite (Nat.eqb_sym k i), (Nat.eqb_sym k j), orb_false_r.
    destruct (find_id (m_boundaries c) k); [reflexivity|]. destruct (Nat.eqb i k); reflexivity.
Qed.

Lemma add_all_find l : forall c k, find_id (m_boundaries (fst (add_all c l))) k =
  match find_id (m_boundaries c) k with Some x => Some x | None => first_with l k end.
Proof.
  induction l as [|b l IH]; intros c k; cbn [add_all].
  - destruct (find_id _ k); reflexivity.
  - assert (A := add_find c b k). destruct (addBoundary c b) as [c1 e]. cbn [fst] in A.
    specialize (IH c1 k). destruct (add_all c1 l) as [c2 es]. cbn [fst] in *. rewrite IH, A.
    destruct (find_id (m_boundaries c) k); [reflexivity|]. unfold first_with. cbn [find].
    destruct (existsb (Nat.eqb k) (ids_of b)); reflexivity.
Qed.

Lemma built_find l k : find_id (m_boundaries (built l)) k = first_with l k.
Proof. unfold built. rewrite add_all_find. reflexivity. Qed.

Lemma get_built l k : getBoundary (built l) k = match first_with l k with Some b => Ok b | None => Throw end.
Proof. unfold getBoundary. rewrite built_find. reflexivity. Qed.

Lemma first_with_none l k : first_with l k = None <-> ~ In k (flat_map ids_of l).
Proof.
  unfold first_with. induction l as [|b l IH]; cbn [find flat_map]; [tauto|]. rewrite in_app_iff.
  destruct (existsb (Nat.eqb k) (ids_of b)) eqn:E.
  - split; [discriminate|]. intros H. exfalso. apply H. left. apply existsb_exists in E.
    destruct E as (x & Hx & Ex). apply Nat.eqb_eq in Ex. subst. exact Hx.
  - rewrite IH. split; [|tauto]. intros H [H'|H']; [|tauto].
    assert (X : existsb (Nat.eqb k) (ids_of b) = true) by (apply existsb_exists; exists k; split; [assumption|apply Nat.eqb_refl]).
    congruence.
Qed.

Lemma add_throws c b : snd (addBoundary c b) =
  match b with
  | Plain _ _ => false
  | PeriodicB _ i j => match find_id (m_boundaries c) i, find_id (m_boundaries c) j with
                       | None, None => Nat.eqb i j
                       | _, _ => true
                       end
  end.
Proof.
  destruct b as [t i|t i j]; unfold addBoundary; cbn [isPeriodicObject addPlain addPeriodic snd]; [reflexivity|].
  assert (F1 := insert_flag (m_boundaries c) i (PeriodicB t i j)).
  assert (G1 := insert_find (m_boundaries c) i (PeriodicB t i j) j).
  destruct (insert (m_boundaries c) i _) as [m1 s1]. cbn [fst snd] in *.
  assert (F2 := insert_flag m1 j (PeriodicB t i j)).
  destruct (insert m1 j _) as [m2 s2]. cbn [snd] in F2. rewrite G1 in F2.
  destruct (find_id (m_boundaries c) i); destruct (find_id (m_boundaries c) j); subst s1; rewrite F2;
    try (destruct (Nat.eqb i j)); reflexivity.
Qed.

Lemma throws_built l b : snd (addBoundary (built l) b) = true <->
  exists t i j, b = PeriodicB t i j /\ (i = j \/ In i (flat_map ids_of l) \/ In j (flat_map ids_of l)).
Proof.
  rewrite add_throws. destruct b as [t i|t i j].
  - split; [discriminate|]. intros (t' & i' & j' & E & _). discriminate.
  - rewrite !built_find. destruct (first_with l i) as [x|] eqn:Ei.
    + split; [|reflexivity]. intros _. exists t, i, j. split; [reflexivity|]. right. left.
      destruct (in_dec Nat.eq_dec i (flat_map ids_of l)) as [H|H]; [exact H|]. apply first_with_none in H. congruence.
    + destruct (first_with l j) as [x|] eqn:Ej.
      * split; [|reflexivity]. intros _. exists t, i, j. split; [reflexivity|]. right. right.
        destruct (in_dec Nat.eq_dec j (flat_map ids_of l)) as [H|H]; [exact H|]. apply first_with_none in H. congruence.
      * apply first_with_none in Ei. apply first_with_none in Ej. rewrite Nat.eqb_eq. split.
        -- intros ->. exists t, j, j. tauto.
        -- intros (t' & i' & j' & E & H). inversion E; subst. tauto.
Qed.

(** Keys are unique. *)
Lemma insert_keys m k b : NoDup (map fst m) -> NoDup (map fst (fst (insert m k b))).
Proof.
  intros H. unfold insert. destruct (find_id m k) eqn:E; cbn [fst]; [exact H|]. rewrite map_app. cbn [map].
  apply NoDup_incl_NoDup with (l := k :: map fst m).
  - constructor; [|exact H]. intros Hin. apply in_map_iff in Hin. destruct Hin as ((k', b') & <- & Hin).
    unfold find_id in E. destruct (find _ m) eqn:F; [discriminate|]. apply (find_none _ _ F) in Hin.
    cbn in Hin. rewrite Nat.eqb_refl in Hin. discriminate.
  - rewrite app_length. cbn. lia.
  - intros x [<-|Hx]; apply in_or_app; [right; left; reflexivity|left; exact Hx].
Qed.

Lemma add_keys c b : NoDup (map fst (m_boundaries c)) -> NoDup (map fst (m_boundaries (fst (addBoundary c b)))).
Proof.
  intros H. destruct b as [t i|t i j]; unfold addBoundary; cbn [isPeriodicObject addPlain addPeriodic fst m_boundaries].
  - apply insert_keys. exact H.
  - assert (A := insert_keys (m_boundaries c) i (PeriodicB t i j) H).
    destruct (insert (m_boundaries c) i _) as [m1 s1]. cbn [fst] in A.
    assert (B := insert_keys m1 j (PeriodicB t i j) A). destruct (insert m1 j _) as [m2 s2]. cbn [fst] in B.
    destruct (negb s1 || negb s2)%bool; exact B.
Qed.

Lemma add_all_keys l : forall c, NoDup (map fst (m_boundaries c)) -> NoDup (map fst (m_boundaries (fst (add_all c l)))).
Proof.
  induction l as [|b l IH]; intros c H; cbn [add_all]; [exact H|].
  assert (A := add_keys c b H). destruct (addBoundary c b) as [c1 e]. cbn [fst] in A. specialize (IH c1 A).
  destruct (add_all c1 l). exact IH.
Qed.

Lemma built_keys l : NoDup (map fst (m_boundaries (built l))).
Proof. apply add_all_keys. constructor. Qed.

Lemma find_id_in m k : find_id m k <> None <-> In k (map fst m).
Proof.
  unfold find_id. split.
  - destruct (find _ m) as [e|] eqn:E; [|tauto]. intros _. apply find_some in E. destruct E as [H E].
    apply Nat.eqb_eq in E. subst. apply in_map. exact H.
  - intros H. apply in_map_iff in H. destruct H as (e & <- & H). destruct (find _ m) eqn:E; [discriminate|].
    apply (find_none _ _ E) in H. rewrite Nat.eqb_refl in H. discriminate.
Qed.

Lemma hasID_in c k : hasID c k = true <-> In k (map fst (m_boundaries c)).
Proof. rewrite <- find_id_in. unfold hasID. destruct (find_id _ k); split; congruence || intros; auto; discriminate. Qed.

(** Distinct indicators: nothing throws, everything is found. *)
Lemma distinct_step c b :
  NoDup (ids_of b) -> (forall k, In k (ids_of b) -> find_id (m_boundaries c) k = None) ->
  (forall k, find_id (m_periodicBoundaries c) k = None \/ find_id (m_periodicBoundaries c) k = find_id (m_boundaries c) k) ->
  snd (addBoundary c b) = false /\
  length (m_boundaries (fst (addBoundary c b))) = (length (m_boundaries c) + length (ids_of b))%nat /\
  (forall k, find_id (m_periodicBoundaries (fst (addBoundary c b))) k =
     match find_id (m_periodicBoundaries c) k with Some x => Some x
     | None => if (isPeriodicObject b && existsb (Nat.eqb k) (ids_of b))%bool then Some b else None end).
Proof.
  intros Hnd Hfree Hinv. destruct b as [t i|t i j]; unfold addBoundary;
    cbn [isPeriodicObject addPlain addPeriodic fst snd m_boundaries m_periodicBoundaries ids_of existsb andb].
  - split; [reflexivity|]. split.
    + unfold insert. rewrite Hfree by (left; reflexivity). cbn [fst]. rewrite app_length. reflexivity.
    + intros k. destruct (find_id _ k); reflexivity.
  - assert (Hij : i <> j) by (inversion Hnd as [|? ? Hn _]; subst; cbn in Hn; intros ->; tauto).
    assert (Fi := Hfree i (or_introl eq_refl)). assert (Fj := Hfree j (or_intror (or_introl eq_refl))).
    assert (I1 : insert (m_boundaries c) i (PeriodicB t i j) = (m_boundaries c ++ [(i, PeriodicB t i j)], true))
      by (unfold insert; rewrite Fi; reflexivity).
    assert (G : find_id (m_boundaries c ++ [(i, PeriodicB t i j)]) j = None).
    { assert (X := insert_find (m_boundaries c) i (PeriodicB t i j) j). unfold insert in X. rewrite Fi in X. cbn [fst] in X.
      rewrite X, Fj. destruct (Nat.eqb_spec i j); [contradiction|reflexivity]. }
    assert (I2 : insert (m_boundaries c ++ [(i, PeriodicB t i j)]) j (PeriodicB t i j)
      = ((m_boundaries c ++ [(i, PeriodicB t i j)]) ++ [(j, PeriodicB t i j)], true)) by (unfold insert; rewrite G; reflexivity).
    rewrite I1, I2. cbn [negb orb fst snd m_boundaries m_periodicBoundaries].
    split; [reflexivity|]. split; [rewrite !app_length; cbn; lia|].
    intros k. rewrite !insert_find. destruct (find_id (m_periodicBoundaries c) k); [reflexivity|].
    rewrite (Nat.eqb_sym k i), (Nat.eqb_sym k j), orb_false_r. destruct (Nat.eqb i k); reflexivity.
Qed.

Definition periodics_of (l : list boundary) (k : nat) : option boundary :=
  find (fun b => (isPeriodicObject b && existsb (Nat.eqb k) (ids_of b))%bool) l.

Lemma NoDup_app_inv' {A} (l m : list A) : NoDup (l ++ m) -> NoDup l /\ NoDup m /\ forall a, In a l -> ~ In a m.
Proof.
  induction l as [|a l IH]; cbn; intros H; [repeat split; [constructor|exact H|tauto]|].
  inversion H as [|? ? Hn Hd]; subst. destruct (IH Hd) as (H1 & H2 & H3). rewrite in_app_iff in Hn.
  repeat split; [constructor; tauto|exact H2|]. intros b [<-|Hb]; [tauto|apply H3; assumption].
Qed.

Lemma distinct_all l : forall c, NoDup (flat_map ids_of l) ->
  (forall k, In k (flat_map ids_of l) -> find_id (m_boundaries c) k = None) ->
  (forall k, find_id (m_periodicBoundaries c) k = None \/ find_id (m_periodicBoundaries c) k = find_id (m_boundaries c) k) ->
  Forall (fun e => e = false) (snd (add_all c l)) /\
  length (m_boundaries (fst (add_all c l))) = (length (m_boundaries c) + length (flat_map ids_of l))%nat /\
  (forall k, find_id (m_periodicBoundaries (fst (add_all c l))) k =
     match find_id (m_periodicBoundaries c) k with Some x => Some x | None => periodics_of l k end).
Proof.
  induction l as [|b l IH]; intros c Hnd Hfree Hinv; cbn [add_all flat_map] in *.
  - split; [constructor|]. split; [cbn; lia|]. intros k. destruct (find_id _ k); reflexivity.
  - apply NoDup_app_inv' in Hnd. destruct Hnd as (H1 & H2 & H3).
    destruct (distinct_step c b H1 (fun k Hk => Hfree k (in_or_app _ _ _ (or_introl Hk))) Hinv) as (A & B & C).
    assert (F := add_find c b). destruct (addBoundary c b) as [c1 e]. cbn [fst snd] in *. subst e.
    destruct (IH c1 H2) as (A' & B' & C').
    + intros k Hk. rewrite F, Hfree by (apply in_or_app; right; exact Hk).
      destruct (existsb (Nat.eqb k) (ids_of b)) eqn:E; [|reflexivity].
      apply existsb_exists in E. destruct E as (x & Hx & Ex). apply Nat.eqb_eq in Ex. subst x. exfalso. exact (H3 k Hx Hk).
    + intros k. rewrite C, F. destruct (Hinv k) as [N|N].
      * rewrite N. destruct (isPeriodicObject b); cbn [andb]; [|left; reflexivity].
        destruct (existsb (Nat.eqb k) (ids_of b)) eqn:E; [|left; reflexivity]. right.
        apply existsb_exists in E. destruct E as (x & Hx & Ex). apply Nat.eqb_eq in Ex. subst x.
        rewrite Hfree by (apply in_or_app; left; exact Hx). reflexivity.
      * rewrite N. destruct (find_id (m_boundaries c) k); [right; reflexivity|].
        destruct (isPeriodicObject b); cbn [andb]; [right; reflexivity|left; reflexivity].
    + destruct (add_all c1 l) as [c2 es]. cbn [fst snd] in *. split; [constructor; [reflexivity|exact A']|].
      split; [rewrite B', B, app_length; lia|]. intros k. rewrite C', C. unfold periodics_of. cbn [find].
      destruct (find_id (m_periodicBoundaries c) k); [reflexivity|].
      destruct (isPeriodicObject b && existsb (Nat.eqb k) (ids_of b))%bool; reflexivity.
Qed.

Lemma first_with_distinct l b k : NoDup (flat_map ids_of l) -> In b l -> In k (ids_of b) -> first_with l k = Some b.
Proof.
  induction l as [|a l IH]; intros Hnd Hin Hk; [destruct Hin|]. cbn [flat_map] in Hnd. apply NoDup_app_inv' in Hnd.
  destruct Hnd as (H1 & H2 & H3). unfold first_with. cbn [find]. destruct Hin as [->|Hin].
  - assert (E : existsb (Nat.eqb k) (ids_of b) = true) by (apply existsb_exists; exists k; split; [exact Hk|apply Nat.eqb_refl]).
    rewrite E. reflexivity.
  - destruct (existsb (Nat.eqb k) (ids_of a)) eqn:E; [|apply IH; assumption].
    apply existsb_exists in E. destruct E as (x & Hx & Ex). apply Nat.eqb_eq in Ex. subst x.
    exfalso. apply (H3 k Hx). apply in_flat_map. exists b. split; assumption.
Qed.

Lemma distinct_found l : NoDup (flat_map ids_of l) ->
  Forall (fun e => e = false) (snd (add_all empty_collection l)) /\
  numberOfBoundaries (built l) = length (flat_map ids_of l) /\
  forall b k, In b l -> In k (ids_of b) ->
    getBoundary (built l) k = Ok b /\ isPeriodic (built l) k = Ok (isPeriodicObject b) /\
    getPeriodicBoundary (built l) k = if isPeriodicObject b then Ok b else Throw.
Proof.
  intros Hnd. destruct (distinct_all l empty_collection Hnd (fun _ _ => eq_refl) (fun _ => or_introl eq_refl)) as (A & B & C).
  split; [exact A|]. split; [exact B|]. intros b k Hb Hk.
  assert (F := first_with_distinct l b k Hnd Hb Hk).
  unfold getPeriodicBoundary, isPeriodic. rewrite get_built, F. cbn [obind]. split; [reflexivity|]. split; [reflexivity|].
  destruct (isPeriodicObject b) eqn:P; [|reflexivity].
  assert (D := C k). fold (built l) in D. rewrite D. cbn [empty_collection m_periodicBoundaries find_id find option_map].
  assert (E : periodics_of l k = Some b).
  { clear - Hnd Hb Hk P. unfold periodics_of. induction l as [|a l IH]; [destruct Hb|]. cbn [flat_map] in Hnd.
    apply NoDup_app_inv' in Hnd. destruct Hnd as (H1 & H2 & H3). cbn [find]. destruct Hb as [->|Hb].
    - assert (E : existsb (Nat.eqb k) (ids_of b) = true) by (apply existsb_exists; exists k; split; [exact Hk|apply Nat.eqb_refl]).
      rewrite P, E. reflexivity.
    - destruct (existsb (Nat.eqb k) (ids_of a)) eqn:E; [|rewrite andb_false_r; apply IH; assumption].
      apply existsb_exists in E. destruct E as (x & Hx & Ex). apply Nat.eqb_eq in Ex. subst x.
      exfalso. apply (H3 k Hx). apply in_flat_map. exists b. split; assumption. }
  rewrite E. reflexivity.
Qed.

(** ** The check *)
Lemma erase_some k l l' : erase k l = Some l' -> Permutation l (k :: l').
Proof.
  revert l'. induction l as [|x l IH]; intros l' H; cbn in H; [discriminate|].
  destruct (Nat.eqb_spec x k) as [->|N]; [inversion H; reflexivity|].
  destruct (erase k l) as [m|]; [|discriminate]. inversion H; subst. rewrite (IH m eq_refl). apply perm_swap.
Qed.
Lemma erase_none k l : erase k l = None -> ~ In k l.
Proof.
  induction l as [|x l IH]; cbn; [tauto|]. destruct (Nat.eqb_spec x k) as [->|N]; [discriminate|].
  destruct (erase k l); [discriminate|]. intros _ [H|H]; [contradiction|]. exact (IH eq_refl H).
Qed.

Lemma check_loop_spec tria : forall ids r, let (r', rest) := check_loop tria ids r in
  (r' = true /\ rest = []) <-> (r = true /\ Permutation tria ids).
Proof.
  induction tria as [|t tria IH]; intros ids r; cbn [check_loop].
  - split; intros [A B]; (split; [exact A|]); [subst; constructor|]. apply Permutation_nil in B. exact B.
  - destruct (erase t ids) as [ids'|] eqn:E.
    + specialize (IH ids' r). destruct (check_loop tria ids' r) as [r' rest]. rewrite IH. apply erase_some in E.
      split; intros [A B]; (split; [exact A|]).
      * rewrite E. constructor. exact B.
      * rewrite E in B. apply Permutation_cons_inv in B. exact B.
    + specialize (IH ids false). destruct (check_loop tria ids false) as [r' rest]. rewrite IH. apply erase_none in E.
      split; intros [A B]; [discriminate|]. exfalso. apply E. rewrite <- B. left. reflexivity.
Qed.

Lemma check_perm modulus tria c : checkBoundaryConditions modulus tria c = true <->
  Permutation tria (map (fun e => (fst e mod modulus)%nat) (m_boundaries c)).
Proof.
  unfold checkBoundaryConditions. assert (S := check_loop_spec tria (map (fun e => (fst e mod modulus)%nat) (m_boundaries c)) true).
  destruct (check_loop tria _ true) as [r rest]. transitivity (r = true /\ rest = []).
  - destruct rest; split; intros; try tauto; try discriminate. destruct H; discriminate.
  - rewrite S. tauto.
Qed.

Lemma check_iff modulus tria l : NoDup tria -> (forall k, In k (flat_map ids_of l) -> (k < modulus)%nat) ->
  (checkBoundaryConditions modulus tria (built l) = true <-> forall k, In k tria <-> hasID (built l) k = true).
Proof.
  intros Hnd Hsmall. rewrite check_perm.
  assert (E : map (fun e => (fst e mod modulus)%nat) (m_boundaries (built l)) = map fst (m_boundaries (built l))).
  { apply map_ext_in. intros e He. apply Nat.mod_small. apply Hsmall.
    assert (H : In (fst e) (map fst (m_boundaries (built l)))) by (apply in_map; exact He).
    apply find_id_in in H. rewrite built_find in H.
    destruct (in_dec Nat.eq_dec (fst e) (flat_map ids_of l)) as [Y|N]; [exact Y|]. apply first_with_none in N. contradiction. }
  rewrite E. split.
  - intros P k. rewrite hasID_in. split; apply Permutation_in; [exact P|symmetry; exact P].
  - intros H. apply NoDup_Permutation; [exact Hnd|apply built_keys|]. intros k. rewrite H. apply hasID_in.
Qed.

Lemma hasID_built l k : hasID (built l) k = true <-> In k (flat_map ids_of l).
Proof.
  unfold hasID. rewrite built_find. destruct (first_with l k) eqn:E.
  - split; [|reflexivity]. intros _. destruct (in_dec Nat.eq_dec k (flat_map ids_of l)) as [Y|N]; [exact Y|].
    apply first_with_none in N. congruence.
  - apply first_with_none in E. split; [discriminate|contradiction].
Qed.

(** ** Periodic boundaries *)
Lemma insert_cell_find m c p c' : find_cell (insert_cell m c p) c' =
  match find_cell m c' with Some x => Some x | None => if Nat.eqb c c' then Some p else None end.
Proof.
  unfold insert_cell. destruct (find_cell m c) as [x|] eqn:E.
  - destruct (find_cell m c') eqn:E'; [reflexivity|]. destruct (Nat.eqb_spec c c'); [subst; congruence|reflexivity].
  - unfold find_cell in *. rewrite find_app. destruct (find (fun e => Nat.eqb (fst e) c') m); cbn; [reflexivity|].
    destruct (Nat.eqb c c'); reflexivity.
Qed.

Definition pair_with (pairs : list facepair) (c : nat) : option facepair :=
  find (fun p => (Nat.eqb (fp_cell0 p) c || Nat.eqb (fp_cell1 p) c)%bool) pairs.

Lemma map_find_gen pairs : forall m c,
  find_cell (fold_left (fun m p => insert_cell (insert_cell m (fp_cell0 p) (new_pair p)) (fp_cell1 p) (new_pair p)) pairs m) c
  = match find_cell m c with Some x => Some x | None => option_map new_pair (pair_with pairs c) end.
Proof.
  induction pairs as [|p pairs IH]; intros m c; cbn [fold_left].
  - destruct (find_cell m c); reflexivity.
  - rewrite IH, !insert_cell_find. unfold pair_with. cbn [find]. destruct (find_cell m c); [reflexivity|].
    destruct (Nat.eqb (fp_cell0 p) c); [reflexivity|]. destruct (Nat.eqb (fp_cell1 p) c); reflexivity.
Qed.
Lemma map_find pairs c : find_cell (make_periodicity_map pairs) c = option_map new_pair (pair_with pairs c).
Proof. unfold make_periodicity_map. rewrite map_find_gen. reflexivity. Qed.

Lemma pair_with_separate pairs p c : separate pairs -> In p pairs -> c = fp_cell0 p \/ c = fp_cell1 p -> pair_with pairs c = Some p.
Proof.
  unfold separate. induction pairs as [|a pairs IH]; intros Hs Hin Hc; [destruct Hin|].
  cbn [flat_map] in Hs. apply NoDup_app_inv' in Hs. destruct Hs as (H1 & H2 & H3). unfold pair_with. cbn [find].
  destruct Hin as [->|Hin].
  - destruct Hc as [-> | ->]; rewrite Nat.eqb_refl; rewrite ?orb_true_r; reflexivity.
  - destruct (Nat.eqb (fp_cell0 a) c || Nat.eqb (fp_cell1 a) c)%bool eqn:E; [|apply IH; assumption].
    exfalso. apply (H3 c).
    + apply orb_prop in E. destruct E as [E|E]; apply Nat.eqb_eq in E; subst c; cbn; tauto.
    + apply in_flat_map. exists p. split; [exact Hin|]. cbn. destruct Hc as [-> | ->]; tauto.
Qed.

Lemma separate_cells pairs p : separate pairs -> In p pairs -> fp_cell0 p <> fp_cell1 p.
Proof.
  unfold separate. induction pairs as [|a pairs IH]; intros Hs Hin; [destruct Hin|].
  cbn [flat_map] in Hs. apply NoDup_app_inv' in Hs. destruct Hs as (H1 & H2 & H3). destruct Hin as [->|Hin]; [|auto].
  inversion H1 as [|? ? Hn _]; subst. cbn in Hn. intros E. apply Hn. left. symmetry. exact E.
Qed.

Lemma map_nonempty pairs p : In p pairs -> make_periodicity_map pairs <> [].
Proof.
  intros Hin E. assert (F := map_find pairs (fp_cell0 p)). rewrite E in F. cbn in F. unfold pair_with in F. symmetry in F.
  destruct (find _ pairs) eqn:G; [discriminate|].
  apply (find_none _ _ G) in Hin. cbn in Hin. rewrite Nat.eqb_refl in Hin. discriminate.
Qed.

Section Transport.
  Variables (inv : nat -> (nat -> nat -> R) -> nat -> nat -> R) (vertex : nat -> nat -> nat -> pt) (dim : nat)
            (pairs : list facepair) (p : facepair).
  Hypothesis Hsep : separate pairs.
  Hypothesis Hin : In p pairs.
  Let m := make_periodicity_map pairs.
  Let o := offset vertex dim (new_pair p).

  Lemma find0 : find_cell m (fp_cell0 p) = Some (new_pair p).
  Proof. unfold m. rewrite map_find, (pair_with_separate pairs p) by auto. reflexivity. Qed.
  Lemma find1 : find_cell m (fp_cell1 p) = Some (new_pair p).
  Proof. unfold m. rewrite map_find, (pair_with_separate pairs p) by auto. reflexivity. Qed.
  Lemma neq01 : Nat.eqb (fp_cell0 p) (fp_cell1 p) = false.
  Proof. apply Nat.eqb_neq. apply (separate_cells pairs); assumption. Qed.

  Lemma opposite0 : getOppositeCell m (fp_cell0 p) = Ok (fp_cell1 p, fp_face1 p).
  Proof.
    unfold getOppositeCell. destruct m as [|e l] eqn:E; [exfalso; apply (map_nonempty pairs p Hin); exact E|].
    rewrite <- E, find0. cbn [new_pair fp_cell0]. rewrite Nat.eqb_refl. reflexivity.
  Qed.
  Lemma opposite1 : getOppositeCell m (fp_cell1 p) = Ok (fp_cell0 p, fp_face0 p).
  Proof.
    unfold getOppositeCell. destruct m as [|e l] eqn:E; [exfalso; apply (map_nonempty pairs p Hin); exact E|].
    rewrite <- E, find1. cbn [new_pair fp_cell0 fp_cell1]. rewrite neq01, Nat.eqb_refl. reflexivity.
  Qed.

  Hypothesis Hinv : inverts_unit dim inv.

  Lemma across0 x : exists y, coordinatesAcross inv vertex dim m x (fp_cell0 p) = Ok y /\
    forall i, (i < dim)%nat -> y i = x i - o i.
  Proof.
    unfold coordinatesAcross. rewrite find0. cbn [new_pair fp_cell0]. rewrite Nat.eqb_refl. eexists. split; [reflexivity|].
    intros i Hi. cbn beta. rewrite (sumf_ext dim _ (fun j => delta i j * (x j - o j))).
    - apply (sumf_delta dim i (fun j => x j - o j)). exact Hi.
    - intros j Hj. unfold pair_matrix. cbn [new_pair fp_matrix]. rewrite Hinv by assumption. reflexivity.
  Qed.
  Lemma across1 x : exists y, coordinatesAcross inv vertex dim m x (fp_cell1 p) = Ok y /\
    forall i, (i < dim)%nat -> y i = x i + o i.
  Proof.
    unfold coordinatesAcross. rewrite find1. cbn [new_pair fp_cell0 fp_cell1]. rewrite neq01, Nat.eqb_refl.
    eexists. split; [reflexivity|]. intros i Hi. cbn beta. unfold pair_matrix. cbn [new_pair fp_matrix].
    rewrite (sumf_delta dim i x) by exact Hi. reflexivity.
  Qed.

  Lemma round_trip0 x : exists y z, coordinatesAcross inv vertex dim m x (fp_cell0 p) = Ok y /\
    coordinatesAcross inv vertex dim m y (fp_cell1 p) = Ok z /\ same_point dim z x.
  Proof.
    destruct (across0 x) as (y & Ey & Hy). destruct (across1 y) as (z & Ez & Hz). exists y, z.
    split; [exact Ey|]. split; [exact Ez|]. intros i Hi. rewrite Hz, Hy by exact Hi. ring.
  Qed.
  Lemma round_trip1 x : exists y z, coordinatesAcross inv vertex dim m x (fp_cell1 p) = Ok y /\
    coordinatesAcross inv vertex dim m y (fp_cell0 p) = Ok z /\ same_point dim z x.
  Proof.
    destruct (across1 x) as (y & Ey & Hy). destruct (across0 y) as (z & Ez & Hz). exists y, z.
    split; [exact Ey|]. split; [exact Ez|]. intros i Hi. rewrite Hz, Hy by exact Hi. ring.
  Qed.

  Variable t : nat -> R.
  Hypothesis Hstd : standard dim p.
  Hypothesis Hmatch : matching vertex dim p t.

  Lemma offset_is i : (i < dim)%nat -> o i = t i.
  Proof.
    intros Hi. unfold o, offset, pair_matrix. cbn [new_pair fp_matrix fp_cell0 fp_cell1 fp_face0 fp_face1].
    rewrite (sumf_delta dim i (fun j => vertex (fp_cell0 p) (fp_face0 p) (face1_to_face0_vertex dim (new_pair p) 0%nat) j)) by exact Hi.
    assert (E : face1_to_face0_vertex dim (new_pair p) 0%nat = opposite_vertex dim p 0%nat).
    { unfold face1_to_face0_vertex, opposite_vertex. cbn [new_pair fp_flip fp_rotation fp_orientation].
      destruct Hstd as [->|(-> & -> & ->)]; cbn [Nat.eqb andb].
      - destruct (fp_flip p); reflexivity.
      - destruct (fp_orientation p); reflexivity. }
    rewrite E, Hmatch by (try exact Hi; unfold face_vertices; destruct (Nat.eqb dim 3); lia). ring.
  Qed.

  Lemma weighted_shift w i : sumf (face_vertices dim) w = 1 -> (i < dim)%nat ->
    weighted (face_vertices dim) w (fun v => vertex (fp_cell0 p) (fp_face0 p) (opposite_vertex dim p v)) i
    = weighted (face_vertices dim) w (vertex (fp_cell1 p) (fp_face1 p)) i + t i.
  Proof.
    intros Hw Hi. unfold weighted.
    rewrite (sumf_ext _ _ (fun v => w v * vertex (fp_cell1 p) (fp_face1 p) v i + w v * t i)).
    - rewrite sumf_plus, sumf_scal_r, Hw. ring.
    - intros v Hv. rewrite Hmatch by assumption. ring.
  Qed.

  Lemma face0_to_face1 w : sumf (face_vertices dim) w = 1 -> exists y,
    coordinatesAcross inv vertex dim m
      (weighted (face_vertices dim) w (fun v => vertex (fp_cell0 p) (fp_face0 p) (opposite_vertex dim p v))) (fp_cell0 p) = Ok y /\
    same_point dim y (weighted (face_vertices dim) w (vertex (fp_cell1 p) (fp_face1 p))).
  Proof.
    intros Hw. destruct (across0 (weighted (face_vertices dim) w (fun v => vertex (fp_cell0 p) (fp_face0 p) (opposite_vertex dim p v)))) as (y & Ey & Hy).
    exists y. split; [exact Ey|]. intros i Hi. rewrite Hy, weighted_shift, offset_is by assumption. ring.
  Qed.
  Lemma face1_to_face0 w : sumf (face_vertices dim) w = 1 -> exists y,
    coordinatesAcross inv vertex dim m (weighted (face_vertices dim) w (vertex (fp_cell1 p) (fp_face1 p))) (fp_cell1 p) = Ok y /\
    same_point dim y (weighted (face_vertices dim) w (fun v => vertex (fp_cell0 p) (fp_face0 p) (opposite_vertex dim p v))).
  Proof.
    intros Hw. destruct (across1 (weighted (face_vertices dim) w (vertex (fp_cell1 p) (fp_face1 p)))) as (y & Ey & Hy).
    exists y. split; [exact Ey|]. intros i Hi. rewrite Hy, weighted_shift, offset_is by assumption. ring.
  Qed.
End Transport.
