(** Lemmas about SolverConfiguration: every setter and getter in terms of the stored texts. *)
From Coq Require Import String Bool.
From Verif Require Import Prelude ModelText SpecText ProofText ConfigTypes ConfigData ModelConfig SpecConfig.
Open Scope R_scope.

(** ** Entries *)

Definition strip (d : entry_decl) : list string * string * pattern := (d_path d, d_key d, d_pattern d).
Definition fits (d : entry_decl) : Prop := matches (d_pattern d) (d_text d) = true.

(** The invariant: no subsection is open, the entries are the declared ones, and their texts
    match the patterns. *)
Definition inv (h : handler) : Prop :=
  h_path h = [] /\ map strip (h_entries h) = map strip declared /\ Forall fits (h_entries h).

Lemma path_eqb_eq : forall p q, path_eqb p q = true <-> p = q.
Proof.
  induction p as [|x p IH]; intros [|y q]; simpl; split; intros H; try discriminate; try reflexivity.
  - apply andb_true_iff in H. destruct H as [H1 H2]. apply String.eqb_eq in H1. apply IH in H2. congruence.
  - injection H as -> ->. rewrite String.eqb_refl. simpl. apply IH. reflexivity.
Qed.

Lemma is_entry_eq : forall p k d, is_entry p k d = true <-> p = d_path d /\ k = d_key d.
Proof.
  intros p k d. unfold is_entry. rewrite andb_true_iff, path_eqb_eq, String.eqb_eq. tauto.
Qed.

Fixpoint unique (l : list entry_decl) : bool :=
  match l with
  | [] => true
  | d :: l' => (negb (existsb (is_entry (d_path d) (d_key d)) l') && unique l')%bool
  end.

Lemma unique_declared : unique declared = true.
Proof. reflexivity. Qed.

Lemma unique_find : forall l p k d, unique l = true -> In d l -> is_entry p k d = true -> find (is_entry p k) l = Some d.
Proof.
  induction l as [|e l IH]; intros p k d U I E; [destruct I|]. simpl in U. apply andb_true_iff in U. destruct U as [U1 U2].
  simpl. destruct (is_entry p k e) eqn:Ee.
  - destruct I as [->|I]; [reflexivity|exfalso]. apply is_entry_eq in E, Ee. destruct E as [-> ->], Ee as [E1 E2].
    apply negb_true_iff in U1. assert (X : existsb (is_entry (d_path e) (d_key e)) l = true).
    { apply existsb_exists. exists d. split; [exact I|]. apply is_entry_eq. split; congruence. }
    congruence.
  - destruct I as [->|I]; [congruence|]. apply IH; assumption.
Qed.

Definition pattern_at (p : list string) (k : string) : option pattern :=
  option_map d_pattern (find (is_entry p k) declared).
Definition text_at (p : list string) (k : string) (h : handler) : option text :=
  option_map d_text (find (is_entry p k) (h_entries h)).

Lemma find_strip : forall l1 l2 p k d2, map strip l1 = map strip l2 -> find (is_entry p k) l2 = Some d2 ->
  exists d1, find (is_entry p k) l1 = Some d1 /\ In d1 l1 /\ d_pattern d1 = d_pattern d2.
Proof.
  induction l1 as [|e1 l1 IH]; intros [|e2 l2] p k d2 E F; try discriminate.
  simpl in E. injection E as E1 E2 E3 E. simpl in F |- *.
  assert (X : is_entry p k e1 = is_entry p k e2) by (unfold is_entry; rewrite E1, E2; reflexivity).
  rewrite X. destruct (is_entry p k e2).
  - injection F as <-. exists e1. simpl. auto.
  - destruct (IH l2 p k d2 E F) as (d1 & H1 & H2 & H3). exists d1. simpl. auto.
Qed.

Lemma at_inv : forall h p k pt, inv h -> pattern_at p k = Some pt ->
  exists d, find (is_entry p k) (h_entries h) = Some d /\ d_pattern d = pt /\ matches pt (d_text d) = true.
Proof.
  intros h p k pt (_ & S & F) P. unfold pattern_at in P. destruct (find (is_entry p k) declared) as [d2|] eqn:E; [|discriminate].
  injection P as <-. destruct (find_strip _ _ _ _ _ S E) as (d1 & H1 & H2 & H3).
  exists d1. rewrite <- H3. split; [exact H1|]. split; [reflexivity|]. rewrite Forall_forall in F. exact (F d1 H2).
Qed.

(** ** Storing a text *)

Definition put (p : list string) (k : string) (t : text) (h : handler) : handler :=
  {| h_path := h_path h; h_entries := map (set_text p k t) (h_entries h) |}.

Lemma strip_set_text : forall p k t d, strip (set_text p k t d) = strip d.
Proof. intros. unfold set_text. destruct (is_entry p k d); reflexivity. Qed.

Lemma put_inv : forall h p k t pt, inv h -> pattern_at p k = Some pt -> matches pt t = true -> inv (put p k t h).
Proof.
  intros h p k t pt (H1 & H2 & H3) P T. split; [exact H1|]. split.
  - unfold put. cbn [h_entries]. rewrite map_map. rewrite <- H2. apply map_ext. intros d. apply strip_set_text.
  - unfold put. cbn [h_entries]. rewrite Forall_forall in *. intros d I. apply in_map_iff in I. destruct I as (e & <- & I).
    unfold set_text. destruct (is_entry p k e) eqn:E; [|exact (H3 e I)]. unfold fits. simpl.
    assert (X : In (strip e) (map strip declared)) by (rewrite <- H2; apply in_map; exact I).
    apply in_map_iff in X. destruct X as (d & X1 & X2). unfold strip in X1. injection X1 as X11 X12 X13.
    assert (Y : find (is_entry p k) declared = Some d).
    { apply unique_find; [exact unique_declared|exact X2|]. unfold is_entry. rewrite X11, X12. exact E. }
    unfold pattern_at in P. rewrite Y in P. injection P as <-. rewrite <- X13. exact T.
Qed.

Lemma is_entry_set_text : forall p k t p' k' d, is_entry p' k' (set_text p k t d) = is_entry p' k' d.
Proof. intros. unfold set_text. destruct (is_entry p k d); reflexivity. Qed.

Lemma text_put_same : forall h p k t, text_at p k h <> None -> text_at p k (put p k t h) = Some t.
Proof.
  intros h p k t. unfold text_at, put. cbn [h_entries]. induction (h_entries h) as [|e l IH]; [intros H; exfalso; apply H; reflexivity|].
  cbn [map find]. rewrite is_entry_set_text. destruct (is_entry p k e) eqn:E; [|exact IH].
  intros _. cbn [option_map]. unfold set_text. rewrite E. reflexivity.
Qed.

Lemma text_put_other : forall h p k t p' k', (p, k) <> (p', k') -> text_at p' k' (put p k t h) = text_at p' k' h.
Proof.
  intros h p k t p' k' N. unfold text_at, put. cbn [h_entries]. induction (h_entries h) as [|e l IH]; [reflexivity|].
  cbn [map find]. rewrite is_entry_set_text. destruct (is_entry p' k' e) eqn:E'; [|exact IH].
  cbn [option_map]. unfold set_text. destruct (is_entry p k e) eqn:E; [|reflexivity].
  exfalso. apply is_entry_eq in E, E'. destruct E, E'. apply N. congruence.
Qed.

Lemma inv_default : inv default_configuration.
Proof.
  split; [reflexivity|]. split; [reflexivity|]. unfold default_configuration, declared; cbn [h_entries].
  repeat (apply Forall_cons; [unfold fits; cbn [d_pattern d_text matches];
    first [ reflexivity
          | unfold within, forallb; repeat match goal with |- context [Rle_dec ?a ?b] => destruct (Rle_dec a b) as [|?N]; [|exfalso; apply N; lra] end; reflexivity
          ]|]).
  apply Forall_nil.
Qed.

(** ** Subsections *)

Definition opened (p : list string) (h : handler) : handler := {| h_path := h_path h ++ p; h_entries := h_entries h |}.

Lemma enters_is : forall p h, enters p h = (Ok tt, opened p h).
Proof.
  induction p as [|s p IH]; intros h.
  - unfold opened. simpl. rewrite app_nil_r. destruct h. reflexivity.
  - cbn [enters]. unfold seq, bind, enter_subsection. rewrite IH. unfold opened. cbn [h_path h_entries].
    rewrite <- app_assoc. reflexivity.
Qed.

Lemma leaves_is : forall p q es, leaves p {| h_path := q ++ p; h_entries := es |} = (Ok tt, {| h_path := q; h_entries := es |}).
Proof.
  intros p. assert (G : forall n r q es, length r = n -> length p = n -> leaves p {| h_path := q ++ r; h_entries := es |} = (Ok tt, {| h_path := q; h_entries := es |})).
  { induction p as [|s p IH]; intros n r q es Hr Hp.
    - simpl in Hp. subst n. destruct r; [|discriminate]. rewrite app_nil_r. reflexivity.
    - destruct n as [|n]; [discriminate|]. injection Hp as Hp.
      destruct (exists_last (l := r)) as (r' & a & ->). { intros ->. discriminate. }
      rewrite app_length in Hr. simpl in Hr. cbn [leaves]. unfold seq, bind, leave_subsection. cbn [h_path].
      destruct (q ++ r' ++ [a]) as [|x l] eqn:E. { destruct q; destruct r'; discriminate. }
      rewrite <- E, app_assoc, removelast_last. cbn [h_entries]. apply (IH n); lia. }
  intros q es. apply (G (length p)); reflexivity.
Qed.

Lemma leaves_opened : forall p h, h_path h = [] -> leaves p (opened p h) = (Ok tt, h).
Proof. intros p h H. unfold opened. rewrite leaves_is. destruct h. reflexivity. Qed.

(** ** Observers *)

Definition read (k : get_kind) (t : text) : option cval :=
  match k, t with
  | GetEnum chain, TStr s => option_map (fun c => VEnum (snd c)) (find (chain_matches s) chain)
  | GetDouble, TDec x => Some (VDouble x)
  | GetDouble, TInt z => Some (VDouble (IZR z))
  | GetSize, TInt z => Some (VInt (to_size z))
  | GetSizeTruncated, TDec x => if Rlt_dec x 0 then None else Some (VInt (Int_part x))
  | GetSizeTruncated, TInt z => if Rlt_dec (IZR z) 0 then None else Some (VInt (Int_part (IZR z)))
  | GetBool, TBool b => Some (VBool b)
  | GetString, TStr s => Some (VString s)
  | _, _ => None
  end.

Lemma getter_is : forall d h t v, h_path h = [] -> text_at (g_path d) (g_key d) h = Some t -> read (g_kind d) t = Some v ->
  run_getter d h = (Ok v, h).
Proof.
  intros [p k kind] h t v Hp T R. cbn [g_path g_key g_kind] in *. unfold run_getter. cbn [g_path g_key g_kind].
  unfold seq at 1, bind at 1. rewrite enters_is.
  unfold text_at in T. destruct (find (is_entry p k) (h_entries h)) as [d|] eqn:F; [|discriminate].
  cbn [option_map] in T.
  assert (G : hget k (opened p h) = (Ok t, opened p h)).
  { unfold hget, opened. cbn [h_path h_entries]. rewrite Hp. cbn [app]. rewrite F. injection T as ->. reflexivity. }
  assert (L := leaves_opened p h Hp).
  assert (Z : forall c, c t (opened p h) = (Ok v, opened p h) ->
    bind (try_catch (bind (hget k) c) (seq (leaves p) throw)) (fun v0 => seq (leaves p) (ret v0)) (opened p h) = (Ok v, h)).
  { intros c Hc. unfold bind at 1, try_catch, bind at 1. rewrite G, Hc. unfold seq, bind. rewrite L. reflexivity. }
  destruct kind; cbn beta match.
  - unfold bind. rewrite G. unfold seq, bind. rewrite L. unfold read_enum. destruct t; try discriminate.
    cbn [read] in R. destruct (find (chain_matches s) chain); [|discriminate]. cbn [option_map] in R. injection R as <-. reflexivity.
  - apply Z. destruct t; try discriminate; injection R as <-; reflexivity.
  - apply Z. destruct t; try discriminate; injection R as <-; reflexivity.
  - apply Z. destruct t; try discriminate; cbn [read] in R; unfold convert, number, bind, ret;
    match goal with |- context [Rlt_dec ?a ?b] => destruct (Rlt_dec a b) end; try discriminate; injection R as <-; reflexivity.
  - apply Z. destruct t; try discriminate; injection R as <-; reflexivity.
  - apply Z. destruct t; try discriminate; injection R as <-; reflexivity.
Qed.

Definition obs_read (b : observer) (t : text) : option cval :=
  match b with
  | Value o => read (g_kind (getter_of o)) t
  | ReadOnly g => read (g_kind (read_only_getter_of g)) t
  | Coords => match t with TList l => Some (VCoords l) | _ => None end
  end.

Lemma observe_is : forall b h t v, h_path h = [] -> text_at (obs_path b) (obs_key b) h = Some t -> obs_read b t = Some v ->
  observe b h = (Ok v, h).
Proof.
  intros [o|g|] h t v Hp T R.
  - exact (getter_is (getter_of o) h t v Hp T R).
  - exact (getter_is (read_only_getter_of g) h t v Hp T R).
  - cbn [obs_path obs_key obs_read observe] in *. destruct t; try discriminate. injection R as <-.
    unfold getWallNormalCoordinates. unfold seq at 1, bind at 1. rewrite enters_is. unfold text_at in T.
    set (p := ["Output"; "Turbulence Statistics"]%string) in *. set (k := "Wall normal coordinates"%string) in *.
    destruct (find (is_entry p k) (h_entries h)) as [d|] eqn:F; [|discriminate]. cbn [option_map] in T. injection T as T.
    assert (G : hget k (opened p h) = (Ok (TList l), opened p h)).
    { unfold hget, opened. cbn [h_path h_entries]. rewrite Hp. cbn [app]. rewrite F, T. reflexivity. }
    unfold bind at 1, try_catch, bind at 1. rewrite G.
    unfold ret, seq, bind. rewrite (leaves_opened p h Hp). reflexivity.
Qed.

(** Every text that matches the pattern can be read. *)
Definition readable (pt : pattern) (k : get_kind) : Prop :=
  match k, pt with
  | GetEnum chain, PSelection l => forallb (fun s => existsb (chain_matches s) chain) l = true
  | GetDouble, PDouble _ _ => True
  | GetSize, PInteger _ _ => True
  | GetSizeTruncated, PInteger lo _ => (0 <= lo)%Z
  | GetSizeTruncated, PDouble (Some lo) _ => 0 <= lo
  | GetBool, PBool => True
  | GetString, PAny => True
  | _, _ => False
  end.

Lemma readable_read : forall pt k t, readable pt k -> matches pt t = true -> exists v, read k t = Some v.
Proof.
  intros pt k t Hr Hm. destruct k, pt; cbn [readable] in Hr; try contradiction; destruct t; try discriminate; cbn [read]; eauto.
  - cbn [matches] in Hm. apply existsb_exists in Hm. destruct Hm as (x & I & E). apply String.eqb_eq in E. subst x.
    rewrite forallb_forall in Hr. specialize (Hr s I).
    apply existsb_exists in Hr. destruct Hr as (c & I' & E').
    destruct (find (chain_matches s) chain) eqn:F; [cbn; eauto|exfalso].
    assert (X := find_none _ _ F c I'). congruence.
  - destruct lo as [lo|]; [|contradiction]. cbn [matches within] in Hm. apply andb_true_iff in Hm. destruct Hm as [Hm _].
    destruct (Rle_dec lo (IZR z)); [|discriminate]. destruct (Rlt_dec (IZR z) 0); [lra|eauto].
  - destruct lo as [lo|]; [|contradiction]. cbn [matches within] in Hm. apply andb_true_iff in Hm. destruct Hm as [Hm _].
    destruct (Rle_dec lo x); [|discriminate]. destruct (Rlt_dec x 0); [lra|eauto].
  - cbn [matches] in Hm. apply andb_true_iff in Hm. destruct Hm as [Hm _]. apply Z.leb_le in Hm.
    destruct (Rlt_dec (IZR z) 0) as [L|L]; [|eauto]. apply (lt_IZR z 0) in L. lia.
Qed.

Lemma option_readable : forall o, exists pt, pattern_at (g_path (getter_of o)) (g_key (getter_of o)) = Some pt /\ readable pt (g_kind (getter_of o)).
Proof. intros o. destruct o; eexists; (split; [reflexivity|]); first [exact I|reflexivity|cbn; lra|cbn; lia]. Qed.

Lemma read_only_readable : forall g, exists pt, pattern_at (g_path (read_only_getter_of g)) (g_key (read_only_getter_of g)) = Some pt /\ readable pt (g_kind (read_only_getter_of g)).
Proof. intros o. destruct o; eexists; (split; [reflexivity|]); exact I. Qed.

(** Every observer works in a state that satisfies the invariant, and does not change it. *)
Lemma observe_works : forall b h, inv h ->
  exists t v, text_at (obs_path b) (obs_key b) h = Some t /\ obs_read b t = Some v /\ observe b h = (Ok v, h).
Proof.
  intros b h I.
  assert (G : exists t v, text_at (obs_path b) (obs_key b) h = Some t /\ obs_read b t = Some v).
  { destruct b as [o|g|].
    - destruct (option_readable o) as (pt & P & R). destruct (at_inv h _ _ pt I P) as (d & F & _ & M0).
      destruct (readable_read pt _ (d_text d) R M0) as [v Hv]. exists (d_text d), v. split; [|exact Hv].
      unfold text_at. cbn [obs_path obs_key]. rewrite F. reflexivity.
    - destruct (read_only_readable g) as (pt & P & R). destruct (at_inv h _ _ pt I P) as (d & F & _ & M0).
      destruct (readable_read pt _ (d_text d) R M0) as [v Hv]. exists (d_text d), v. split; [|exact Hv].
      unfold text_at. cbn [obs_path obs_key]. rewrite F. reflexivity.
    - destruct (at_inv h (obs_path Coords) (obs_key Coords) _ I eq_refl) as (d & F & _ & M0).
      destruct (d_text d) as [| | | |l] eqn:E; try discriminate M0. exists (TList l), (VCoords l). split; [|reflexivity].
      unfold text_at. rewrite F. cbn. rewrite E. reflexivity. }
  destruct G as (t & v & T & R). exists t, v. split; [exact T|]. split; [exact R|].
  apply (observe_is b h t v); [exact (proj1 I)|exact T|exact R].
Qed.

(** What is seen depends only on the text. *)
Lemma seen_text : forall b h h', inv h -> inv h' -> text_at (obs_path b) (obs_key b) h = text_at (obs_path b) (obs_key b) h' ->
  seen b h = seen b h'.
Proof.
  intros b h h' I I' E. destruct (observe_works b h I) as (t & v & T & R & O). destruct (observe_works b h' I') as (t' & v' & T' & R' & O').
  unfold seen. rewrite O, O'. cbn [fst]. congruence.
Qed.
