(** Lemmas about SolverConfiguration: values that are set are read back; domains. *)
From Coq Require Import String Bool.
From Verif Require Import Prelude ModelText SpecText ProofText ConfigTypes ConfigData ModelConfig SpecConfig ProofConfig ProofConfig2.
Open Scope R_scope.

(** ** Round trip *)

Definition inverse (cases : list (nat * string)) (chain : list (option string * nat)) : bool :=
  forallb (fun c => match find (chain_matches (snd c)) chain with Some c' => Nat.eqb (snd c') (fst c) | None => false end) cases.

Definition paired (pt : pattern) (sk : set_kind) (gk : get_kind) : Prop :=
  match sk, gk, pt with
  | SetEnum cases, GetEnum chain, _ => inverse cases chain = true
  | SetDouble, GetDouble, PDouble _ _ => True
  | SetDouble, GetSizeTruncated, PDouble (Some lo) _ => 0 <= lo
  | SetInt, GetSize, PInteger lo hi => (0 <= lo /\ hi <= int_max)%Z
  | SetInt, GetSizeTruncated, PInteger lo hi => (0 <= lo)%Z
  | SetBool, GetBool, _ => True
  | SetString, GetString, _ => True
  | _, _, _ => False
  end.

Lemma option_paired : forall o, exists pt, pattern_at (obs_path (Value o)) (obs_key (Value o)) = Some pt /\
  paired pt (s_kind (setter_of o)) (g_kind (getter_of o)) /\
  (s_kind (setter_of o) = SetDouble -> g_kind (getter_of o) = GetSizeTruncated -> o = O_ExponentialFilterNc).
Proof.
  intros o. destruct o; eexists; (split; [reflexivity|]); (split; [first [exact I|reflexivity|cbn; unfold int_max; lia|cbn; lra]|]);
    first [discriminate|intros _; discriminate|reflexivity].
Qed.

Lemma read_back : forall o v t pt, well_typed (CSet o v) -> pattern_at (obs_path (Value o)) (obs_key (Value o)) = Some pt ->
  text_of o v = Some t -> matches pt t = true ->
  exists w, obs_read (Value o) t = Some w /\
    match v with
    | VDouble x => if match g_kind (getter_of o) with GetSizeTruncated => true | _ => false end
                   then o = O_ExponentialFilterNc /\ w = VInt (Int_part (print_digits 16 x))
                   else w = VDouble (print_digits 16 x)
    | _ => w = v
    end.
Proof.
  intros o v t pt T P E M0. destruct (option_paired o) as (pt' & P' & Pa & Nc). rewrite P in P'. injection P' as <-.
  cbn [obs_read]. unfold text_of, well_typed in *. destruct (s_kind (setter_of o)) as [cases| | | |] eqn:Es; destruct v; try contradiction.
  - destruct (g_kind (getter_of o)) as [chain| | | | |]; try contradiction. cbn [paired] in Pa.
    destruct (lookup_case n cases) as [s|] eqn:L; [|discriminate]. injection E as <-. unfold lookup_case in L.
    destruct (find (fun c => Nat.eqb n (fst c)) cases) as [c|] eqn:F; [|discriminate]. injection L as <-.
    destruct (find_some _ _ F) as [I N]. apply Nat.eqb_eq in N. unfold inverse in Pa. rewrite forallb_forall in Pa. specialize (Pa c I).
    cbn [read]. destruct (find (chain_matches (snd c)) chain) as [c'|]; [|discriminate]. apply Nat.eqb_eq in Pa.
    exists (VEnum (snd c')). split; [reflexivity|]. congruence.
  - injection E as <-. destruct (g_kind (getter_of o)) as [chain| | | | |]; try contradiction.
    + exists (VDouble (print_digits 16 x)). split; reflexivity.
    + destruct pt as [[lo|] hi| | | | |]; try contradiction. cbn [paired] in Pa. cbn [to_text matches within] in M0.
      apply andb_true_iff in M0. destruct M0 as [M0 _].
      destruct (Rle_dec lo (print_digits 16 x)) as [L|L]; [|discriminate]. cbn [to_text read].
      destruct (Rlt_dec (print_digits 16 x) 0) as [L'|L']; [lra|]. eexists. split; [reflexivity|]. split; [|reflexivity]. apply Nc; reflexivity.
  - injection E as <-. destruct (g_kind (getter_of o)) as [chain| | | | |]; try contradiction;
      destruct pt as [|lo hi| | | |]; try contradiction; cbn [to_text matches] in M0; apply andb_true_iff in M0; destruct M0 as [M1 M2];
      apply Z.leb_le in M1, M2; cbn [paired] in Pa; cbn [to_text read].
    + eexists. split; [reflexivity|]. unfold to_size. f_equal. apply Z.mod_small. unfold int_max in Pa.
      assert (2147483647 < 2 ^ 64)%Z by reflexivity. lia.
    + destruct (Rlt_dec (IZR z) 0) as [L|L]; [apply (lt_IZR z 0) in L; lia|]. eexists. split; [reflexivity|]. rewrite int_part_IZR. reflexivity.
  - injection E as <-. destruct (g_kind (getter_of o)) as [chain| | | | |]; try contradiction. eexists; split; reflexivity.
  - injection E as <-. destruct (g_kind (getter_of o)) as [chain| | | | |]; try contradiction. eexists; split; reflexivity.
Qed.

Lemma seen_is : forall b h t v, inv h -> text_at (obs_path b) (obs_key b) h = Some t -> obs_read b t = Some v -> seen b h = Ok v.
Proof. intros b h t v I T R. unfold seen. rewrite (observe_is b h t v (proj1 I) T R). reflexivity. Qed.

Lemma text_present : forall b h, inv h -> text_at (obs_path b) (obs_key b) h <> None.
Proof. intros b h I. destruct (observe_works b h I) as (t & v & -> & _). discriminate. Qed.

(** The last of the stores to an entry is in effect. *)
Lemma puts_last : forall b t ws1 ws2 h, inv h -> Forall good (ws1 ++ (obs_path b, obs_key b, t) :: ws2) ->
  (forall w, In w ws2 -> fst w <> (obs_path b, obs_key b)) ->
  text_at (obs_path b) (obs_key b) (puts (ws1 ++ (obs_path b, obs_key b, t) :: ws2) h) = Some t.
Proof.
  intros b t ws1 ws2 h I G N. unfold puts. rewrite fold_left_app. cbn [fold_left fst snd].
  fold (puts ws1 h). fold (puts ws2 (put (obs_path b) (obs_key b) t (puts ws1 h))). rewrite puts_other by exact N.
  apply text_put_same. apply text_present. apply puts_inv; [exact I|]. apply Forall_app in G. exact (proj1 G).
Qed.

(** Which text an accepted call leaves. *)
Lemma stored_text : forall c b v, acceptable c -> should_return c b v ->
  exists ws1 t ws2, stores c = ws1 ++ (obs_path b, obs_key b, t) :: ws2 /\ (forall w, In w ws2 -> fst w <> (obs_path b, obs_key b)) /\
    match c with CSet o v => text_of o v = Some t | _ => t = to_text v end.
Proof.
  intros c b v A S. destruct S; cbn [stores].
  - destruct A as [_ A]. destruct (text_of o v) as [t|]; [|congruence]. exists [], t, []. split; [reflexivity|]. split; [intros ? []|reflexivity].
  - exists [], (to_text (VDouble x)). eexists. split; [reflexivity|]. split; [|reflexivity]. intros w [<-|[]]; discriminate.
  - exists [(["General"], "Prandtl", to_text (VDouble x))]%string. eexists _, []. split; [reflexivity|]. split; [intros ? []|reflexivity].
  - exists [], (TBool true), []. split; [reflexivity|]. split; [intros ? []|reflexivity].
  - exists []. eexists _, _. split; [reflexivity|]. split; [|reflexivity]. cbn [In]. intros w H; repeat (destruct H as [<-|H]; [discriminate|]); destruct H.
  - exists [(emb_path, "Coarsen parameter"%string, to_text (VDouble a))]. eexists _, _. split; [reflexivity|]. split; [|reflexivity]. cbn [In]. intros w H; repeat (destruct H as [<-|H]; [discriminate|]); destruct H.
  - eexists [_; _], _, _. split; [reflexivity|]. split; [|reflexivity]. cbn [In]. intros w H; repeat (destruct H as [<-|H]; [discriminate|]); destruct H.
  - eexists [_; _; _], _, _. split; [reflexivity|]. split; [|reflexivity]. cbn [In]. intros w H; repeat (destruct H as [<-|H]; [discriminate|]); destruct H.
  - eexists [_; _; _; _], _, _. split; [reflexivity|]. split; [|reflexivity]. cbn [In]. intros w H; repeat (destruct H as [<-|H]; [discriminate|]); destruct H.
  - eexists [_; _; _; _; _], _, _. split; [reflexivity|]. split; [|reflexivity]. cbn [In]. intros w H; repeat (destruct H as [<-|H]; [discriminate|]); destruct H.
  - exists []. eexists _, _. split; [reflexivity|]. split; [intros ? []|reflexivity].
Qed.

Lemma map_print : forall n l, Forall (decimal n) l -> map (print_digits n) l = l.
Proof. intros n l. induction 1 as [|x l D _ IH]; [reflexivity|]. simpl. rewrite (print_decimal n x D), IH. reflexivity. Qed.

(** What the getter returns after an accepted call, exactly. *)
Definition kept (b : observer) (v : cval) : cval :=
  match v with
  | VDouble x => match b with
                 | Value O_ExponentialFilterNc => VInt (Int_part (print_digits 16 x))
                 | _ => VDouble (print_digits 16 x)
                 end
  | VCoords l => VCoords (map (print_digits 6) l)
  | _ => v
  end.

Lemma accepted_kept : forall c b v h h', inv h -> well_typed c -> call c h = (Ok tt, h') -> should_return c b v -> seen b h' = Ok (kept b v).
Proof.
  intros c b v h h' I T E S. destruct (call_ok c h h' I T E) as [A ->].
  destruct (stored_text c b v A S) as (ws1 & t & ws2 & Ew & N & Ht).
  assert (I' : inv (puts (stores c) h)) by (apply puts_inv; [exact I|exact (proj1 A)]).
  assert (Tx : text_at (obs_path b) (obs_key b) (puts (stores c) h) = Some t).
  { rewrite Ew. apply puts_last; [exact I| |exact N]. rewrite <- Ew. exact (proj1 A). }
  apply (seen_is b _ t); [exact I'|exact Tx|].
  destruct S; try (subst t; reflexivity).
  destruct (option_paired o) as (pt & P & _ & Nc).
  assert (M0 : matches pt t = true).
  { destruct A as [G _]. rewrite Ew in G. apply Forall_app in G. destruct G as [_ G]. inversion G as [|? ? G' _].
    apply (good_is _ _ _ pt P) in G'. exact G'. }
  destruct (read_back o v t pt T P Ht M0) as (w & R & W). rewrite R. f_equal.
  destruct v; try exact W.
  - unfold kept. destruct (match g_kind (getter_of o) with GetSizeTruncated => true | _ => false end) eqn:K.
    + destruct W as [-> ->]. reflexivity.
    + subst w. destruct o; try reflexivity. discriminate K.
  - unfold well_typed in T. destruct (s_kind (setter_of o)); contradiction.
Qed.

Lemma kept_same : forall b v, holds b v -> same (kept b v) v.
Proof.
  intros b v H. destruct v; try reflexivity.
  - destruct H as [D N]. unfold kept. rewrite (print_decimal 16 x D).
    assert (R : same (VDouble x) (VDouble x)) by reflexivity. destruct b as [o|g|]; try exact R. destruct o; try exact R.
    destruct (N eq_refl) as [z ->]. rewrite int_part_IZR. reflexivity.
  - unfold kept, same. rewrite (map_print 6 l H). reflexivity.
Qed.

Lemma round_trip : forall c b v h h', reached h -> well_typed c -> call c h = (Ok tt, h') -> should_return c b v -> holds b v ->
  exists w, seen b h' = Ok w /\ same w v.
Proof.
  intros c b v h h' R T E S H. exists (kept b v). split; [|exact (kept_same b v H)].
  exact (accepted_kept c b v h h' (reached_inv h R) T E S).
Qed.

(** ** Histories *)

Lemma should_return_belongs : forall c b v, should_return c b v -> belongs b c.
Proof. intros c b v S. destruct S; cbn [belongs]; auto 10. Qed.

Lemma history_last : forall cs h, history cs h -> forall cs1 c cs2 b v, cs = cs1 ++ c :: cs2 ->
  should_return c b v -> (forall c', In c' cs1 -> ~ belongs b c') -> seen b h = Ok (kept b v).
Proof.
  induction 1 as [|cs c0 h h' Hh IH T E|cs c0 h h' Hh IH T Em E]; intros cs1 c cs2 b v Ecs S N.
  - destruct cs1; discriminate.
  - assert (R := history_reached cs h Hh). destruct cs1 as [|c1 cs1].
    + injection Ecs as -> _. exact (accepted_kept c b v h h' (reached_inv h R) T E S).
    + injection Ecs as -> ->. rewrite (independent c1 b h h' R T E) by (apply N; left; reflexivity).
      apply (IH cs1 c cs2 b v eq_refl S). intros c' I. apply N. right. exact I.
  - rewrite (rejected_unchanged c0 h h' (history_reached cs h Hh) T Em E). exact (IH cs1 c cs2 b v Ecs S N).
Qed.

Lemma history_default : forall cs h, history cs h -> forall b, (forall c, In c cs -> ~ belongs b c) -> seen b h = seen b default_configuration.
Proof.
  induction 1 as [|cs c0 h h' Hh IH T E|cs c0 h h' Hh IH T Em E]; intros b N.
  - reflexivity.
  - rewrite (independent c0 b h h' (history_reached cs h Hh) T E) by (apply N; left; reflexivity).
    apply IH. intros c I. apply N. right. exact I.
  - rewrite (rejected_unchanged c0 h h' (history_reached cs h Hh) T Em E). apply IH. exact N.
Qed.

(** ** Domains *)

Lemma dec_small : forall n z, (Z.abs z <? 10 ^ n)%Z = true -> decimal n (IZR z).
Proof. intros n z H. apply decimal_int. apply Z.ltb_lt. exact H. Qed.

Definition dec_bound (b : option R) : Prop := match b with Some x => decimal 16 x | None => True end.
Definition in_bounds (lo hi : option R) (x : R) : Prop :=
  match lo with Some l => l <= x | None => True end /\ match hi with Some u => x <= u | None => True end.

Lemma within_bounds : forall lo hi x, within lo hi x = true <-> in_bounds lo hi x.
Proof.
  intros lo hi x. unfold within, in_bounds. rewrite andb_true_iff.
  destruct lo as [l|], hi as [u|]; try destruct (Rle_dec l x); try destruct (Rle_dec x u); intuition (try lra; try discriminate; try reflexivity).
Qed.

Lemma print_within : forall lo hi x, dec_bound lo -> dec_bound hi -> in_bounds lo hi x -> in_bounds lo hi (print_digits 16 x).
Proof.
  intros lo hi x Dl Dh [B1 B2]. split.
  - destruct lo as [l|]; [|exact I]. apply print_ge; [lia|exact Dl|exact B1].
  - destruct hi as [u|]; [|exact I]. apply print_le; [lia|exact Dh|exact B2].
Qed.

Lemma double_domain_is : forall o, s_kind (setter_of o) = SetDouble -> exists lo hi,
  pattern_at (obs_path (Value o)) (obs_key (Value o)) = Some (PDouble lo hi) /\ dec_bound lo /\ dec_bound hi /\
  (forall x, double_domain o x <-> in_bounds lo hi x).
Proof.
  assert (D0 : decimal 16 0) by (apply dec_small; reflexivity). assert (D1 : decimal 16 1) by (apply dec_small; reflexivity).
  assert (D50 : decimal 16 50) by (apply dec_small; reflexivity). assert (D10 : decimal 16 (1 / 10 ^ 10)) by (apply decimal_frac; reflexivity).
  assert (D25 : decimal 16 (1 / 10 ^ 25)) by (apply decimal_frac; reflexivity).
  assert (Dp : decimal 16 (1 * 10 ^ 10)) by (replace (1 * 10 ^ 10) with 10000000000 by lra; apply dec_small; reflexivity).
  assert (Dm : decimal 16 (- (1 * 10 ^ 10))) by (replace (- (1 * 10 ^ 10)) with (-10000000000) by lra; apply dec_small; reflexivity).
  intros o E. destruct o; try discriminate E; do 2 eexists; (split; [reflexivity|]); (split; [first [assumption|exact I]|]); (split; [first [assumption|exact I]|]);
    intros x; unfold double_domain, in_bounds, between, ge; rewrite ?Rmult_1_l; tauto.
Qed.

Lemma int_domain_is : forall o, s_kind (setter_of o) = SetInt -> exists lo hi,
  pattern_at (obs_path (Value o)) (obs_key (Value o)) = Some (PInteger lo hi) /\ (forall z, int_domain o z <-> (lo <= z <= hi)%Z).
Proof.
  intros o E. destruct o; try discriminate E; do 2 eexists; (split; [reflexivity|]); intros z; unfold int_domain, int_max; lia.
Qed.

Lemma enum_domain_is : forall o cases, s_kind (setter_of o) = SetEnum cases ->
  forallb (fun n => match lookup_case n cases with Some _ => true | None => false end) (List.seq 0 (enum_size o)) = true /\
  forallb (fun c => Nat.ltb (fst c) (enum_size o)) cases = true.
Proof. intros o cases E. destruct o; try discriminate E; injection E as <-; split; reflexivity. Qed.

Lemma enum_domain_iff : forall o cases n, s_kind (setter_of o) = SetEnum cases -> (n < enum_size o)%nat <-> lookup_case n cases <> None.
Proof.
  intros o cases n E. destruct (enum_domain_is o cases E) as [H1 H2]. rewrite forallb_forall in H1, H2. split.
  - intros L. specialize (H1 n). assert (In n (List.seq 0 (enum_size o))) by (apply in_seq; lia). specialize (H1 H).
    destruct (lookup_case n cases); [discriminate|discriminate H1].
  - unfold lookup_case. destruct (find (fun c => Nat.eqb n (fst c)) cases) as [c|] eqn:F; [|cbn; congruence]. intros _.
    destruct (find_some _ _ F) as [I N]. apply Nat.eqb_eq in N. subst n. apply Nat.ltb_lt. exact (H2 c I).
Qed.

(** A value of the domain is accepted; any other value that is not rounded is rejected. *)
Lemma set_iff : forall o v h, inv h -> well_typed (CSet o v) -> (forall x, v = VDouble x -> decimal 16 x) ->
  (in_domain o v /\ exists h', set o v h = (Ok tt, h')) \/ (~ in_domain o v /\ set o v h = (Throw, h)).
Proof.
  intros o v h I T D. destruct (set_is o v h I T) as (pt & P & S & E). rewrite E. clear E.
  unfold text_of, settable, well_typed in *. destruct (s_kind (setter_of o)) as [cases| | | |] eqn:K; destruct v; try contradiction; cbn [in_domain].
  - assert (Q := enum_domain_iff o cases n K). destruct (lookup_case n cases) as [s|] eqn:L; cbn [option_map].
    + left. split; [apply Q; discriminate|]. assert (M0 : matches pt (TStr s) = true).
      { unfold lookup_case in L. destruct (find (fun c => Nat.eqb n (fst c)) cases) as [c|] eqn:F; [|discriminate]. injection L as <-.
        rewrite forallb_forall in S. apply S. exact (proj1 (find_some _ _ F)). }
      rewrite M0. eexists. reflexivity.
    + right. split; [|reflexivity]. intros C. apply Q in C. congruence.
  - destruct (double_domain_is o K) as (lo & hi & P' & _ & _ & Q). rewrite P in P'. injection P' as ->. cbn [to_text matches].
    rewrite (print_decimal 16 x (D x eq_refl)). destruct (within lo hi x) eqn:W.
    + left. split; [apply Q, within_bounds; exact W|]. eexists. reflexivity.
    + right. split; [|reflexivity]. intros C. apply Q, within_bounds in C. congruence.
  - destruct (int_domain_is o K) as (lo & hi & P' & Q). rewrite P in P'. injection P' as ->. cbn [to_text matches].
    destruct (Z.leb lo z && Z.leb z hi)%bool eqn:W.
    + left. split; [apply Q|eexists; reflexivity]. apply andb_true_iff in W. destruct W as [W1 W2]. apply Z.leb_le in W1, W2. lia.
    + right. split; [|reflexivity]. intros C. apply Q in C. apply andb_false_iff in W. destruct W as [W|W]; apply Z.leb_gt in W; lia.
  - subst pt. left. split; [exact Logic.I|]. eexists. reflexivity.
  - left. split; [exact Logic.I|].
    assert (Hp : pt = PAny).
    { clear - P K. destruct o; try discriminate K. vm_compute in P. injection P as <-. reflexivity. }
    subst pt. eexists. reflexivity.
Qed.

Lemma domain_accepted : forall o v h, inv h -> well_typed (CSet o v) -> in_domain o v -> exists h', set o v h = (Ok tt, h').
Proof.
  intros o v h I T D. destruct v as [n|x|z|b|s|l];
    try (match goal with |- context [set o ?v h] => destruct (set_iff o v h I T ltac:(discriminate)) as [[_ H]|[N _]]; [exact H|contradiction] end).
  destruct (set_is o (VDouble x) h I T) as (pt & P & _ & ->). unfold text_of, well_typed in *.
  destruct (s_kind (setter_of o)) as [cases| | | |] eqn:K; try contradiction.
  destruct (double_domain_is o K) as (lo & hi & P' & Dl & Dh & Q). rewrite P in P'. injection P' as ->. cbn [to_text matches].
  rewrite (proj2 (within_bounds lo hi (print_digits 16 x))); [eexists; reflexivity|].
  apply print_within; [exact Dl|exact Dh|]. apply Q. exact D.
Qed.
