(** Lemmas about SolverConfiguration: every setter stores texts or throws. *)
From Coq Require Import String Bool.
From Verif Require Import Prelude ModelText SpecText ProofText ConfigTypes ConfigData ModelConfig SpecConfig ProofConfig.
Open Scope R_scope.

Lemma hset_is : forall h p k t pt, inv h -> pattern_at p k = Some pt ->
  hset k t (opened p h) = if matches pt t then (Ok tt, opened p (put p k t h)) else (Throw, opened p h).
Proof.
  intros h p k t pt I P. destruct (at_inv h p k pt I P) as (d & F & E & _).
  unfold hset, opened, put. cbn [h_path h_entries]. rewrite (proj1 I). cbn [app]. rewrite F, E. reflexivity.
Qed.

(** ** Plain setters *)

Definition text_of (o : option_id) (v : cval) : option text :=
  match s_kind (setter_of o), v with
  | SetEnum cases, VEnum n => option_map TStr (lookup_case n cases)
  | _, _ => Some (to_text v)
  end.

Definition settable (pt : pattern) (d : setter_desc) : Prop :=
  match s_kind d with
  | SetEnum cases => forallb (fun c => matches pt (TStr (snd c))) cases = true
  | SetBool => pt = PBool
  | _ => s_guarded d = true
  end.

Lemma option_settable : forall o, exists pt, pattern_at (s_path (setter_of o)) (s_key (setter_of o)) = Some pt /\ settable pt (setter_of o).
Proof. intros o. destruct o; eexists; (split; [reflexivity|]); reflexivity. Qed.

Lemma same_entry : forall o, s_path (setter_of o) = obs_path (Value o) /\ s_key (setter_of o) = obs_key (Value o).
Proof. intros o. destruct o; split; reflexivity. Qed.

Lemma set_is : forall o v h, inv h -> well_typed (CSet o v) -> exists pt,
  pattern_at (obs_path (Value o)) (obs_key (Value o)) = Some pt /\ settable pt (setter_of o) /\
  set o v h = match text_of o v with
              | Some t => if matches pt t then (Ok tt, put (obs_path (Value o)) (obs_key (Value o)) t h) else (Throw, h)
              | None => (Throw, h)
              end.
Proof.
  intros o v h I T. destruct (option_settable o) as (pt & P & S). destruct (same_entry o) as [<- <-]. exists pt.
  split; [exact P|]. split; [exact S|].
  unfold set, run_setter, well_typed, text_of, settable in *. destruct (setter_of o) as [p k g kind]. cbn [s_path s_key s_guarded s_kind] in *.
  unfold seq at 1, bind at 1. rewrite enters_is.
  assert (L := leaves_opened p h (proj1 I)).
  assert (G : forall t, (g = true \/ matches pt t = true) ->
    seq (if g then try_catch (hset k t) (seq (leaves p) throw) else hset k t) (leaves p) (opened p h) =
    if matches pt t then (Ok tt, put p k t h) else (Throw, h)).
  { intros t Ht. assert (H := hset_is h p k t pt I P). destruct (matches pt t) eqn:M0.
    - assert (L' : leaves p (opened p (put p k t h)) = (Ok tt, put p k t h)) by (apply leaves_opened; exact (proj1 I)).
      destruct g; unfold seq, try_catch, bind; rewrite H, L'; reflexivity.
    - destruct Ht as [->|]; [|discriminate]. unfold seq, try_catch, bind. rewrite H, L. reflexivity. }
  unfold set_body. cbn [s_path s_key s_guarded s_kind].
  destruct kind; destruct v; try contradiction; try (apply G; left; exact S).
  - destruct (lookup_case n cases) as [s|] eqn:E; cbn [option_map].
    + assert (M0 : matches pt (TStr s) = true).
      { unfold lookup_case in E. destruct (find (fun c => Nat.eqb n (fst c)) cases) as [c|] eqn:F; [|discriminate]. injection E as <-.
        rewrite forallb_forall in S. apply S. exact (proj1 (find_some _ _ F)). }
      rewrite M0. unfold seq, bind. rewrite (hset_is h p k (TStr s) pt I P), M0.
      apply leaves_opened. exact (proj1 I).
    + unfold seq, bind. rewrite L. reflexivity.
  - subst pt. apply G. right. reflexivity.
Qed.

(** ** All setters *)

(** Stores done by a list of accepted [hset] calls. *)
Definition store : Type := (list string * string * text)%type.
Definition puts (ws : list store) (h : handler) : handler := fold_left (fun h w => put (fst (fst w)) (snd (fst w)) (snd w) h) ws h.
Definition good (w : store) : Prop := exists pt, pattern_at (fst (fst w)) (snd (fst w)) = Some pt /\ matches pt (snd w) = true.

Lemma puts_inv : forall ws h, inv h -> Forall good ws -> inv (puts ws h).
Proof.
  induction ws as [|w ws IH]; intros h I G; [exact I|]. inversion G as [|? ? (pt & P & M0) G']. subst. simpl. apply IH; [|exact G'].
  exact (put_inv h _ _ _ pt I P M0).
Qed.

Lemma puts_other : forall ws h p k, (forall w, In w ws -> fst w <> (p, k)) -> text_at p k (puts ws h) = text_at p k h.
Proof.
  induction ws as [|w ws IH]; intros h p k N; [reflexivity|]. simpl. rewrite IH by (intros; apply N; right; assumption).
  apply text_put_other. destruct w as [[p' k'] t]. cbn. intros E. apply (N (p', k', t)); [left; reflexivity|]. cbn. exact E.
Qed.

Definition emb_path : list string := ["Advection"; "Embedded Parameters"]%string.

Definition stores (c : command) : list store :=
  match c with
  | CSet o v => match text_of o v with Some t => [(obs_path (Value o), obs_key (Value o), t)] | None => [] end
  | CPrandtl x => [(["General"], "Prandtl", to_text (VDouble x)); (["General"], "Prandtl number set", TBool true)]
  | CSutherland => [(["General"], "Sutherland law set", TBool true)]
  | CEmbedded a b c d e f =>
      [(emb_path, "Coarsen parameter", to_text (VDouble a)); (emb_path, "Refinement parameter", to_text (VDouble b));
       (emb_path, "Minimum CFL", to_text (VDouble c)); (emb_path, "Maximum CFL", to_text (VDouble d));
       (emb_path, "Refinement tolerance", to_text (VDouble e)); (emb_path, "Coarsen tolerance", to_text (VDouble f))]
  | CCoords l => [(["Output"; "Turbulence Statistics"], "Wall normal coordinates", to_text (VCoords l))]
  end%string.

(** A command that is accepted stores its texts. *)
Definition acceptable (c : command) : Prop :=
  Forall good (stores c) /\ match c with CSet o v => text_of o v <> None | CCoords [] => False | _ => True end.

Lemma prandtl_pat : pattern_at ["General"%string] "Prandtl" = Some (PDouble (Some (1 / 10^10)) None). Proof. reflexivity. Qed.
Lemma prandtl_set_pat : pattern_at ["General"%string] "Prandtl number set" = Some PBool. Proof. reflexivity. Qed.
Lemma sutherland_pat : pattern_at ["General"%string] "Sutherland law set" = Some PBool. Proof. reflexivity. Qed.
Lemma coords_pat : pattern_at ["Output"; "Turbulence Statistics"]%string "Wall normal coordinates" = Some (PList (- (1 * 10^10)) (1 * 10^10)).
Proof. reflexivity. Qed.

Lemma good_is : forall p k t pt, pattern_at p k = Some pt -> good (p, k, t) <-> matches pt t = true.
Proof.
  intros p k t pt P. unfold good. cbn [fst snd]. split.
  - intros (pt' & P' & M0). congruence.
  - intros M0. exists pt. auto.
Qed.

Lemma call_is : forall c h, inv h -> well_typed c -> embedded c = false ->
  (acceptable c /\ call c h = (Ok tt, puts (stores c) h)) \/ (~ acceptable c /\ call c h = (Throw, h)).
Proof.
  intros c h I T E. unfold acceptable. destruct c as [o v|x| |a b c d e f|l]; try discriminate E; cbn [call stores].
  - destruct (set_is o v h I T) as (pt & P & _ & ->). destruct (text_of o v) as [t|].
    + destruct (matches pt t) eqn:M0.
      * left. split; [|reflexivity]. split; [|discriminate]. repeat constructor. apply (good_is _ _ _ pt P). exact M0.
      * right. split; [|reflexivity]. intros [G _]. inversion G as [|? ? G' _]. apply (good_is _ _ _ pt P) in G'. congruence.
    + right. split; [|reflexivity]. tauto.
  - unfold setPrandtlNumber. set (t := to_text (VDouble x)). unfold seq, try_catch, bind, throw. rewrite enters_is.
    assert (H := hset_is h ["General"%string] "Prandtl" t _ I prandtl_pat).
    destruct (matches _ t) eqn:M0 in H.
    + left. assert (I' := put_inv h ["General"%string] "Prandtl" t _ I prandtl_pat M0).
      assert (H' := hset_is _ ["General"%string] "Prandtl number set" (TBool true) _ I' prandtl_set_pat).
      cbn [matches] in H'. split.
      * split; [|exact Logic.I]. repeat constructor; [apply (good_is _ _ _ _ prandtl_pat); exact M0|exists PBool; split; reflexivity].
      * rewrite H, H'. apply leaves_opened. exact (proj1 I).
    + right. split.
      * intros [G _]. inversion G as [|? ? G' _]. apply (good_is _ _ _ _ prandtl_pat) in G'. congruence.
      * rewrite H, (leaves_opened _ h (proj1 I)). reflexivity.
  - left. split. { split; [|exact Logic.I]. repeat constructor. exists PBool; split; reflexivity. }
    unfold setSutherlandLaw. unfold seq, try_catch, bind, throw. rewrite enters_is.
    rewrite (hset_is h ["General"%string] "Sutherland law set" (TBool true) _ I sutherland_pat). cbn [matches].
    apply leaves_opened. exact (proj1 I).
  - unfold setWallNormalCoordinates. unfold seq, try_catch, bind, throw. rewrite enters_is. destruct l as [|y l].
    + right. split; [tauto|]. rewrite (leaves_opened _ h (proj1 I)). reflexivity.
    + set (t := to_text (VCoords (y :: l))).
      assert (H := hset_is h ["Output"; "Turbulence Statistics"]%string "Wall normal coordinates" t _ I coords_pat).
      destruct (matches _ t) eqn:M0 in H.
      * left. split. { split; [|exact Logic.I]. repeat constructor. apply (good_is _ _ _ _ coords_pat). exact M0. }
        rewrite H. apply leaves_opened. exact (proj1 I).
      * right. split.
        { intros [G _]. inversion G as [|? ? G' _]. apply (good_is _ _ _ _ coords_pat) in G'. congruence. }
        rewrite H, (leaves_opened _ h (proj1 I)). reflexivity.
Qed.

Lemma hset_ok : forall h p k t, inv h -> pattern_at p k <> None ->
  (good (p, k, t) /\ hset k t (opened p h) = (Ok tt, opened p (put p k t h))) \/ (~ good (p, k, t) /\ hset k t (opened p h) = (Throw, opened p h)).
Proof.
  intros h p k t I P. destruct (pattern_at p k) as [pt|] eqn:E; [|congruence]. rewrite (hset_is h p k t pt I E).
  destruct (matches pt t) eqn:M0; [left|right]; (split; [|reflexivity]).
  - apply (good_is p k t pt E). exact M0.
  - rewrite (good_is p k t pt E). congruence.
Qed.

(** setEmbeddedDealIntegratorParameters: accepted, or stops inside its subsection. *)
Lemma embedded_is : forall c h, inv h -> embedded c = true ->
  (acceptable c /\ call c h = (Ok tt, puts (stores c) h)) \/
  (~ acceptable c /\ exists ws, call c h = (Throw, opened emb_path (puts ws h))).
Proof.
  intros c h I E. unfold acceptable. destruct c as [o v|x| |a b c d e f|l]; try discriminate E; cbn [call].
  unfold setEmbeddedDealIntegratorParameters. cbv zeta. fold emb_path.
  unfold seq at 1, bind at 1. rewrite enters_is.
  assert (K : forall ws ws0 h0, inv h0 -> (forall w, In w ws -> fst (fst w) = emb_path /\ pattern_at emb_path (snd (fst w)) <> None) ->
    h0 = puts ws0 h ->
    (Forall good ws /\ fold_right (fun w m => seq (hset (snd (fst w)) (snd w)) m) (leaves emb_path) ws (opened emb_path h0) = (Ok tt, puts ws h0)) \/
    (~ Forall good ws /\ exists ws', fold_right (fun w m => seq (hset (snd (fst w)) (snd w)) m) (leaves emb_path) ws (opened emb_path h0) = (Throw, opened emb_path (puts ws' h)))).
  { induction ws as [|[[p k] t] ws IH]; intros ws0 h0 I0 Hws E0.
    - left. split; [constructor|]. cbn [fold_right puts fold_left]. apply leaves_opened. exact (proj1 I0).
    - cbn [fold_right fst snd]. destruct (Hws _ (or_introl eq_refl)) as [Hp Hk]. cbn [fst snd] in Hp, Hk. subst p.
      destruct (hset_ok h0 emb_path k t I0 Hk) as [[G H]|[G H]].
      + destruct G as (pt & P & M0). cbn [fst snd] in P, M0. assert (I1 := put_inv h0 _ _ _ pt I0 P M0).
        destruct (IH (ws0 ++ [(emb_path, k, t)]) (put emb_path k t h0) I1) as [[G' H']|[G' (ws' & H')]].
        { intros w Hw. apply Hws. right. exact Hw. }
        { rewrite E0. unfold puts. rewrite fold_left_app. reflexivity. }
        * left. split; [constructor; [exists pt; auto|exact G']|]. unfold seq at 1, bind at 1. rewrite H. exact H'.
        * right. split; [intros G; inversion G; contradiction|]. exists ws'. unfold seq at 1, bind at 1. rewrite H. exact H'.
      + right. split; [intros G'; inversion G'; contradiction|]. exists ws0. unfold seq at 1, bind at 1. rewrite H, <- E0. reflexivity. }
  destruct (K (stores (CEmbedded a b c d e f)) [] h I) as [[G H]|[G (ws & H)]].
  - cbn [stores]. intros w Hw. repeat (destruct Hw as [<-|Hw]; [split; [reflexivity|discriminate]|]). destruct Hw.
  - reflexivity.
  - left. split; [split; [exact G|exact Logic.I]|]. exact H.
  - right. split; [intros [G' _]; contradiction|]. exists ws. unfold seq at 1, bind at 1. rewrite enters_is. exact H.
Qed.

Lemma call_ok : forall c h h', inv h -> well_typed c -> call c h = (Ok tt, h') -> acceptable c /\ h' = puts (stores c) h.
Proof.
  intros c h h' I T E. destruct (embedded c) eqn:Em.
  - destruct (embedded_is c h I Em) as [[A H]|[_ (ws & H)]]; rewrite H in E; [|discriminate]. injection E as <-. auto.
  - destruct (call_is c h I T Em) as [[A H]|[_ H]]; rewrite H in E; [|discriminate]. injection E as <-. auto.
Qed.

Lemma call_throw : forall c h h', inv h -> well_typed c -> embedded c = false -> call c h = (Throw, h') -> h' = h.
Proof.
  intros c h h' I T Em E. destruct (call_is c h I T Em) as [[A H]|[_ H]]; rewrite H in E; [discriminate|]. injection E as <-. reflexivity.
Qed.

Lemma call_inv : forall c h h', inv h -> well_typed c -> call c h = (Ok tt, h') -> inv h'.
Proof. intros c h h' I T E. destruct (call_ok c h h' I T E) as [[G _] ->]. apply puts_inv; assumption. Qed.

Lemma reached_inv : forall h, reached h -> inv h.
Proof.
  induction 1 as [|h c h' _ IH T E|h c h' _ IH T Em E|h b _ IH].
  - exact inv_default.
  - exact (call_inv c h h' IH T E).
  - rewrite (call_throw c h h' IH T Em E). exact IH.
  - destruct (observe_works b h IH) as (t & v & _ & _ & ->). exact IH.
Qed.

Lemma history_reached : forall cs h, history cs h -> reached h.
Proof.
  induction 1 as [|cs c h h' _ IH T E|cs c h h' _ IH T Em E].
  - constructor.
  - exact (reached_call h c h' IH T E).
  - exact (reached_rejected h c h' IH T Em E).
Qed.

(** ** Getters of different options read different entries *)

Definition all_observers : list observer :=
  map Value all_options ++
  map ReadOnly [G_EmbeddedDealIntegratorCoarsenParameter; G_EmbeddedDealIntegratorRefinementParameter; G_EmbeddedDealIntegratorMinimumCFL;
    G_EmbeddedDealIntegratorMaximumCFL; G_EmbeddedDealIntegratorRefinementTolerance; G_EmbeddedDealIntegratorCoarsenTolerance;
    G_PrandtlNumber; G_PrandtlNumberSet; G_SutherlandLawSet] ++ [Coords].

Lemma in_all_observers : forall b, In b all_observers.
Proof.
  intros [o|g|]; unfold all_observers.
  - apply in_or_app. left. apply in_map. unfold all_options. destruct o; repeat (first [left; reflexivity|right]).
  - apply in_or_app. right. apply in_or_app. left. apply in_map. destruct g; repeat (first [left; reflexivity|right]).
  - apply in_or_app. right. apply in_or_app. right. left. reflexivity.
Qed.

Fixpoint distinct (l : list observer) : bool :=
  match l with
  | [] => true
  | b :: l' => (forallb (fun c => negb (path_eqb (obs_path b) (obs_path c) && String.eqb (obs_key b) (obs_key c))) l' && distinct l')%bool
  end.

Lemma distinct_inj : forall l b c, distinct l = true -> In b l -> In c l -> (obs_path b, obs_key b) = (obs_path c, obs_key c) -> b = c.
Proof.
  induction l as [|d l IH]; intros b c D Ib Ic E; [destruct Ib|]. simpl in D. apply andb_true_iff in D. destruct D as [D1 D2].
  rewrite forallb_forall in D1. injection E as E1 E2.
  assert (X : forall c, In c l -> obs_path d = obs_path c -> obs_key d = obs_key c -> False).
  { intros x Ix P K. specialize (D1 x Ix). rewrite P, K in D1. rewrite (proj2 (path_eqb_eq _ _) eq_refl), String.eqb_refl in D1. discriminate. }
  destruct Ib as [->|Ib], Ic as [->|Ic].
  - reflexivity.
  - exfalso. exact (X c Ic E1 E2).
  - exfalso. exact (X b Ib (eq_sym E1) (eq_sym E2)).
  - apply IH; try assumption. congruence.
Qed.

Lemma observers_distinct : distinct all_observers = true.
Proof. reflexivity. Qed.

Lemma entry_injective : forall b c, (obs_path b, obs_key b) = (obs_path c, obs_key c) -> b = c.
Proof. intros b c. apply (distinct_inj all_observers); [exact observers_distinct| |]; apply in_all_observers. Qed.

(** The entries a setter writes are those of its getters. *)
Lemma stores_belong : forall c w, In w (stores c) -> exists b, belongs b c /\ fst w = (obs_path b, obs_key b).
Proof.
  intros c w H. destruct c as [o v|x| |a b c d e f|l]; cbn [stores] in H.
  - destruct (text_of o v); [|destruct H]. destruct H as [<-|[]]. exists (Value o). split; reflexivity.
  - destruct H as [<-|[<-|[]]]; [exists (ReadOnly G_PrandtlNumber)|exists (ReadOnly G_PrandtlNumberSet)]; (split; [cbn; auto|reflexivity]).
  - destruct H as [<-|[]]. exists (ReadOnly G_SutherlandLawSet). split; reflexivity.
  - cbn [belongs]. destruct H as [<-|[<-|[<-|[<-|[<-|[<-|[]]]]]]].
    + eexists. split; [left; reflexivity|reflexivity].
    + eexists. split; [right; left; reflexivity|reflexivity].
    + eexists. split; [right; right; left; reflexivity|reflexivity].
    + eexists. split; [right; right; right; left; reflexivity|reflexivity].
    + eexists. split; [right; right; right; right; left; reflexivity|reflexivity].
    + eexists. split; [right; right; right; right; right; reflexivity|reflexivity].
  - destruct H as [<-|[]]. exists Coords. split; reflexivity.
Qed.

Lemma independent : forall c b h h', reached h -> well_typed c -> call c h = (Ok tt, h') -> ~ belongs b c -> seen b h' = seen b h.
Proof.
  intros c b h h' R T E N. assert (I := reached_inv h R). destruct (call_ok c h h' I T E) as [A ->].
  apply seen_text; [apply puts_inv; [exact I|exact (proj1 A)]|exact I|].
  apply puts_other. intros w Hw Ew. destruct (stores_belong c w Hw) as (b' & Hb & Eb).
  apply N. rewrite (entry_injective b b'); [exact Hb|congruence].
Qed.

Lemma rejected_unchanged : forall c h h', reached h -> well_typed c -> embedded c = false -> call c h = (Throw, h') -> h' = h.
Proof. intros c h h' R. apply call_throw. exact (reached_inv h R). Qed.

Lemma getters_work : forall b h, reached h -> exists v, observe b h = (Ok v, h).
Proof. intros b h R. destruct (observe_works b h (reached_inv h R)) as (t & v & _ & _ & H). exists v. exact H. Qed.

(** No setter of the class runs into undefined behaviour. *)
Lemma setters_defined : forall c h, reached h -> well_typed c -> fst (call c h) <> UB.
Proof.
  intros c h R T. assert (I := reached_inv h R). destruct (embedded c) eqn:Em.
  - destruct (embedded_is c h I Em) as [[_ ->]|[_ (ws & ->)]]; discriminate.
  - destruct (call_is c h I T Em) as [[_ ->]|[_ ->]]; discriminate.
Qed.
