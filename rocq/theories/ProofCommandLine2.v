(** What applyToSolverConfiguration leaves in the configuration. *)
From Coq Require Import String.
From Verif Require Import Prelude ModelText SpecText ProofText ConfigTypes ConfigData EnumData ModelConfig SpecConfig ProofConfig ProofConfig2
  ProofConfig3 ModelCommandLine SpecCommandLine ProofCommandLine.
Open Scope R_scope.
Local Open Scope string_scope.

(** ** Executing settings *)

Lemma option_eq : forall o o' : option_id, {o = o'} + {o <> o'}.
Proof. decide equality. Defined.

Definition fine (x : setting) : Prop := acceptable (CSet (fst x) (snd x)).
Fixpoint last_of (o : option_id) (l : list setting) : option cval :=
  match l with
  | [] => None
  | x :: l' => match last_of o l' with Some v => Some v | None => if option_eq (fst x) o then Some (snd x) else None end
  end.

Lemma exec_reached : forall l r h, reached h -> Forall typed l -> reached (snd (exec l r h)).
Proof.
  induction l as [|x l IH]; intros r h R T; [exact R|]. inversion T as [|? ? Tx Tl]; subst. cbn [exec]. unfold seq, bind.
  destruct (set_cases x h (reached_inv h R) Tx) as [[h' [S I']]|S]; rewrite S; [|exact R].
  apply IH; [|exact Tl]. exact (reached_call h (CSet (fst x) (snd x)) h' R Tx S).
Qed.

Lemma exec_fine : forall l r h, inv h -> Forall typed l -> Forall fine l -> fst (exec l r h) = r.
Proof.
  induction l as [|x l IH]; intros r h I T F; [reflexivity|]. inversion T as [|? ? Tx Tl]; subst. inversion F as [|? ? Fx Fl]; subst.
  cbn [exec]. unfold seq, bind. destruct (call_is (CSet (fst x) (snd x)) h I Tx eq_refl) as [[A E]|[N E]]; [|contradiction].
  cbn [call] in E. rewrite E. apply IH; auto. exact (call_inv (CSet (fst x) (snd x)) h _ I Tx E).
Qed.

Lemma exec_not_fine : forall l r h, inv h -> Forall typed l -> ~ Forall fine l -> fst (exec l r h) = Throw.
Proof.
  induction l as [|x l IH]; intros r h I T F; [exfalso; apply F; constructor|]. inversion T as [|? ? Tx Tl]; subst.
  cbn [exec]. unfold seq, bind. destruct (call_is (CSet (fst x) (snd x)) h I Tx eq_refl) as [[A E]|[N E]]; cbn [call] in E; rewrite E; [|reflexivity].
  apply IH; [exact (call_inv (CSet (fst x) (snd x)) h _ I Tx E)|exact Tl|]. intros Fl. apply F. constructor; assumption.
Qed.

Lemma exec_ok : forall l r h h' u, inv h -> Forall typed l -> exec l r h = (Ok u, h') -> r = Ok u /\ Forall fine l.
Proof.
  induction l as [|x l IH]; intros r h h' u I T E; [cbn in E; injection E as -> ->; split; [reflexivity|constructor]|].
  inversion T as [|? ? Tx Tl]; subst. cbn [exec] in E. unfold seq, bind in E.
  destruct (call_is (CSet (fst x) (snd x)) h I Tx eq_refl) as [[A Es]|[N Es]]; cbn [call] in Es; rewrite Es in E; [|discriminate].
  destruct (IH _ _ _ _ (call_inv (CSet (fst x) (snd x)) h _ I Tx Es) Tl E) as [-> F]. split; [reflexivity|constructor; assumption].
Qed.

Lemma exec_seen : forall l h h', inv h -> Forall typed l -> exec l (Ok tt) h = (Ok tt, h') ->
  (forall o v, last_of o l = Some v -> seen (Value o) h' = Ok (kept (Value o) v)) /\
  (forall b, (forall o v, b = Value o -> last_of o l <> Some v) -> seen b h' = seen b h).
Proof.
  induction l as [|x l IH]; intros h h' I T E.
  - cbn in E. injection E as ->. split; [discriminate|reflexivity].
  - inversion T as [|? ? Tx Tl]; subst. cbn [exec] in E. unfold seq, bind in E.
    destruct (set_cases x h I Tx) as [[h1 [S I1]]|S]; rewrite S in E; [|discriminate].
    destruct (IH h1 h' I1 Tl E) as [Ha Hb]. cbn [last_of]. split.
    + intros o v Ho. destruct (last_of o l) as [w|] eqn:El.
      * injection Ho as <-. exact (Ha o w El).
      * destruct (option_eq (fst x) o) as [<-|]; [|discriminate]. injection Ho as <-.
        rewrite (Hb (Value (fst x))) by (intros o' v' Eo; injection Eo as <-; congruence).
        exact (accepted_kept (CSet (fst x) (snd x)) (Value (fst x)) (snd x) h h1 I Tx S (sr_set _ _)).
    + intros b N. rewrite Hb.
      * destruct (call_ok (CSet (fst x) (snd x)) h h1 I Tx S) as [A ->].
        apply seen_text; [exact I1|exact I|]. apply puts_other. intros w Iw Ew.
        destruct (stores_belong (CSet (fst x) (snd x)) w Iw) as [b' [B Eb]]. cbn [belongs] in B. subst b'.
        assert (Eb' : Value (fst x) = b) by (apply entry_injective; rewrite <- Eb; exact Ew).
        apply (N (fst x) (match last_of (fst x) l with Some v => v | None => snd x end) (eq_sym Eb')).
        destruct (last_of (fst x) l); [reflexivity|]. destruct (option_eq (fst x) (fst x)); congruence.
      * intros o v Eo Hl. apply (N o v Eo). rewrite Hl. reflexivity.
Qed.

Lemma last_of_app : forall o l1 l2, last_of o (l1 ++ l2)%list = match last_of o l2 with Some v => Some v | None => last_of o l1 end.
Proof.
  intros o l1 l2. induction l1 as [|x l1 IH]; cbn [app last_of]; [destruct (last_of o l2); reflexivity|].
  rewrite IH. destruct (last_of o l2); reflexivity.
Qed.
Lemma last_of_in : forall o v l, last_of o l = Some v -> In (o, v) l.
Proof.
  intros o v. induction l as [|x l IH]; [discriminate|]. cbn [last_of]. destruct (last_of o l).
  - intros E. right. exact (IH E).
  - destruct (option_eq (fst x) o) as [<-|]; [|discriminate]. intros E. injection E as <-. left. destruct x; reflexivity.
Qed.
Lemma last_of_none : forall o l, last_of o l = None <-> forall v, ~ In (o, v) l.
Proof.
  intros o l. induction l as [|x l IH]; [cbn; tauto|]. cbn [last_of]. destruct (last_of o l) as [w|] eqn:El.
  - split; [discriminate|]. intros N. exfalso. apply (N w). right. apply last_of_in. exact El.
  - destruct (option_eq (fst x) o) as [<-|No].
    + split; [discriminate|]. intros N. exfalso. apply (N (snd x)). left. destruct x; reflexivity.
    + split; [|reflexivity]. intros _ v [E|I]; [subst x; apply No; reflexivity|]. exact (proj1 IH eq_refl v I).
Qed.
Lemma last_of_fun : forall o v l, (forall w, In (o, w) l -> w = v) -> In (o, v) l -> last_of o l = Some v.
Proof.
  intros o v l F I. destruct (last_of o l) as [w|] eqn:E.
  - rewrite (F w); [reflexivity|]. apply last_of_in. exact E.
  - exfalso. exact (proj1 (last_of_none o l) E v I).
Qed.

(** ** The settings of a command line *)

Definition good_end (p : plan) : Prop := snd p = Ok tt.
Lemma comp_ok : forall p q, good_end (comp p q) <-> good_end p /\ good_end q.
Proof. intros [l [[]| |]] [l' r']; unfold good_end, comp; cbn [snd]; intuition congruence. Qed.
Lemma comp_list : forall p q, good_end p -> fst (comp p q) = (fst p ++ fst q)%list.
Proof. intros [l r] [l' r'] E. unfold good_end in E. cbn [snd] in E. subst r. reflexivity. Qed.

Lemma choice_ok : forall t s, good_end (choice t s) -> In (s, fst (choice t s)) t.
Proof.
  intros t s. unfold choice. destruct (find (fun x => String.eqb s (fst x)) t) as [[s' l]|] eqn:E; [|discriminate].
  intros _. apply find_some in E. destruct E as [I E]. cbn [fst snd] in *. apply String.eqb_eq in E. subst s'. exact I.
Qed.

Definition named (n : string) : bool := existsb (String.eqb n) names.
Lemma named_in : forall n, named n = true <-> In n names.
Proof.
  intros n. unfold named. rewrite existsb_exists. split.
  - intros [x [I E]]. apply String.eqb_eq in E. subst x. exact I.
  - intros I. exists n. split; [exact I|apply String.eqb_refl].
Qed.

Ltac by_name n I := cbn [In names] in I; repeat (destruct I as [<-|I]); [..|contradiction].

Definition flagged (n : string) (v : aval) : Prop := n = "output-on" \/ n = "verbose" -> v = AFlag.
Lemma explicit_meaning : forall a n v, In n names -> flagged n v -> good_end (p_explicit a n v) -> fst (p_explicit a n v) = meaning n v.
Proof.
  intros a n v I Fl G.
  assert (Cases : forall t, good_end (as_string (choice t) v) -> exists s, v = AString s /\ In (s, fst (as_string (choice t) v)) t).
  { intros t Gt. destruct v as [|z|x|s]; try discriminate Gt. exists s. split; [reflexivity|]. exact (choice_ok t s Gt). }
  assert (Table : forall t, good_end (as_string (choice t) v) ->
                    (forall s l, In (s, l) t -> meaning n (AString s) = l) -> fst (as_string (choice t) v) = meaning n v).
  { intros t Gt H. destruct (Cases t Gt) as [s [Es Is]]. rewrite Es at 2. symmetry. exact (H _ _ Is). }
  by_name n I; cbn [p_explicit String.eqb Ascii.eqb Bool.eqb] in *;
    try (rewrite Fl by tauto; reflexivity);
    try (destruct v; try discriminate G; reflexivity);
    try (apply Table; [exact G|]; intros s l Is; cbn [t_enum t_collision t_stencil map fst snd In] in Is;
         repeat (destruct Is as [Is|Is]; [injection Is as <- <-; reflexivity|]); contradiction).
  - apply comp_ok in G. destruct G as [G1 G2]. rewrite (comp_list _ _ G1).
    assert (E1 : fst (given a "integrator-id" (fun _ => ([], Throw))) = []).
    { unfold given in *. destruct (a "integrator-id"); reflexivity. }
    rewrite E1. cbn [app]. apply Table; [exact G2|]. intros s l Is. cbn [integrators map fst snd In] in Is.
    repeat (destruct Is as [Is|Is]; [injection Is as <- <-; reflexivity|]); contradiction.
  - apply comp_ok in G. destruct G as [G1 G2]. rewrite (comp_list _ _ G1).
    assert (E1 : fst (given a "integrator" (fun _ => ([], Throw))) = []).
    { unfold given in *. destruct (a "integrator"); reflexivity. }
    rewrite E1. cbn [app]. destruct v as [|z|x|s]; try discriminate G2. cbn [as_int] in *.
    destruct (integrator_number z) as [s|] eqn:N; [|discriminate G2].
    unfold meaning. cbn [String.eqb Ascii.eqb Bool.eqb]. rewrite N.
    apply choice_ok in G2.
    set (t := map (fun x : string * (nat * nat) => (fst x, [(O_TimeIntegrator, VEnum (fst (snd x))); (O_DealIntegrator, VEnum (snd (snd x)))])) integrators) in *.
    assert (H : forall l, In (s, l) t -> l = match value_of (documented "integrator") s with Some l => enums l | None => [] end).
    { intros l Is. cbn [t integrators map fst snd In] in Is.
      repeat (destruct Is as [Is|Is]; [injection Is as <- <-; reflexivity|]); contradiction. }
    exact (H _ G2).
  - destruct v as [|z|x|s]; try discriminate G. cbn [as_string sets fst]. unfold meaning, value_of.
    change (accepted "mrt-relax") with
      [("full", [(O_MRTRelaxationTimes, N_RELAX_FULL)]); ("dellar-only-N", [(O_MRTRelaxationTimes, N_DELLAR_RELAX_ONLY_N)]);
       ("dhumieres-paper", [(O_MRTRelaxationTimes, N_RELAX_DHUMIERES_PAPER)])].
    cbn [find fst]. destruct (String.eqb s "full"); [reflexivity|]. destruct (String.eqb s "dellar-only-N"); [reflexivity|].
    destruct (String.eqb s "dhumieres-paper"); reflexivity.
Qed.

(** Who sets an option. *)
Definition owner (o : option_id) : string :=
  match o with
  | O_SedgOrderOfFiniteElement => "order-fe" | O_CFL => "cfl" | O_CommandLineVerbosity => "verbose" | O_AdvectionScheme => "streaming"
  | O_CollisionScheme => "collision" | O_TimeIntegrator | O_DealIntegrator => "integrator" | O_StencilScaling => "scaling"
  | O_RegularizationScheme => "regularization" | O_EquilibriumScheme => "equilibrium" | O_SupportPoints => "support-points"
  | O_OutputDirectory => "output-dir" | O_OutputSolutionInterval => "output-sol" | O_OutputCheckpointInterval => "output-chk"
  | O_OutputTableInterval => "output-tab" | O_Stencil => "stencil" | O_SimulationEndTime => "tmax" | O_InitializationScheme => "init"
  | O_IterativeInitializationResidual => "init-res" | O_IterativeInitializationNumberOfIterations => "init-niter"
  | O_MRTBasis => "mrt-basis" | O_MRTRelaxationTimes => "mrt-relax"
  | _ => ""
  end.

(** The possible meanings. *)
Definition owned (n : string) (x : setting) : Prop := x = on \/ (owner (fst x) = n /\ fst x <> O_SwitchOutputOff) \/ (n = "integrator-id" /\ owner (fst x) = "integrator").
Definition proper (n : string) (l : list setting) : Prop := Forall (owned n) l /\ NoDup (map fst l).

Lemma proper_nil : forall n, proper n [].
Proof. split; constructor. Qed.
Lemma proper_one : forall n o v, owner o = n -> o <> O_SwitchOutputOff -> proper n [(o, v)].
Proof. intros n o v E N. split; [constructor; [right; left; split; assumption|constructor]|]. repeat constructor. intros []. Qed.
Lemma proper_on : forall n o v, owner o = n -> o <> O_SwitchOutputOff -> proper n [(o, v); on].
Proof.
  intros n o v E N. split; [constructor; [right; left; split; assumption|constructor; [left; reflexivity|constructor]]|].
  cbn [map fst]. constructor; [intros [E'|[]]; apply N; symmetry; exact E'|]. constructor; [intros []|constructor].
Qed.

Lemma proper_table : forall n t s l, (forall x, In x t -> proper n (enums (snd x))) -> value_of t s = Some l -> proper n (enums l).
Proof.
  intros n t s l H V. unfold value_of in V. destruct (find (fun x => String.eqb s (fst x)) t) as [x|] eqn:E; [|discriminate].
  cbn in V. injection V as <-. apply H. apply find_some in E. exact (proj1 E).
Qed.

Lemma unnamed_meaning : forall n v, named n = false -> meaning n v = [].
Proof.
  intros n v N. unfold named, names in N. cbn [existsb] in N. repeat (apply orb_false_iff in N; destruct N as [? N]).
  assert (D : documented n = []) by (unfold documented; repeat match goal with H : String.eqb n _ = false |- _ => rewrite H; clear H end; reflexivity).
  assert (U : undocumented n = []) by (unfold undocumented; match goal with H : String.eqb n "stencil" = false |- _ => rewrite H end; reflexivity).
  unfold meaning, plain, accepted. rewrite D, U.
  destruct v; cbn [app value_of option_map find]; repeat match goal with H : String.eqb n _ = false |- _ => rewrite H; clear H end; reflexivity.
Qed.

Lemma meaning_proper : forall n v, proper n (meaning n v).
Proof.
  intros n v. destruct (named n) eqn:Nm; [|rewrite (unnamed_meaning n v Nm); apply proper_nil].
  apply named_in in Nm.
  assert (Int : forall l, value_of (documented "integrator") l = None \/ exists t d, value_of (documented "integrator") l = Some [(O_TimeIntegrator, t); (O_DealIntegrator, d)]).
  { intros s. unfold value_of. destruct (find (fun x => String.eqb s (fst x)) (documented "integrator")) as [x|] eqn:E; [right|left; reflexivity].
    apply find_some in E. destruct E as [I _]. cbn in I. repeat (destruct I as [<-|I]; [eexists; eexists; reflexivity|]). contradiction. }
  by_name n Nm;
    try (destruct v; try apply proper_nil; first [apply proper_one; [reflexivity|discriminate] | apply proper_on; [reflexivity|discriminate] |
           split; [constructor; [left; reflexivity|constructor]|repeat constructor; intros []]]);
    try (destruct v as [|z|x|s]; try apply proper_nil; unfold meaning;
         match goal with |- context [value_of ?t s] => destruct (value_of t s) as [l|] eqn:V end; [|apply proper_nil];
         match goal with |- proper ?n _ => apply (proper_table n _ s l) in V end; [exact V|]; intros x Ix; cbn in Ix;
         repeat (destruct Ix as [<-|Ix]; [apply proper_one; [reflexivity|discriminate]|]); contradiction).
  - (* integrator *)
    destruct v as [|z|x|s]; try apply proper_nil. unfold meaning. change (accepted "integrator") with (documented "integrator").
    destruct (Int s) as [->|(t & d & ->)]; [apply proper_nil|]. split.
    + apply Forall_cons; [|apply Forall_cons; [|apply Forall_nil]]; right; left; split; first [reflexivity|discriminate].
    + cbn. repeat constructor; cbn; intuition discriminate.
  - (* integrator-id *)
    destruct v as [|z|x|s]; try apply proper_nil. unfold meaning. cbn [String.eqb Ascii.eqb Bool.eqb].
    destruct (integrator_number z) as [s|]; [|apply proper_nil].
    destruct (Int s) as [->|(t & d & ->)]; [apply proper_nil|]. split.
    + apply Forall_cons; [|apply Forall_cons; [|apply Forall_nil]]; right; right; split; reflexivity.
    + cbn. repeat constructor; cbn; intuition discriminate.
  - (* mrt-relax *)
    destruct v as [|z|x|s]; try apply proper_nil. unfold meaning. destruct (value_of (accepted "mrt-relax") s) as [l|] eqn:V.
    + apply (proper_table "mrt-relax" _ s l) in V; [exact V|]; intros x Ix; cbn in Ix.
      repeat (destruct Ix as [<-|Ix]; [apply proper_one; [reflexivity|discriminate]|]). contradiction.
    + apply proper_one; [reflexivity|discriminate].
Qed.
