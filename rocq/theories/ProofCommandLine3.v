(** The command line reaches the configuration. *)
From Coq Require Import String.
From Verif Require Import Prelude ModelText SpecText ProofText ConfigTypes ConfigData EnumData ModelConfig SpecConfig ProofConfig ProofConfig2
  ProofConfig3 ModelCommandLine SpecCommandLine ProofCommandLine ProofCommandLine2.
Open Scope R_scope.
Local Open Scope string_scope.

Section CommandLine.
  Variable a : arguments.
  Hypothesis Hp : parsed a.

  Lemma type_at : forall d v, In d (ps_defs new_parser) -> a (df_name d) = Some v -> type_of v = df_type d.
  Proof. intros d v I E. exact (proj1 (Hp d v I E)). Qed.

  Lemma flags : forall n v, a n = Some v -> flagged n v.
  Proof.
    intros n v E [->| ->].
    - assert (T := type_at (flag "output-on") v ltac:(cbn; tauto) E). destruct v; try discriminate T. reflexivity.
    - assert (T := type_at (flag "verbose") v ltac:(cbn; tauto) E). destruct v; try discriminate T. reflexivity.
  Qed.

  (** *** The settings that are asked for *)

  Definition explicit : list setting := flat_map (fun n => match a n with Some v => meaning n v | None => [] end) names.
  Lemma asks_explicit : forall o v, asks a o v <-> In (o, v) explicit.
  Proof.
    intros o v. unfold asks, explicit. rewrite in_flat_map. split.
    - intros (n & w & E & I). exists n. rewrite E. split; [|exact I]. apply named_in.
      destruct (named n) eqn:N; [reflexivity|]. rewrite (unnamed_meaning n w N) in I. destruct I.
    - intros (n & _ & I). destruct (a n) as [w|] eqn:E; [|destruct I]. exists n, w. split; [exact E|exact I].
  Qed.

  Definition no_double : Prop := ~ (a "integrator" <> None /\ a "integrator-id" <> None).

  Lemma nodup_fst : forall (l : list setting) o v w, NoDup (map fst l) -> In (o, v) l -> In (o, w) l -> v = w.
  Proof.
    induction l as [|x l IH]; intros o v w N I J; [destruct I|]. cbn [map] in N. inversion N as [|? ? Nx Nl]; subst.
    destruct I as [->|I], J as [E|J].
    - injection E as ->. reflexivity.
    - exfalso. apply Nx. apply (in_map fst) in J. exact J.
    - subst x. exfalso. apply Nx. apply (in_map fst) in I. exact I.
    - exact (IH o v w Nl I J).
  Qed.

  Lemma asks_fun : no_double -> forall o v w, asks a o v -> asks a o w -> v = w.
  Proof.
    intros ND o v w (n & x & E & I) (m & y & F & J).
    assert (Pn := meaning_proper n x). assert (Pm := meaning_proper m y). destruct Pn as [On Dn], Pm as [Om Dm].
    rewrite Forall_forall in On, Om. assert (Ov := On _ I). assert (Ow := Om _ J). unfold owned in Ov, Ow. cbn [fst] in Ov, Ow.
    assert (Same : n = m -> v = w).
    { intros <-. rewrite E in F. injection F as <-. exact (nodup_fst _ o v w Dn I J). }
    destruct Ov as [Ev|[[Ov Nv]|[Ev Ov]]].
    - injection Ev as -> ->. destruct Ow as [Ew|[[_ Nw]|[_ Ow]]]; [injection Ew as ->; reflexivity|congruence|discriminate Ow].
    - destruct Ow as [Ew|[[Ow Nw]|[Ew Ow]]]; [injection Ew as -> ->; congruence|apply Same; congruence|].
      exfalso. apply ND. rewrite Ov in Ow. subst n m. split; congruence.
    - destruct Ow as [Ew|[[Ow Nw]|[Ew Ow]]]; [injection Ew as -> ->; discriminate Ov| |apply Same; congruence].
      exfalso. apply ND. rewrite Ov in Ow. subst n m. split; congruence.
  Qed.

  (** *** The shape of the plan *)

  Definition preset_list : list setting := (fst (p_standard_lbm a) ++ fst (p_standard_lbm_with a))%list.

  Lemma plan_ok : good_end (the_plan a) -> Forall good_end (p_blocks a) /\ fst (the_plan a) = (preset_list ++ explicit)%list.
  Proof.
    intros G.
    assert (K : forall ps, good_end (fold_right comp ([], Ok tt) ps) -> Forall good_end ps /\ fst (fold_right comp ([], Ok tt) ps) = flat_map fst ps).
    { induction ps as [|p ps IH]; [intros _; split; [constructor|reflexivity]|]. cbn [fold_right flat_map]. intros H. apply comp_ok in H.
      destruct H as [Hpp Hr]. destruct (IH Hr) as [F E]. split; [constructor; assumption|]. rewrite (comp_list _ _ Hpp), E. reflexivity. }
    destruct (K _ G) as [F E]. split; [exact F|]. unfold the_plan. rewrite E. unfold p_blocks, preset_list. cbn [flat_map]. rewrite app_assoc. f_equal.
    unfold p_blocks in F. inversion F as [|? ? _ F1]; subst. inversion F1 as [|? ? _ F2]; subst. clear - F2 Hp.
    assert (K2 : forall l, incl l names -> Forall good_end (map (fun n => given a n (p_explicit a n)) l) ->
              flat_map fst (map (fun n => given a n (p_explicit a n)) l) = flat_map (fun n => match a n with Some v => meaning n v | None => [] end) l).
    { induction l as [|n l IH]; intros I F; [reflexivity|].
      cbn [map flat_map] in *. inversion F as [|? ? G F']; subst. f_equal.
      - unfold given in *. destruct (a n) as [v|] eqn:E; [|reflexivity]. apply explicit_meaning; [|exact (flags n v E)|exact G].
        apply I. left. reflexivity.
      - apply IH; [intros x Ix; apply I; right; exact Ix|exact F']. }
    exact (K2 names (incl_refl _) F2).
  Qed.

  Lemma given_throw : forall n, good_end (given a n (fun _ => ([], Throw))) <-> a n = None.
  Proof. intros n. unfold given, good_end. destruct (a n); cbn; split; congruence. Qed.


  Lemma order_check : good_end (given a "order-fe" (as_int (fun z => check (Z.eqb z 2)))) <-> ~ (exists z, a "order-fe" = Some (AInt z) /\ z <> 2%Z).
  Proof.
    unfold given. destruct (a "order-fe") as [v|] eqn:E.
    - assert (T := type_at (arg Int "order-fe") v ltac:(cbn; tauto) E). destruct v as [|z|x|s]; try discriminate T. cbn [as_int].
      unfold check. destruct (Z.eqb_spec z 2) as [->|N]; unfold good_end; cbn [snd]; split; try congruence.
      + intros _ (y & Ey & Ny). injection Ey as <-. congruence.
      + intros H. exfalso. apply H. exists z. split; [reflexivity|exact N].
    - unfold good_end. cbn. split; [|reflexivity]. intros _ (z & E' & _). discriminate.
  Qed.
  Lemma streaming_check : good_end (given a "streaming" (as_string (fun s => check (String.eqb s "sl")))) <-> ~ (exists s, a "streaming" = Some (AString s) /\ s <> "sl").
  Proof.
    unfold given. destruct (a "streaming") as [v|] eqn:E.
    - assert (T := type_at (arg Str "streaming") v ltac:(cbn; tauto) E). destruct v as [|z|x|s]; try discriminate T. cbn [as_string].
      unfold check. destruct (String.eqb_spec s "sl") as [->|N]; unfold good_end; cbn [snd]; split; try congruence.
      + intros _ (y & Ey & Ny). injection Ey as <-. congruence.
      + intros H. exfalso. apply H. exists s. split; [reflexivity|exact N].
    - unfold good_end. cbn. split; [|reflexivity]. intros _ (z & E' & _). discriminate.
  Qed.

  Definition own_conflict : Prop :=
    a "cfl" <> None \/ (exists z, a "order-fe" = Some (AInt z) /\ z <> 2%Z) \/ (exists s, a "streaming" = Some (AString s) /\ s <> "sl").

  Lemma conflicts_ok : good_end (p_conflicts a) <-> ~ own_conflict.
  Proof.
    unfold p_conflicts, own_conflict. rewrite !comp_ok, given_throw, order_check, streaming_check.
    destruct (a "cfl") as [v|].
    - split; [intros [E _]; discriminate|]. intros H. exfalso. apply H. left. discriminate.
    - split; [intros [_ H] [E|H']; [congruence|tauto]|tauto].
  Qed.

  (** *** When the plan ends well *)

  Lemma lbm_ok : good_end (p_standard_lbm a) <-> (a "standard-lbm" <> None -> ~ own_conflict).
  Proof.
    unfold p_standard_lbm, given. destruct (a "standard-lbm") as [v|].
    - rewrite comp_ok, conflicts_ok. unfold good_end, sets. cbn [snd]. split; [tauto|]. intros H. split; [|reflexivity]. apply H. discriminate.
    - unfold good_end. cbn. split; [congruence|reflexivity].
  Qed.
  Lemma lbm_with_ok : good_end (p_standard_lbm_with a) <->
    (a "standard-lbm-with" <> None -> ~ own_conflict /\ a "standard-lbm" = None /\ forall n, a "standard-lbm-with" = Some (AInt n) -> (0 < n)%Z).
  Proof.
    unfold p_standard_lbm_with. unfold given at 1. destruct (a "standard-lbm-with") as [v|] eqn:E.
    - rewrite !comp_ok, conflicts_ok, given_throw.
      assert (T := type_at (arg Int "standard-lbm-with") v ltac:(cbn; tauto) E). destruct v as [|z|x|s]; try discriminate T. cbn [as_int].
      rewrite comp_ok. unfold check. destruct (Z.ltb_spec 0 z) as [L|L]; unfold good_end, sets; cbn [snd].
      + split; [|intros H; specialize (H ltac:(discriminate)); tauto]. intros (H1 & H2 & _) _. split; [exact H1|]. split; [exact H2|].
        intros n En. injection En as <-. exact L.
      + split; [intros (_ & _ & H & _); discriminate|]. intros H. specialize (H ltac:(discriminate)).
        destruct H as (_ & _ & H). specialize (H z eq_refl). lia.
    - unfold good_end. cbn. split; [congruence|reflexivity].
  Qed.

  Definition enumerated_names : list string :=
    ["streaming"; "collision"; "integrator"; "equilibrium"; "regularization"; "support-points"; "stencil"; "init"; "mrt-basis"; "mrt-relax"].
  Lemma enumerated_in : forall n, enumerated n -> In n enumerated_names.
  Proof.
    intros n H. unfold enumerated, documented in H.
    revert H. repeat match goal with |- context [String.eqb n ?s] => destruct (String.eqb_spec n s) as [->|]; [intros _; cbn; tauto|] end. congruence.
  Qed.

  Lemma explicit_known : forall n s, In n enumerated_names -> n <> "mrt-relax" -> good_end (p_explicit a n (AString s)) -> value_of (accepted n) s <> None.
  Proof.
    intros n s I N G.
    assert (T : forall t, good_end (choice t s) -> (forall s l, In (s, l) t -> value_of (accepted n) s <> None) -> value_of (accepted n) s <> None).
    { intros t Gt H. exact (H _ _ (choice_ok t s Gt)). }
    cbn [In enumerated_names] in I. repeat (destruct I as [<-|I]); [..|contradiction]; cbn [p_explicit String.eqb Ascii.eqb Bool.eqb as_string] in G;
    try (refine (T _ G _); intros s0 l Is; cbn [t_enum t_collision t_stencil map fst snd In] in Is;
         repeat (destruct Is as [Is|Is]; [injection Is as <- <-; discriminate|]); contradiction).
    - apply comp_ok in G. destruct G as [_ G]. refine (T _ G _). intros s0 l Is. cbn [integrators map fst snd In] in Is.
      repeat (destruct Is as [Is|Is]; [injection Is as <- <-; discriminate|]); contradiction.
    - congruence.
  Qed.

  Lemma value_of_in : forall t s, value_of t s <> None -> exists l, In (s, l) t.
  Proof.
    intros t s H. unfold value_of in H. destruct (find (fun x => String.eqb s (fst x)) t) as [[s' l]|] eqn:E; [|contradiction H; reflexivity].
    apply find_some in E. destruct E as [I E]. cbn [fst] in E. apply String.eqb_eq in E. subst s'. exists l. exact I.
  Qed.

  Lemma known_explicit : forall n v, In n names -> a n = Some v -> no_double -> known_values a -> known_number a -> good_end (p_explicit a n v).
  Proof.
    intros n v I E ND KV KN.
    assert (D : exists d, In d (ps_defs new_parser) /\ df_name d = n).
    { by_name n I; match goal with |- exists d, _ /\ _ = ?n => first [exists (flag n); split; [cbn; tauto|reflexivity]
        | exists (arg Int n); split; [cbn; tauto|reflexivity] | exists (arg Double n); split; [cbn; tauto|reflexivity] | exists (arg Str n); split; [cbn; tauto|reflexivity]] end. }
    destruct D as (d & Id & Ed). rewrite <- Ed in E. assert (T := type_at d v Id E). rewrite Ed in E.
    assert (Tn : df_type d = match find (fun d => String.eqb n (df_name d)) (ps_defs new_parser) with Some d => df_type d | None => Flag end).
    { clear - Id Ed. subst n. cbn [ps_defs new_parser In] in Id. repeat (destruct Id as [<-|Id]; [reflexivity|]). contradiction. }
    rewrite Tn in T. clear Tn Ed Id d.
    assert (K : forall s, v = AString s -> documented n <> [] -> n <> "mrt-relax" -> exists l, In (s, l) (accepted n)).
    { intros s -> De Nm. exact (value_of_in _ _ (KV n s E De Nm)). }
    by_name n I; cbn [p_explicit String.eqb Ascii.eqb Bool.eqb]; cbn in T; destruct v as [|z|x|s]; try discriminate T; try reflexivity;
      try (destruct (K s eq_refl ltac:(discriminate) ltac:(discriminate)) as [l Is]; cbn in Is;
           repeat (destruct Is as [Is|Is]; [injection Is as <- _; reflexivity|]); contradiction).
    - apply comp_ok. split; [apply given_throw; destruct (a "integrator-id") as [y|] eqn:Ey; [|reflexivity]; exfalso; apply ND; rewrite E, Ey; split; discriminate|].
      destruct (K s eq_refl ltac:(discriminate) ltac:(discriminate)) as [l Is]; cbn in Is.
      repeat (destruct Is as [Is|Is]; [injection Is as <- _; reflexivity|]); contradiction.
    - apply comp_ok. split; [apply given_throw; destruct (a "integrator") as [y|] eqn:Ey; [|reflexivity]; exfalso; apply ND; rewrite E, Ey; split; discriminate|].
      cbn [as_int]. specialize (KN z E). clear - KN. destruct z as [|p|p]; try (contradiction KN; reflexivity).
      do 4 (destruct p as [p|p|]; try reflexivity; try (contradiction KN; reflexivity)).
  Qed.

  Lemma blocks_good : good_end (the_plan a) <-> Forall good_end (p_blocks a).
  Proof.
    unfold the_plan. induction (p_blocks a) as [|p ps IH]; [split; [constructor|reflexivity]|]. cbn [fold_right]. rewrite comp_ok, IH.
    split; [intros [H1 H2]; constructor; assumption|]. intros H. inversion H; auto.
  Qed.

  Lemma explicit_block : forall n v, Forall good_end (p_blocks a) -> In n names -> a n = Some v -> good_end (p_explicit a n v).
  Proof.
    intros n v F I E. rewrite Forall_forall in F. specialize (F (given a n (p_explicit a n))).
    unfold given at 2 in F. rewrite E in F. apply F. right. right. apply (in_map (fun n => given a n (p_explicit a n))). exact I.
  Qed.

  Definition positive : Prop := forall n, a "standard-lbm-with" = Some (AInt n) -> (0 < n)%Z.

  Lemma good_iff : good_end (the_plan a) <-> ~ conflicting a /\ known_values a /\ known_number a /\ positive.
  Proof.
    rewrite blocks_good. split.
    - intros F. assert (X := fun n v => explicit_block n v F).
      inversion F as [|? ? F1 F']; subst. inversion F' as [|? ? F2 _]; subst. rewrite lbm_ok in F1. rewrite lbm_with_ok in F2.
      assert (Xi := fun v => X "integrator" v ltac:(cbn; tauto)). assert (Xd := fun v => X "integrator-id" v ltac:(cbn; tauto)).
      cbn [p_explicit String.eqb Ascii.eqb Bool.eqb] in Xi, Xd. split; [|split; [|split]].
      + intros [[[H|H] C]|[[H H']|[H H']]].
        * exact (F1 H C).
        * exact (proj1 (F2 H) C).
        * destruct (F2 H') as (_ & E & _). congruence.
        * destruct (a "integrator") as [v|] eqn:E; [|congruence]. specialize (Xi v eq_refl). apply comp_ok in Xi. destruct Xi as [Xi _].
          apply given_throw in Xi. congruence.
      + intros n s E En Nm. apply (explicit_known n s); [exact (enumerated_in n En)|exact Nm|]. apply X; [|exact E].
        apply enumerated_in in En. cbn [enumerated_names In] in En. repeat (destruct En as [<-|En]; [cbn; tauto|]). contradiction.
      + intros k E. specialize (Xd _ E). apply comp_ok in Xd. destruct Xd as [_ Xd]. cbn [as_int] in Xd.
        destruct (integrator_number k); [discriminate|discriminate Xd].
      + intros n E. exact (proj2 (proj2 (F2 ltac:(congruence))) n E).
    - intros (NC & KV & KN & P). unfold p_blocks. constructor; [|constructor].
      + apply lbm_ok. intros H C. apply NC. left. split; [left; exact H|exact C].
      + apply lbm_with_ok. intros H. split; [intros C; apply NC; left; split; [right; exact H|exact C]|]. split; [|exact P].
        destruct (a "standard-lbm") eqn:E; [|reflexivity]. exfalso. apply NC. right. left. split; [congruence|exact H].
      + apply Forall_forall. intros p Ip. apply in_map_iff in Ip. destruct Ip as (n & <- & I). unfold given.
        destruct (a n) as [v|] eqn:E; [|reflexivity]. apply known_explicit; try assumption. intros H. apply NC. right. right. exact H.
  Qed.

  (** *** Undefined behaviour *)

  Definition calm (p : plan) : Prop := snd p <> UB.
  Lemma calm_comp : forall p q, calm p -> calm q -> calm (comp p q).
  Proof. intros [l [u| |]] [l' r'] H H'; exact H || exact H'. Qed.
  Lemma calm_given : forall n f, (forall v, calm (f v)) -> calm (given a n f).
  Proof. intros n f H. unfold given. destruct (a n); [apply H|discriminate]. Qed.
  Lemma calm_int : forall f, (forall z, calm (f z)) -> forall v, calm (as_int f v).
  Proof. intros f H [|z|x|s]; first [apply H|discriminate]. Qed.
  Lemma calm_double : forall f, (forall z, calm (f z)) -> forall v, calm (as_double f v).
  Proof. intros f H [|z|x|s]; first [apply H|discriminate]. Qed.
  Lemma calm_string : forall f, (forall z, calm (f z)) -> forall v, calm (as_string f v).
  Proof. intros f H [|z|x|s]; first [apply H|discriminate]. Qed.
  Lemma calm_check : forall b, calm (check b).
  Proof. intros []; discriminate. Qed.
  Lemma calm_choice : forall t s, calm (choice t s).
  Proof. intros t s. unfold choice. destruct (find _ t); discriminate. Qed.

  Ltac calm := repeat first [discriminate | apply calm_check | apply calm_choice | apply calm_comp | apply calm_given; intros ? | apply calm_int; intros ?
                            | apply calm_double; intros ? | apply calm_string; intros ?].

  Lemma calm_conflicts : calm (p_conflicts a).
  Proof. unfold p_conflicts. calm. Qed.
  Lemma calm_lbm : calm (p_standard_lbm a).
  Proof. unfold p_standard_lbm. apply calm_given. intros v. apply calm_comp; [exact calm_conflicts|discriminate]. Qed.
  Lemma calm_lbm_with : calm (p_standard_lbm_with a).
  Proof. unfold p_standard_lbm_with. apply calm_given. intros v. apply calm_comp; [exact calm_conflicts|]. calm. Qed.
  Lemma calm_explicit : forall n v, n <> "integrator-id" -> calm (p_explicit a n v).
  Proof.
    intros n v N. unfold p_explicit. destruct (String.eqb_spec n "integrator-id") as [E|_]; [contradiction|].
    repeat match goal with |- context [String.eqb n ?s] => destruct (String.eqb n s); [calm|] end. discriminate.
  Qed.

  Lemma first_bad : forall ps, snd (fold_right comp ([], Ok tt) ps) = UB ->
    exists ps1 p ps2, ps = (ps1 ++ p :: ps2)%list /\ Forall good_end ps1 /\ snd p = UB.
  Proof.
    induction ps as [|p ps IH]; [discriminate|]. cbn [fold_right]. intros H. destruct p as [l [[]| |]].
    - destruct (IH H) as (ps1 & q & ps2 & -> & F & E). exists ((l, Ok tt) :: ps1), q, ps2. repeat split; [constructor; [reflexivity|exact F]|exact E].
    - discriminate H.
    - exists [], (l, UB), ps. repeat split. constructor.
  Qed.

  Lemma plan_ub : snd (the_plan a) = UB -> ~ conflicting a /\ ~ known_number a.
  Proof.
    intros H. unfold the_plan in H. destruct (first_bad _ H) as (ps1 & p & ps2 & E & F & U). clear H.
    assert (L : forall n, n <> "integrator-id" -> given a n (p_explicit a n) <> p).
    { intros n N Ep. apply (calm_given n (p_explicit a n) (fun v => calm_explicit n v N)). rewrite Ep. exact U. }
    unfold p_blocks, names in E. cbn [map] in E.
    do 9 (let q := fresh "q" in destruct ps1 as [|q ps1]; [exfalso; injection E as E _; first [exact (calm_lbm ltac:(rewrite E; exact U))
           |exact (calm_lbm_with ltac:(rewrite E; exact U))|revert E; apply L; discriminate]|];
         let Eq := fresh "Eq" in injection E as Eq E).
    assert (Ep : exists r, p = given a "integrator-id" (p_explicit a "integrator-id") /\ r = ps1).
    { destruct ps1 as [|q' ps1].
      - injection E as E _. exists []. split; [symmetry; exact E|reflexivity].
      - exfalso. assert (Ip : In p (ps1 ++ p :: ps2)) by (apply in_or_app; right; left; reflexivity).
        injection E as _ E. rewrite <- E in Ip.
        cbn [In] in Ip. repeat (destruct Ip as [Ip|Ip]; [revert Ip; apply L; discriminate|]). contradiction. }
    destruct Ep as (_ & Ep & _).
    inversion F as [|? ? G Fr]. inversion Fr as [|? ? G0 _]. subst.
    assert (I : exists k, a "integrator-id" = Some (AInt k) /\ a "integrator" = None /\ integrator_number k = None).
    { clear - U. unfold given in U at 1. destruct (a "integrator-id") as [v|]; [|discriminate U].
      cbn [p_explicit String.eqb Ascii.eqb Bool.eqb] in U. unfold given in U. destruct (a "integrator"); [discriminate U|].
      destruct v as [|z|x|s]; try discriminate U. cbn [as_int] in U. exists z. repeat split.
      destruct (integrator_number z) as [s|]; [|reflexivity]. exfalso. cbn [comp snd fst] in U. exact (calm_choice _ _ U). }
    destruct I as (k & Ek & Ei & En). split.
    - rewrite lbm_ok in G. rewrite lbm_with_ok in G0. intros [[[J|J] C]|[[J J']|[J J']]].
      + exact (G J C).
      + exact (proj1 (G0 J) C).
      + destruct (G0 J') as (_ & E' & _). congruence.
      + congruence.
    - intros K. exact (K k Ek En).
  Qed.
End CommandLine.
