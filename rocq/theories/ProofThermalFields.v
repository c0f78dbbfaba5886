(** Boundary conditions with a temperature: the effect of all hits on the fields f and g. *)
From Coq Require Import Permutation.
From Verif Require Import Prelude BigSum ModelStencils ModelEquilibria ModelSemiLagrangian ModelWalls SpecWalls ProofWalls ProofWalls2 ModelThermalWalls.
Local Open Scope R_scope.

Section Fields.
  Context {cell : Type} (M : mesh cell) (st : stencil) (scaling : R) (opp : nat -> nat) (dt : R)
    (same : cell -> cell -> bool) (rebalance : hit_tree (cell := cell) -> hit_tree (cell := cell)) (bc : nat -> condition_fg).
  Hypothesis Hreb : keeps_order rebalance.
  Notation fields := (populations * populations)%type.

  (** The hits one after another, each with the point where it is evaluated. *)
  Fixpoint run_hits (t : R) (l : list (point * hit cell)) (fg : fields) : outcome fields :=
    match l with [] => Ok fg | (x, h) :: r => obind (apply_hit_fg M st scaling opp bc x t fg h) (run_hits t r) end.
  Lemma run_app t l l' : forall fg, run_hits t (l ++ l') fg = obind (run_hits t l fg) (run_hits t l').
  Proof.
    induction l as [|[x h] l IH]; intros fg; [reflexivity|]. cbn [app run_hits]. destruct (apply_hit_fg _ _ _ _ _ _ _ _ _); [|reflexivity|reflexivity].
    cbn [obind]. apply IH.
  Qed.
  Lemma hits_run x t hs : forall fg, apply_hits_fg M st scaling opp bc x t hs fg = run_hits t (map (pair x) hs) fg.
  Proof. induction hs as [|h hs IH]; intros fg; [reflexivity|]. cbn [apply_hits_fg map run_hits]. destruct (apply_hit_fg _ _ _ _ _ _ _ _ _); [apply IH|reflexivity|reflexivity]. Qed.
  Lemma points_run t q : forall fg, apply_points_fg M st scaling opp bc t q fg = run_hits t (flat_map (fun xh => map (pair (fst xh)) (snd xh)) q) fg.
  Proof.
    induction q as [|[x hs] q IH]; intros fg; [reflexivity|]. cbn [apply_points_fg flat_map fst snd]. rewrite run_app, hits_run.
    destruct (run_hits t (map (pair x) hs) fg); [apply IH|reflexivity|reflexivity].
  Qed.
  Lemma operate_run t m cells : forall fg fg', operate_fg M st scaling opp bc t cells m fg = Ok fg' ->
    exists l, run_hits t l fg = Ok fg' /\ map snd l = flat_map (fun c => flat_map snd (elements (m c))) cells.
  Proof.
    induction cells as [|c cells IH]; intros fg fg' H; cbn [operate_fg] in H; [exists []; auto|].
    destruct (quadrature M c (elements (m c))) as [q| |] eqn:Q; try discriminate. cbn [obind] in H.
    rewrite points_run in H. set (l1 := flat_map (fun xh => map (pair (fst xh)) (snd xh)) q) in *.
    destruct (run_hits t l1 fg) as [fg1| |] eqn:R1; try discriminate. cbn [obind] in H.
    destruct (IH fg1 fg' H) as (l2 & R2 & E2). exists (l1 ++ l2). split; [rewrite run_app, R1; exact R2|].
    rewrite map_app, E2. cbn [flat_map]. f_equal. unfold l1. apply quadrature_ok in Q. clear - Q.
    induction Q as [|[x hs] [u hs'] l q [_ E] Q IH]; [reflexivity|]. cbn [fst snd] in *. subst hs'. cbn [flat_map fst snd].
    rewrite map_app, IH, map_map. cbn [snd]. rewrite map_id. reflexivity.
  Qed.

  Definition thermal_at (i : nat) (h : hit cell) : Prop := hit_index h = i /\ exists Tw, bc (hit_boundary h) = ThermalBC Tw.

  Lemma hit_keeps x t f g f' g' h a i : apply_hit_fg M st scaling opp bc x t (f, g) h = Ok (f', g') -> ~ thermal_at i h ->
    (addressed a i h = false -> f' a i = f a i) /\ forall b, g' b i = g b i.
  Proof.
    intros H Hn. unfold apply_hit_fg in H. destruct (bc (hit_boundary h)) as [c|u T|Tw] eqn:E.
    - assert (E1 : calculateBoundaryValues M (st_e st) (st_w st) (st_cs2 st) opp c f x (hit_direction h) (hit_index h) (hit_dt h) t = f') by congruence.
      assert (g = g') by congruence. subst g'. split; [|reflexivity]. intros Ha. rewrite <- E1. unfold addressed in Ha. rewrite (Nat.eqb_sym _ a), (Nat.eqb_sym _ i) in Ha.
      destruct c; cbn [calculateBoundaryValues]; unfold set_pop; rewrite Ha; reflexivity.
    - assert (E1 : set_pop f (hit_direction h) (hit_index h) (sl_equilibrium st (u (t - hit_dt h) x) T (hit_direction h)) = f') by congruence.
      assert (g = g') by congruence. subst g'. split; [|reflexivity]. intros Ha. rewrite <- E1. unfold addressed in Ha. rewrite (Nat.eqb_sym _ a), (Nat.eqb_sym _ i) in Ha.
      unfold set_pop. rewrite Ha. reflexivity.
    - destruct (thermal_node st scaling Tw (node_of f (hit_index h)) (node_of g (hit_index h))) as [v| |]; try discriminate. cbn [obind] in H.
      assert (E1 : set_node 45 f (hit_index h) (fst v) = f') by congruence. assert (E2 : set_node 45 g (hit_index h) (snd v) = g') by congruence.
      assert (Hi : Nat.eqb i (hit_index h) = false).
      { apply Nat.eqb_neq. intros ->. apply Hn. split; [reflexivity|]. exists Tw. exact E. }
      subst f' g'. unfold set_node. rewrite Hi. split; [intros _|intros b]; reflexivity.
  Qed.

  Lemma run_g t l : forall f g f' g' i, run_hits t l (f, g) = Ok (f', g') -> (forall h, In h (map snd l) -> ~ thermal_at i h) -> forall b, g' b i = g b i.
  Proof.
    induction l as [|[x h] l IH]; intros f g f' g' i H Hn b; [cbn in H; congruence|]. cbn [run_hits] in H.
    destruct (apply_hit_fg M st scaling opp bc x t (f, g) h) as [[f1 g1]| |] eqn:E; try discriminate. cbn [obind] in H.
    rewrite (IH f1 g1 f' g' i H) by (intros h' Hh; apply Hn; right; exact Hh).
    apply (hit_keeps x t f g f1 g1 h 0 i E). apply Hn. left. reflexivity.
  Qed.

  Lemma run_f t (V : R) a i l : forall f g f' g', run_hits t l (f, g) = Ok (f', g') ->
    (forall h, In h (map snd l) -> ~ thermal_at i h) ->
    (forall h, In h (map snd l) -> addressed a i h = true -> exists u T, bc (hit_boundary h) = EquilibriumBC u T /\ forall x, sl_equilibrium st (u (t - hit_dt h) x) T a = V) ->
    f' a i = if existsb (addressed a i) (map snd l) then V else f a i.
  Proof.
    induction l as [|[x h] l IH]; intros f g f' g' H Hn HV; [cbn in *; congruence|]. cbn [run_hits] in H.
    destruct (apply_hit_fg M st scaling opp bc x t (f, g) h) as [[f1 g1]| |] eqn:E; try discriminate. cbn [obind] in H.
    rewrite (IH f1 g1 f' g' H) by first [intros h' Hh; apply Hn; right; exact Hh | intros h' Hh Ha; apply HV; [right; exact Hh|exact Ha]].
    cbn [map snd existsb]. destruct (existsb (addressed a i) (map snd l)); [rewrite Bool.orb_true_r; reflexivity|]. rewrite Bool.orb_false_r.
    destruct (addressed a i h) eqn:A.
    - destruct (HV h (or_introl eq_refl) A) as (u & T & Eb & Ev). unfold apply_hit_fg in E. rewrite Eb in E.
      assert (E1 : set_pop f (hit_direction h) (hit_index h) (sl_equilibrium st (u (t - hit_dt h) x) T (hit_direction h)) = f1) by congruence.
      rewrite <- E1. unfold addressed in A. apply andb_prop in A. destruct A as [A1 A2]. apply Nat.eqb_eq in A1, A2. subst a i.
      unfold set_pop. rewrite !Nat.eqb_refl. apply Ev.
    - apply (hit_keeps x t f g f1 g1 h a i E); [apply Hn; left; reflexivity|exact A].
  Qed.

  (** applyToG. *)
  Definition equilibrium_hit (h : hit cell) : bool := match bc (hit_boundary h) with EquilibriumBC _ _ => true | _ => false end.
  Lemma fold_hits gamma f a i hs : forall g, fold_left (applyToG_hit st bc gamma f) hs g a i =
    if existsb (fun h => (equilibrium_hit h && addressed a i h)%bool) hs then f a i * 1 * (2 * (1 / (gamma - 1)) - INR (st_D st)) else g a i.
  Proof.
    induction hs as [|h hs IH]; intros g; [reflexivity|]. cbn [fold_left existsb]. rewrite IH.
    destruct (existsb _ hs); [rewrite Bool.orb_true_r; reflexivity|]. rewrite Bool.orb_false_r.
    unfold applyToG_hit, equilibrium_hit. cbv zeta. destruct (bc (hit_boundary h)); [reflexivity| |reflexivity]. cbn [andb].
    unfold set_pop, addressed. rewrite (Nat.eqb_sym _ a), (Nat.eqb_sym _ i).
    destruct (Nat.eqb_spec a (hit_direction h)) as [->|]; [|reflexivity]. destruct (Nat.eqb_spec i (hit_index h)) as [->|]; reflexivity.
  Qed.
  Lemma applyToG_value gamma cells m f g a i : applyToG st bc gamma cells m f g a i =
    if existsb (fun h => (equilibrium_hit h && addressed a i h)%bool) (flat_map (fun c => flat_map snd (elements (m c))) cells)
    then f a i * 1 * (2 * (1 / (gamma - 1)) - INR (st_D st)) else g a i.
  Proof.
    unfold applyToG. revert g. induction cells as [|c cells IH]; intros g; [reflexivity|]. cbn [fold_left flat_map]. rewrite IH, existsb_app.
    destruct (existsb _ (flat_map (fun c0 => flat_map snd (elements (m c0))) cells)); [rewrite Bool.orb_true_r; reflexivity|]. rewrite Bool.orb_false_r.
    clear IH. generalize (elements (m c)). clear c. intros l. revert g. induction l as [|[x hs] l IH]; intros g; [reflexivity|].
    cbn [fold_left flat_map snd]. rewrite IH, existsb_app, fold_hits.
    destruct (existsb _ (flat_map snd l)); [rewrite Bool.orb_true_r; reflexivity|]. rewrite Bool.orb_false_r. reflexivity.
  Qed.

  Lemma existsb_perm {A} (p : A -> bool) l l' : Permutation l l' -> existsb p l = existsb p l'.
  Proof.
    induction 1 as [|x l l' _ IH|x y l|]; cbn; [reflexivity|rewrite IH; reflexivity| |congruence]. destruct (p x), (p y); reflexivity.
  Qed.

  Lemma stream_inv gamma z m cells f g t f' g' t' : stream_fg M st scaling opp dt bc gamma z m cells (f, g, t) = Ok (f', g', t') ->
    t' = t + dt /\ exists l g1, run_hits t l (multiply z f, g) = Ok (f', g1) /\
      map snd l = flat_map (fun c => flat_map snd (elements (m c))) cells /\ g' = applyToG st bc gamma cells m f' (multiply z g1).
  Proof.
    intros H. unfold stream_fg in H. destruct (operate_fg M st scaling opp bc t cells m (multiply z f, g)) as [[f1 g1]| |] eqn:E; try discriminate.
    cbn [obind fst snd] in H. assert (f1 = f') by congruence. assert (applyToG st bc gamma cells m f1 (multiply z g1) = g') by congruence.
    assert (t + dt = t') by congruence. subst f1. split; [congruence|]. destruct (operate_run t m cells _ _ E) as (l & R1 & E1).
    exists l, g1. split; [exact R1|]. split; [exact E1|]. congruence.
  Qed.

  Lemma equilibrium_stream gamma z cells hs f g t f' g' t' a i (U : point) T : decides same -> NoDup cells ->
    (forall h, In h hs -> In (hit_cell h) cells) ->
    stream_fg M st scaling opp dt bc gamma z (hit_list M same rebalance hs) cells (f, g, t) = Ok (f', g', t') ->
    hits_for a i hs <> [] ->
    (forall h, In h (hits_for a i hs) -> exists u, bc (hit_boundary h) = EquilibriumBC u T /\ forall x, u (t - hit_dt h) x = U) ->
    (forall h Tw, In h hs -> hit_index h = i -> bc (hit_boundary h) <> ThermalBC Tw) ->
    f' a i = sl_equilibrium st U T a /\ g' a i = f' a i * (2 / (gamma - 1) - INR (st_D st)) /\ t' = t + dt.
  Proof.
    intros Hs Hn Hc H Hne Heq Hth. destruct (stream_inv _ _ _ _ _ _ _ _ _ _ H) as (Et & l & g1 & R1 & E1 & Eg).
    assert (P := hit_list_all M same rebalance Hreb hs cells Hs Hn Hc). rewrite <- E1 in P.
    assert (X : existsb (addressed a i) (map snd l) = true).
    { rewrite (existsb_perm _ _ _ P). destruct (hits_for a i hs) as [|h r] eqn:Eh; [congruence|].
      assert (Hin : In h (hits_for a i hs)) by (rewrite Eh; left; reflexivity). apply filter_In in Hin.
      apply existsb_exists. exists h. exact Hin. }
    split; [|split; [|exact Et]].
    - rewrite (run_f t (sl_equilibrium st U T a) a i l _ _ _ _ R1); [rewrite X; reflexivity| |].
      + intros h Hh [Hi [Tw Hb]]. apply (Hth h Tw); [apply (Permutation_in _ P Hh)|exact Hi|exact Hb].
      + intros h Hh Ha. destruct (Heq h) as (u & Hb & Hu).
        { apply filter_In. split; [apply (Permutation_in _ P Hh)|exact Ha]. }
        exists u, T. split; [exact Hb|]. intros x. rewrite Hu. reflexivity.
    - rewrite Eg, applyToG_value, <- E1, (existsb_perm _ _ _ P).
      replace (existsb _ hs) with true; [unfold Rdiv; ring|]. symmetry. apply existsb_exists. rewrite (existsb_perm _ _ _ P) in X.
      apply existsb_exists in X. destruct X as (h & Hin & Ha). exists h. split; [exact Hin|]. rewrite Ha, Bool.andb_true_r.
      unfold equilibrium_hit. destruct (Heq h) as (u & -> & _); [apply filter_In; auto|reflexivity].
  Qed.

  (** Where no thermal wall acts upstream, its temperature does not enter g. *)
  Lemma thermal_late gamma z cells hs f g t f' g' t' a i : decides same -> NoDup cells -> (forall h, In h hs -> In (hit_cell h) cells) ->
    stream_fg M st scaling opp dt bc gamma z (hit_list M same rebalance hs) cells (f, g, t) = Ok (f', g', t') -> (1 <= a)%nat ->
    (forall h u T, In h (hits_for a i hs) -> bc (hit_boundary h) <> EquilibriumBC u T) ->
    (forall b j v h Tw, In ((a - 1)%nat, b, i, j, v) z -> In h hs -> hit_index h = j -> bc (hit_boundary h) <> ThermalBC Tw) ->
    g' a i = multiply z g a i.
  Proof.
    intros Hs Hn Hc H Ha Hneq Hth. destruct (stream_inv _ _ _ _ _ _ _ _ _ _ H) as (Et & l & g1 & R1 & E1 & Eg).
    assert (P := hit_list_all M same rebalance Hreb hs cells Hs Hn Hc). rewrite <- E1 in P.
    rewrite Eg, applyToG_value, <- E1, (existsb_perm _ _ _ P).
    replace (existsb _ hs) with false.
    2:{ symmetry. apply Bool.not_true_is_false. intros X. apply existsb_exists in X. destruct X as (h & Hin & X). apply andb_prop in X. destruct X as [X1 X2].
        unfold equilibrium_hit in X1. destruct (bc (hit_boundary h)) as [|u T|] eqn:Eb; try discriminate.
        apply (Hneq h u T); [apply filter_In; auto|exact Eb]. }
    destruct a as [|a]; [lia|]. cbn [multiply]. replace (S a - 1)%nat with a in Hth by lia. unfold apply_row.
    clear - Hth R1 P.
    assert (G : forall j, (forall h Tw, In h hs -> hit_index h = j -> bc (hit_boundary h) <> ThermalBC Tw) -> forall b, g1 b j = g b j).
    { intros j Hj. apply (run_g t l _ _ _ _ j R1). intros h Hh [Hi [Tw Hb]]. apply (Hj h Tw); [apply (Permutation_in _ P Hh)|exact Hi|exact Hb]. }
    clear R1 P.     induction z as [|[[[[a' b] i'] j] v] z IH]; [reflexivity|]. cbn [fold_right]. f_equal.
    - unfold entry_term. destruct (Nat.eqb_spec a a') as [<-|]; [|reflexivity]. destruct (Nat.eqb_spec i i') as [<-|]; [|reflexivity]. cbn [andb].
      rewrite G; [reflexivity|]. intros h Tw. apply (Hth b j v h Tw). left. reflexivity.
    - apply IH. intros b' j' v' h Tw Hin. apply (Hth b' j' v' h Tw). right. exact Hin.
  Qed.
End Fields.
