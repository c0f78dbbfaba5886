(** Values of enumerated options, integrators by number, standard LBM, and the parser object. *)
From Coq Require Import String QArith Qreals FunctionalExtensionality.
From Verif Require Import Prelude StencilData ModelStencils ModelText SpecText ProofText ConfigTypes ConfigData EnumData ModelConfig SpecConfig
  ProofConfig ProofConfig2 ProofConfig3 ModelCommandLine SpecCommandLine ProofCommandLine ProofCommandLine2 ProofCommandLine3 ProofCommandLine4.
Open Scope R_scope.
Local Open Scope string_scope.

(** ** Enumerated options *)

Lemma find_app : forall (A : Type) (f : A -> bool) l l' x, find f l = Some x -> find f (l ++ l')%list = Some x.
Proof. intros A f. induction l as [|y l IH]; intros l' x E; [discriminate|]. cbn [app find] in *. destruct (f y); [exact E|exact (IH l' x E)]. Qed.

Lemma documented_meaning : forall name s l, value_of (documented name) s = Some l -> meaning name (AString s) = enums l.
Proof.
  intros name s l V. unfold meaning.
  assert (E : value_of (accepted name) s = Some l).
  { unfold value_of, accepted in *. destruct (find (fun x => String.eqb s (fst x)) (documented name)) as [x|] eqn:F; [|discriminate].
    rewrite (find_app _ _ _ _ x F). exact V. }
  rewrite E. reflexivity.
Qed.

Lemma value_enumerated : forall name s l, value_of (documented name) s = Some l -> enumerated name.
Proof. intros name s l V E. rewrite E in V. discriminate. Qed.

Lemma documented_applied : forall a name s l h h', parsed a -> reached h -> a name = Some (AString s) -> value_of (documented name) s = Some l ->
  applyToSolverConfiguration a h = (Ok tt, h') -> forall o n, In (o, n) l -> seen (Value o) h' = Ok (VEnum n).
Proof.
  intros a name s l h h' Hp R E V A o n I.
  destruct (proj1 (applied a h Hp R h' A) o (VEnum n)) as (w & S & W).
  - left. exists name, (AString s). split; [exact E|]. rewrite (documented_meaning name s l V). apply (in_map (fun x => (fst x, VEnum (snd x))) l (o, n)). exact I.
  - cbn in W. subst w. exact S.
Qed.

Lemma only_parsed : forall name s, enumerated name -> parsed (only name (AString s)).
Proof.
  intros name s E d v I. unfold only. destruct (String.eqb_spec (df_name d) name) as [Ed|]; [|discriminate]. intros H. injection H as <-.
  split; [|discriminate]. apply enumerated_in in E. subst name.
  cbn [ps_defs new_parser In] in I. repeat (destruct I as [<-|I]; [first [reflexivity|exfalso; cbn in E; repeat (destruct E as [E|E]; [discriminate E|]); exact E]|]).
  contradiction.
Qed.

Lemma only_asks : forall name v o w, asks (only name v) o w <-> In (o, w) (meaning name v).
Proof.
  intros name v o w. unfold asks, only. split.
  - intros (n & x & E & I). destruct (String.eqb_spec n name) as [->|]; [|discriminate]. injection E as <-. exact I.
  - intros I. exists name, v. rewrite String.eqb_refl. split; [reflexivity|exact I].
Qed.

Lemma only_no_conflict : forall name v, In name names -> ~ conflicting (only name v).
Proof.
  intros name v I. unfold conflicting, only. by_name name I; cbn [String.eqb Ascii.eqb Bool.eqb]; intuition congruence.
Qed.

Lemma enumerated_name : forall name, enumerated name -> In name names.
Proof. intros name E. apply enumerated_in in E. cbn [enumerated_names In] in E. repeat (destruct E as [<-|E]; [cbn; tauto|]). contradiction. Qed.

Lemma only_no_preset : forall name v, In name names -> forall o w, ~ preset (only name v) o w.
Proof.
  intros name v I o w. unfold preset, only. by_name name I; cbn [String.eqb Ascii.eqb Bool.eqb]; intros [[H _]|(n & H & _)]; congruence.
Qed.

Lemma documented_domain : forall name s l, value_of (documented name) s = Some l -> forall o n, In (o, n) l -> in_domain o (VEnum n).
Proof.
  intros name s l V o n I. assert (E := enumerated_in _ (value_enumerated name s l V)).
  unfold value_of in V. destruct (find (fun x => String.eqb s (fst x)) (documented name)) as [x|] eqn:F; [|discriminate].
  apply find_some in F. destruct F as [F _]. cbn in V. injection V as <-.
  cbn [enumerated_names In] in E.
  repeat (destruct E as [<-|E]; [cbn in F; repeat (destruct F as [<-|F]; [cbn [snd In] in I; repeat (destruct I as [I|I]; [injection I as <- <-; cbv; lia|]); contradiction|]); contradiction|]).
  contradiction.
Qed.

Lemma documented_only : forall name s l h, reached h -> value_of (documented name) s = Some l ->
  exists h', applyToSolverConfiguration (only name (AString s)) h = (Ok tt, h') /\
    (forall o n, In (o, n) l -> seen (Value o) h' = Ok (VEnum n)) /\
    (forall b, (forall o n, In (o, n) l -> b <> Value o) -> seen b h' = seen b h).
Proof.
  intros name s l h R V. assert (En := value_enumerated name s l V). assert (Hp := only_parsed name s En). assert (In' := enumerated_name name En).
  assert (M := documented_meaning name s l V).
  destruct (succeeds (only name (AString s)) h Hp R) as [h' E].
  - apply only_no_conflict. exact In'.
  - intros n t E _ _. unfold only in E. destruct (String.eqb_spec n name) as [->|]; [|discriminate]. injection E as <-.
    unfold value_of, accepted in *. destruct (find (fun x => String.eqb s (fst x)) (documented name)) as [x|] eqn:F; [|discriminate].
    rewrite (find_app _ _ _ _ x F). discriminate.
  - split.
    + intros o v H. apply only_asks in H. rewrite M in H. unfold enums in H. apply in_map_iff in H. destruct H as [[o' n] [E I]]. cbn in E. injection E as <- <-.
      exact (documented_domain name s l V o' n I).
    + intros n E. exfalso. apply (only_no_preset name (AString s) In' O_CFL (VDouble (IZR n * sqrt 2))). right. exists n. split; [exact E|]. left. reflexivity.
  - intros k E. exfalso. unfold only in E. destruct (String.eqb "integrator-id" name); discriminate.
  - exists h'. split; [exact E|]. split.
    + apply (documented_applied (only name (AString s)) name s l h h' Hp R); [unfold only; rewrite String.eqb_refl; reflexivity|exact V|exact E].
    + intros b N. apply (proj2 (applied _ h Hp R h' E)). intros o v -> [H|[_ H]].
      * apply only_asks in H. rewrite M in H. unfold enums in H. apply in_map_iff in H. destruct H as [[o' n] [Eo I]]. cbn in Eo. injection Eo as -> _.
        exact (N o n I eq_refl).
      * exact (only_no_preset name (AString s) In' o v H).
Qed.

Lemma unknown_rejected : forall a name s h, parsed a -> reached h -> a name = Some (AString s) -> enumerated name ->
  value_of (documented name) s = None -> name <> "mrt-relax" -> ~ (name = "stencil" /\ In s ["d3q21"; "d3q13"; "rd3q27"]) ->
  fst (applyToSolverConfiguration a h) <> Ok tt /\ (known_number a -> fst (applyToSolverConfiguration a h) = Throw).
Proof.
  intros a name s h Hp R E En V Nm Ns. apply (value_rejected a h Hp R). intros KV. apply (KV name s E En Nm).
  unfold value_of, accepted in *. destruct (find (fun x => String.eqb s (fst x)) (documented name)) as [x|] eqn:F; [discriminate|].
  assert (G : find (fun x => String.eqb s (fst x)) (undocumented name) = None).
  { unfold undocumented. destruct (String.eqb_spec name "stencil") as [Ei|]; [|reflexivity].
    match goal with |- ?f = None => destruct f as [x|] eqn:G end; [|reflexivity]. exfalso. apply Ns. split; [exact Ei|]. apply find_some in G. destruct G as [I S].
    apply String.eqb_eq in S. subst s. cbn in I. repeat (destruct I as [<-|I]; [cbn; tauto|]). contradiction. }
  clear - F G. induction (documented name) as [|y l IH]; [cbn [app]; rewrite G; reflexivity|]. cbn [app find] in *.
  destruct (String.eqb s (fst y)); [discriminate|exact (IH F)].
Qed.

(** ** Integrators by number *)

Lemma number_cases : forall k s, integrator_number k = Some s -> exists i, (i < 15)%nat /\ k = (1 + Z.of_nat i)%Z.
Proof.
  intros k s H. destruct k as [|p|p]; try discriminate H. exists (Z.to_nat (Z.pos p - 1)).
  assert (B : (Z.pos p <= 15)%Z).
  { destruct (Z_le_gt_dec (Z.pos p) 15) as [L|G]; [exact L|exfalso]. do 4 (destruct p as [p|p|]; try discriminate H; try lia). }
  split; lia.
Qed.

Lemma number_same : forall k s h, reached h -> integrator_number k = Some s ->
  applyToSolverConfiguration (only "integrator-id" (AInt k)) h = applyToSolverConfiguration (only "integrator" (AString s)) h.
Proof.
  intros k s h R H. destruct (number_cases k s H) as (i & B & ->).
  do 15 (destruct i as [|i]; [cbn in H; injection H as <-; reflexivity|]). lia.
Qed.

Lemma number_title : forall k h, integrator_title k <> None -> exists t d name,
  get_integrator_by_id k None h = (Ok (Some t, d, name), h) /\ get_integrator_name (Some t) d h = (Ok name, h) /\ integrator_title k = Some name /\
  exists s, integrator_number k = Some s /\ value_of (documented "integrator") s = Some [(O_TimeIntegrator, t); (O_DealIntegrator, d)].
Proof.
  intros k h H. assert (C : integrator_number k <> None).
  { destruct k as [|p|p]; try (contradiction H; reflexivity). do 4 (destruct p as [p|p|]; try discriminate; try (contradiction H; reflexivity)). }
  destruct (integrator_number k) as [s|] eqn:E; [|contradiction C; reflexivity].
  destruct (number_cases k s E) as (i & B & ->).
  do 15 (destruct i as [|i]; [cbn in E; injection E as <-; eexists; eexists; eexists; split; [reflexivity|]; split; [reflexivity|]; split; [reflexivity|];
    eexists; split; reflexivity|]). lia.
Qed.

Lemma id_parsed : forall k, (- 2 ^ 31 <= k < 2 ^ 31)%Z -> parsed (only "integrator-id" (AInt k)).
Proof.
  intros k B d v I. unfold only. destruct (String.eqb_spec (df_name d) "integrator-id") as [Ed|]; [|discriminate]. intros H. injection H as <-.
  split; [|intros z Ez; injection Ez as <-; exact B].
  cbn [ps_defs new_parser In] in I. repeat (destruct I as [<-|I]; [first [reflexivity|discriminate Ed]|]). contradiction.
Qed.

Lemma number_undefined : forall k h, reached h -> (- 2 ^ 31 <= k < 2 ^ 31)%Z -> integrator_number k = None ->
  applyToSolverConfiguration (only "integrator-id" (AInt k)) h = (UB, h).
Proof.
  intros k h R B N. destruct (apply_is _ h (id_parsed k B) R) as [_ ->].
  assert (P : the_plan (only "integrator-id" (AInt k)) = ([], UB)).
  { unfold the_plan, p_blocks. assert (G : forall n f, n <> "integrator-id" -> given (only "integrator-id" (AInt k)) n f = ([], Ok tt)).
    { intros n f Nn. unfold given, only. destruct (String.eqb_spec n "integrator-id"); [contradiction|reflexivity]. }
    unfold p_standard_lbm, p_standard_lbm_with, names. cbn [map]. rewrite !G by discriminate.
    unfold given at 1, only at 1. cbn [String.eqb Ascii.eqb Bool.eqb p_explicit]. rewrite G by discriminate. cbn [as_int]. rewrite N. reflexivity. }
  rewrite P. reflexivity.
Qed.

(** ** Standard LBM *)

Lemma small_table : forall t, forallb (fun r => forallb (fun q => Qeq_bool q 0 || Qeq_bool q 1 || Qeq_bool q (-1)) r) t = true ->
  forall i a, exists k, (Z.abs k <= 1)%Z /\ tbl t i a = IZR k.
Proof.
  intros t H i a. unfold tbl, tblQ.
  assert (Q : Qeq_bool (nth a (nth i t []) 0%Q) 0 || Qeq_bool (nth a (nth i t []) 0%Q) 1 || Qeq_bool (nth a (nth i t []) 0%Q) (-1) = true).
  { rewrite forallb_forall in H. destruct (nth_in_or_default i t []) as [I| ->]; [|destruct a; reflexivity].
    specialize (H _ I). rewrite forallb_forall in H. destruct (nth_in_or_default a (nth i t []) 0%Q) as [J| ->]; [exact (H _ J)|reflexivity]. }
  apply orb_true_iff in Q. destruct Q as [Q|Q]; [apply orb_true_iff in Q; destruct Q as [Q|Q]|]; apply Qeq_bool_eq, Qeq_eqR in Q; rewrite Q.
  - exists 0%Z. split; [lia|unfold Q2R; cbn; lra].
  - exists 1%Z. split; [lia|unfold Q2R; cbn; lra].
  - exists (-1)%Z. split; [lia|unfold Q2R; cbn; lra].
Qed.


Lemma lattice_is : forall t, lattice t -> forall s, st_maxvel (stencil_of t s) = s * sqrt 2 /\
  forall i a, exists k, (Z.abs k <= 1)%Z /\ st_e (stencil_of t s) i a = s * IZR k.
Proof.
  intros t [->|[->| ->]] s; (split; [reflexivity|]); intros i a; cbn [stencil_of st_e D2Q9 D3Q19 D3Q27].
  - destruct (small_table D2Q9_dir eq_refl i a) as (k & B & ->). exists k. split; [exact B|reflexivity].
  - destruct (small_table D3Q19_dir eq_refl i a) as (k & B & ->). exists k. split; [exact B|reflexivity].
  - destruct (small_table D3Q27_dir eq_refl i a) as (k & B & ->). exists k. split; [exact B|reflexivity].
Qed.

Lemma hop_core : forall t s dx n cfl, lattice t -> 0 < s -> 0 < dx -> (1 <= n)%Z ->
  Rabs (cfl - IZR n * sqrt 2) <= 1/2 * powerRZ 10 (-15) * Rabs (IZR n * sqrt 2) ->
  exists dt, calculateTimestep dx n (stencil_of t s) cfl = Ok dt /\ hops (stencil_of t s) dt (dx / IZR n).
Proof.
  intros t s dx n cfl L Hs Hdx Hn Hc. destruct (lattice_is t L s) as [Mv E]. unfold calculateTimestep.
  destruct (Z.leb_spec 1 n) as [_|]; [|lia]. rewrite Mv. eexists. split; [reflexivity|]. intros i a _ _.
  destruct (E i a) as (k & B & ->). exists k.
  assert (Rn : 1 <= IZR n) by (apply IZR_le; lia). assert (S2 : 0 < sqrt 2) by (apply sqrt_lt_R0; lra).
  set (eps := powerRZ 10 (-15)) in *. assert (Pe : 0 < eps) by (apply powerRZ_lt; lra).
  set (m := IZR n) in *. set (q := sqrt 2) in *. set (kk := IZR k).
  assert (Bk : Rabs kk <= 1) by (unfold kk; rewrite <- abs_IZR; apply IZR_le; exact B).
  assert (Id : cfl * dx / (s * q * m * m) * (s * kk) - kk * (dx / m) = (cfl - m * q) * (kk * (dx / (q * m * m)))).
  { field. repeat split; lra. }
  rewrite Id, Rabs_mult, Rabs_mult.
  assert (Pd : 0 < dx / (q * m * m)).
  { apply Rdiv_lt_0_compat; [exact Hdx|]. apply Rmult_lt_0_compat; [apply Rmult_lt_0_compat|]; lra. }
  rewrite (Rabs_right (dx / (q * m * m))) by lra. rewrite (Rabs_right (m * q)) in Hc by (apply Rle_ge, Rmult_le_pos; lra).
  apply Rle_trans with (1 / 2 * eps * (m * q) * (1 * (dx / (q * m * m)))).
  - apply Rmult_le_compat; [apply Rabs_pos| |exact Hc|].
    + apply Rmult_le_pos; [apply Rabs_pos|lra].
    + apply Rmult_le_compat_r; lra.
  - replace (1 / 2 * eps * (m * q) * (1 * (dx / (q * m * m)))) with (1 / 2 * (eps * (dx / m))) by (field; repeat split; lra).
    assert (0 < eps * (dx / m)) by (apply Rmult_lt_0_compat; [exact Pe|apply Rdiv_lt_0_compat; lra]). lra.
Qed.


Lemma lbm_effective : forall a n, parsed a -> ~ conflicting a -> lbm_order a n ->
  effective a O_CFL (VDouble (IZR n * sqrt 2)) /\ effective a O_SedgOrderOfFiniteElement (VInt n).
Proof.
  intros a n Hp NC H.
  assert (Own : forall o v, asks a o v -> o <> O_SwitchOutputOff -> owner o <> "integrator" -> a (owner o) <> None /\ exists w, a (owner o) = Some w /\ In (o, v) (meaning (owner o) w)).
  { intros o v (m & w & E & I) No Ni. destruct (meaning_proper m w) as [F _]. rewrite Forall_forall in F. destruct (F _ I) as [X|[[X _]|[_ X]]]; cbn [fst] in X.
    - injection X as -> _. congruence.
    - rewrite X. split; [congruence|]. exists w. split; assumption.
    - contradiction. }
  assert (Ncfl : forall w, ~ asks a O_CFL w).
  { intros w A. destruct (Own _ _ A ltac:(discriminate) ltac:(discriminate)) as [C _]. cbn [owner] in C. apply NC. left. split; [|left; exact C].
    destruct H as [[H _]|[H _]]; [left; exact H|right; congruence]. }
  assert (Hpre : a "order-fe" = None -> forall w, ~ asks a O_SedgOrderOfFiniteElement w).
  { intros E w A. destruct (Own _ _ A ltac:(discriminate) ltac:(discriminate)) as [C _]. cbn [owner] in C. congruence. }
  split.
  - right. split; [exact Ncfl|]. destruct H as [[H ->]|[H _]].
    + left. split; [exact H|left; reflexivity].
    + right. exists n. split; [exact H|left; reflexivity].
  - destruct (a "order-fe") as [v|] eqn:Eo.
    + assert (T := type_at a Hp (arg Int "order-fe") v ltac:(cbn; tauto) Eo). destruct v as [|z|x|s]; try discriminate T.
      destruct H as [[H ->]|[_ H]]; [|congruence]. assert (Ez : z = 2%Z).
      { destruct (Z.eq_dec z 2) as [Ez|Nz]; [exact Ez|]. exfalso. apply NC. left. split; [left; exact H|]. right. left. exists z. split; assumption. }
      subst z. left. exists "order-fe", (AInt 2). split; [exact Eo|]. left. reflexivity.
    + right. split; [exact (Hpre eq_refl)|]. destruct H as [[H ->]|[H _]].
      * left. split; [exact H|right; left; reflexivity].
      * right. exists n. split; [exact H|right; left; reflexivity].
Qed.

Lemma no_conflict_if_ok : forall a h h', parsed a -> reached h -> applyToSolverConfiguration a h = (Ok tt, h') -> ~ conflicting a.
Proof. intros a h h' Hp R E C. assert (X := conflict_rejected a h Hp R C). rewrite E in X. discriminate. Qed.

Lemma ok_positive : forall a h h' n, parsed a -> reached h -> applyToSolverConfiguration a h = (Ok tt, h') -> lbm_order a n -> (1 <= n)%Z.
Proof.
  intros a h h' n Hp R E [[_ ->]|[H _]]; [lia|]. destruct (apply_is a h Hp R) as [T E0]. rewrite E0 in E.
  destruct (exec_ok _ _ h h' tt (reached_inv h R) T E) as [G _]. apply (good_iff a Hp) in G. destruct G as (_ & _ & _ & P). specialize (P n H). lia.
Qed.

Lemma lbm_hops : forall a n h h' t s dx, parsed a -> reached h -> applyToSolverConfiguration a h = (Ok tt, h') -> lbm_order a n ->
  lattice t -> 0 < s -> 0 < dx ->
  exists cfl dt, seen (Value O_CFL) h' = Ok (VDouble cfl) /\ seen (Value O_SedgOrderOfFiniteElement) h' = Ok (VInt n) /\
    calculateTimestep dx n (stencil_of t s) cfl = Ok dt /\ hops (stencil_of t s) dt (dx / IZR n).
Proof.
  intros a n h h' t s dx Hp R E Ln Lt Hs Hdx.
  destruct (lbm_effective a n Hp (no_conflict_if_ok a h h' Hp R E) Ln) as [Ec Eo].
  destruct (applied a h Hp R h' E) as [Ap _].
  destruct (Ap _ _ Ec) as (w & Sw & cfl & -> & Bc & _). destruct (Ap _ _ Eo) as (w' & So & Ew). cbn in Ew. subst w'.
  destruct (hop_core t s dx n cfl Lt Hs Hdx (ok_positive a h h' n Hp R E Ln) Bc) as (dt & Ed & Hh). exists cfl, dt. repeat split; assumption.
Qed.

Lemma no_hop : forall (j : Z) (x c : R), 0 < c -> IZR j + 1 / 10 <= x -> x <= IZR j + 9 / 10 ->
  (exists k : Z, Rabs (x * c - IZR k * c) <= powerRZ 10 (-15) * c) -> False.
Proof.
  intros j x c Hc L U (k & B).
  assert (Pe : powerRZ 10 (-15) < 1 / 20).
  { apply Rle_lt_trans with (/ 10 ^ 2); [|cbn; lra]. change (powerRZ 10 (-15)) with (/ 10 ^ 15). apply Rinv_le_contravar; [apply pow_lt; lra|].
    apply Rle_pow; [lra|lia]. }
  replace (x * c - IZR k * c) with ((x - IZR k) * c) in B by ring. rewrite Rabs_mult, (Rabs_right c) in B by lra.
  apply Rmult_le_reg_r in B; [|exact Hc].
  destruct (Z_le_gt_dec k j) as [G|G].
  - assert (IZR k <= IZR j) by (apply IZR_le; lia). rewrite Rabs_right in B; lra.
  - assert (IZR j + 1 <= IZR k) by (rewrite <- plus_IZR; apply IZR_le; lia). rewrite Rabs_left in B; lra.
Qed.

Lemma cfl_near : forall n cfl, (1 <= n <= 3)%Z -> Rabs (cfl - IZR n * sqrt 2) <= 1/2 * powerRZ 10 (-15) * Rabs (IZR n * sqrt 2) ->
  IZR n * sqrt 2 - 1 / 100 <= cfl <= IZR n * sqrt 2 + 1 / 100.
Proof.
  intros n cfl Hn B. assert (1 <= IZR n <= 3) by (split; apply IZR_le; lia).
  assert (S2 : 1 <= sqrt 2 <= 3 / 2).
  { split; [rewrite <- sqrt_1 at 1; apply sqrt_le_1; lra|]. rewrite <- (sqrt_square (3 / 2)) by lra. apply sqrt_le_1; lra. }
  assert (Pe : powerRZ 10 (-15) <= 1 / 1000).
  { change (powerRZ 10 (-15)) with (/ 10 ^ 15). apply Rle_trans with (/ 10 ^ 3); [|cbn; lra]. apply Rinv_le_contravar; [apply pow_lt; lra|].
    apply Rle_pow; [lra|lia]. }
  assert (Pp : 0 < powerRZ 10 (-15)) by (apply powerRZ_lt; lra).
  assert (P : 0 <= IZR n * sqrt 2 <= 9 / 2).
  { split; [apply Rmult_le_pos; lra|]. replace (9 / 2) with (3 * (3 / 2)) by lra. apply Rmult_le_compat; lra. }
  rewrite (Rabs_right (IZR n * sqrt 2)) in B by lra.
  assert (1 / 2 * powerRZ 10 (-15) * (IZR n * sqrt 2) <= 1 / 100).
  { apply Rle_trans with (1 / 2 * (1 / 1000) * (9 / 2)); [|lra]. apply Rmult_le_compat; lra. }
  assert (Bd := Rle_abs (cfl - IZR n * sqrt 2)). assert (Bd' := Rle_abs (- (cfl - IZR n * sqrt 2))). rewrite Rabs_Ropp in Bd'. lra.
Qed.

(** ** The parser object *)

Lemma before_state : forall p, before p -> ps_imported p = false /\ forall n, ps_map p n = None.
Proof.
  induction 1 as [|d p _ [I M]|n p _ [I M]]; [split; reflexivity| |].
  - unfold define. rewrite I. split; [reflexivity|exact M].
  - unfold makePositional. rewrite I. split; [reflexivity|exact M].
Qed.
Lemma import_imported : forall parse p, ps_imported (snd (importOptions parse p)) = true.
Proof.
  intros parse p. unfold importOptions. destruct (parse (ps_defs p) (ps_positional p)); try reflexivity.
  destruct (existsb _ _); [reflexivity|]. destruct (hasArgument _ _); reflexivity.
Qed.
Lemma after_state : forall p, after p -> ps_imported p = true.
Proof.
  induction 1 as [parse p _|parse p _ _|d p _ I|n p _ I]; try apply import_imported.
  - unfold define. rewrite I. exact I.
  - unfold makePositional. rewrite I. exact I.
Qed.

Lemma define_before : forall d n p, before p ->
  (fst (define d p) = Ok tt /\ ps_defs (snd (define d p)) = (ps_defs p ++ [d])%list /\
   ps_positional (snd (define d p)) = (ps_positional p ++ if df_positional d then [df_name d] else [])%list) /\
  (fst (makePositional n p) = Ok tt /\ ps_defs (snd (makePositional n p)) = ps_defs p /\ ps_positional (snd (makePositional n p)) = (ps_positional p ++ [n])%list).
Proof.
  intros d n p B. destruct (before_state p B) as [I _]. unfold define, makePositional. rewrite I. cbn. repeat split.
  destruct (df_positional d); [reflexivity|]. rewrite app_nil_r. reflexivity.
Qed.
Lemma define_after : forall d n p, after p -> define d p = (Throw, p) /\ makePositional n p = (Throw, p).
Proof. intros d n p A. unfold define, makePositional. rewrite (after_state p A). split; reflexivity. Qed.
Lemma read_before : forall n t p h, before p -> ps_has n p = Throw /\ ps_get t n p = Throw /\ ps_apply p h = (Throw, h).
Proof. intros n t p h B. unfold ps_has, ps_get, ps_apply. rewrite (proj1 (before_state p B)). repeat split. Qed.
Lemma read_after : forall parse p p', before p -> importOptions parse p = (Ok tt, p') ->
  exists a, parse (ps_defs p) (ps_positional p) = Ok a /\
    (forall n, ps_has n p' = Ok (match a n with Some _ => true | None => false end)) /\
    (forall n t v, ps_get t n p' = Ok v <-> a n = Some v /\ type_of v = t) /\
    (forall h, ps_apply p' h = applyToSolverConfiguration a h).
Proof.
  intros parse p p' B E. destruct (before_state p B) as [I M]. unfold importOptions in E.
  destruct (parse (ps_defs p) (ps_positional p)) as [a| |]; try discriminate E. exists a. split; [reflexivity|].
  destruct (existsb _ _); [discriminate E|]. destruct (hasArgument _ _); [discriminate E|].
  assert (X : (fun n => match ps_map p n with Some v => Some v | None => a n end) = a).
  { apply functional_extensionality. intros n. rewrite M. reflexivity. }
  assert (Em : ps_map p' = a) by (injection E as <-; exact X). assert (Ei : ps_imported p' = true) by (injection E as <-; reflexivity).
  unfold ps_has, ps_get, ps_apply, hasArgument. rewrite Em, Ei. split; [reflexivity|]. split; [|reflexivity].
  intros n t v. destruct (a n) as [w|]; [|split; [discriminate|intros [H _]; discriminate]].
  assert (Q : atype_eqb (type_of w) t = true <-> type_of w = t) by (destruct (type_of w), t; cbn; split; congruence).
  destruct (atype_eqb (type_of w) t).
  - split; [intros H; injection H as <-; split; [reflexivity|apply Q; reflexivity]|]. intros [H _]. injection H as ->. reflexivity.
  - split; [discriminate|]. intros [H T]. injection H as ->. apply Q in T. discriminate.
Qed.
Lemma default_undefined : forall parse p a, before p -> Exists (fun d => df_default d <> None) (ps_defs p) ->
  parse (ps_defs p) (ps_positional p) = Ok a -> fst (importOptions parse p) = UB.
Proof.
  intros parse p a B X E. unfold importOptions. rewrite E.
  assert (Y : existsb (fun d => match df_default d with Some _ => true | None => false end) (ps_defs p) = true).
  { apply existsb_exists. apply Exists_exists in X. destruct X as (d & I & N). exists d. split; [exact I|]. destruct (df_default d); [reflexivity|congruence]. }
  rewrite Y. reflexivity.
Qed.
