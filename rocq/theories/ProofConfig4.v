(** Witnesses for SolverConfiguration, and parameter files. *)
From Coq Require Import String Bool.
From Verif Require Import Prelude ModelText SpecText ProofText ConfigTypes ConfigData ModelConfig SpecConfig ProofConfig ProofConfig2 ProofConfig3.
Open Scope R_scope.

(** ** Values that are not read back *)

(** 0.1 + 0.2 in double arithmetic: 5404319552844596 / 2^54. *)
Definition sum_double : R := 5404319552844596 * powerRZ 2 (-54).
(** The next smaller double, which is the one nearest to 0.3. *)
Definition below_double : R := 5404319552844595 * powerRZ 2 (-54).

Lemma two54 : powerRZ 2 (-54) = / 18014398509481984.
Proof. cbn [powerRZ]. f_equal. rewrite pow_IZR. reflexivity. Qed.

Lemma sum_double_prints : print_digits 16 sum_double = 3 / 10.
Proof.
  assert (X : sum_double * 18014398509481984 = 5404319552844596) by (unfold sum_double; rewrite two54; lra).
  assert (P1 : powerRZ 10 (-1) = / 10) by (cbn [powerRZ]; f_equal; change (Pos.to_nat 1) with 1%nat; ring). assert (P0 : powerRZ 10 (-1 + 1) = 1) by reflexivity.
  assert (P16 : powerRZ 10 (16 - 1 - -1) = 10000000000000000) by (rewrite powerRZ10_Z by lia; reflexivity).
  rewrite (print_is 16 sum_double (-1) 3000000000000000).
  - rewrite P16. lra.
  - rewrite P1, P0, Rabs_right by lra. lra.
  - rewrite P16. lra.
Qed.

Lemma double_not_kept : forall h, reached h -> exists x y z h',
  double x /\ double z /\ set O_CFL (VDouble x) h = (Ok tt, h') /\ seen (Value O_CFL) h' = Ok (VDouble y) /\
  y <> x /\ Rabs (y - z) < Rabs (y - x).
Proof.
  intros h R. assert (I := reached_inv h R).
  assert (X : sum_double * 18014398509481984 = 5404319552844596) by (unfold sum_double; rewrite two54; lra).
  assert (Z : below_double * 18014398509481984 = 5404319552844595) by (unfold below_double; rewrite two54; lra).
  destruct (domain_accepted O_CFL (VDouble sum_double) h I Logic.I) as [h' E].
  { cbn [in_domain double_domain]. unfold ge. lra. }
  exists sum_double, (3 / 10), below_double, h'.
  split. { exists 5404319552844596%Z, (-54)%Z. split; reflexivity. }
  split. { exists 5404319552844595%Z, (-54)%Z. split; reflexivity. }
  split; [exact E|]. split.
  { rewrite (accepted_kept (CSet O_CFL (VDouble sum_double)) (Value O_CFL) (VDouble sum_double) h h' I Logic.I E (sr_set _ _)).
    unfold kept. rewrite sum_double_prints. reflexivity. }
  split; [lra|]. rewrite (Rabs_left (3 / 10 - sum_double)) by lra. rewrite (Rabs_right (3 / 10 - below_double)) by lra. lra.
Qed.

Lemma nc_truncated : forall h, reached h -> exists h',
  set O_ExponentialFilterNc (VDouble (3 / 2)) h = (Ok tt, h') /\ seen (Value O_ExponentialFilterNc) h' = Ok (VInt 1).
Proof.
  intros h R. assert (I := reached_inv h R). destruct (domain_accepted O_ExponentialFilterNc (VDouble (3 / 2)) h I Logic.I) as [h' E].
  { cbn [in_domain double_domain]. unfold between. lra. }
  exists h'. split; [exact E|].
  rewrite (accepted_kept (CSet O_ExponentialFilterNc (VDouble (3 / 2))) (Value O_ExponentialFilterNc) (VDouble (3 / 2)) h h' I Logic.I E (sr_set _ _)).
  unfold kept. rewrite print_decimal.
  - rewrite (int_part_is (3 / 2) 1) by lra. reflexivity.
  - replace (3 / 2) with (15 / 10 ^ 1) by lra. apply decimal_frac. reflexivity.
Qed.

Lemma coords_rounded : forall h, reached h -> exists h',
  setWallNormalCoordinates [1234567 / 10 ^ 7] h = (Ok tt, h') /\ seen Coords h' = Ok (VCoords [123457 / 10 ^ 6]).
Proof.
  intros h R. assert (I := reached_inv h R).
  assert (Pr : print_digits 6 (1234567 / 10 ^ 7) = 123457 / 10 ^ 6).
  { assert (P1 : powerRZ 10 (-1) = / 10) by (cbn [powerRZ]; f_equal; change (Pos.to_nat 1) with 1%nat; ring). assert (P0 : powerRZ 10 (-1 + 1) = 1) by reflexivity.
    assert (P6 : powerRZ 10 (6 - 1 - -1) = 1000000) by (rewrite powerRZ10_Z by lia; reflexivity).
    rewrite (print_is 6 (1234567 / 10 ^ 7) (-1) 123457).
    - rewrite P6. lra.
    - rewrite P1, P0, Rabs_right by lra. lra.
    - rewrite P6. lra. }
  destruct (call_is (CCoords [1234567 / 10 ^ 7]) h I Logic.I eq_refl) as [[A E]|[N _]].
  - eexists. split; [exact E|].
    rewrite (accepted_kept (CCoords [1234567 / 10 ^ 7]) Coords (VCoords [1234567 / 10 ^ 7]) h _ I Logic.I E (sr_coords _)).
    unfold kept. cbn [map]. rewrite Pr. reflexivity.
  - exfalso. apply N. split; [|exact Logic.I]. repeat constructor. apply (good_is _ _ _ _ coords_pat).
    cbn [to_text matches map forallb]. rewrite Pr. rewrite (proj2 (within_bounds _ _ _)); [reflexivity|]. split; lra.
Qed.

(** ** setEmbeddedDealIntegratorParameters *)

Lemma no_entry_inside : forall b, find (is_entry (emb_path ++ obs_path b) (obs_key b)) declared = None.
Proof. intros [o|g|]; [destruct o|destruct g|]; reflexivity. Qed.

Lemma find_none_strip : forall l1 l2 p k, map strip l1 = map strip l2 -> find (is_entry p k) l2 = None -> find (is_entry p k) l1 = None.
Proof.
  intros l1 l2 p k E F. destruct (find (is_entry p k) l1) as [d|] eqn:F1; [|reflexivity].
  destruct (find_strip l2 l1 p k d (eq_sym E) F1) as (d2 & H & _). congruence.
Qed.

Lemma puts_strip : forall ws h, map strip (h_entries (puts ws h)) = map strip (h_entries h) /\ h_path (puts ws h) = h_path h.
Proof.
  induction ws as [|w ws IH]; intros h; [split; reflexivity|]. unfold puts in *. cbn [fold_left]. destruct (IH (put (fst (fst w)) (snd (fst w)) (snd w) h)) as [-> ->].
  split; [|reflexivity]. unfold put. cbn [h_entries]. rewrite map_map. apply map_ext. intros d. apply strip_set_text.
Qed.

Lemma stuck : forall b h, map strip (h_entries h) = map strip declared -> h_path h = emb_path -> seen b h = Throw.
Proof.
  intros b h S P.
  assert (F := find_none_strip _ _ _ _ S (no_entry_inside b)).
  assert (G : forall p k, p = obs_path b -> k = obs_key b -> hget k (opened p h) = (Throw, opened p h)).
  { intros p k -> ->. unfold hget, opened. cbn [h_path h_entries]. rewrite P, F. reflexivity. }
  assert (L : forall p, leaves p (opened p h) = (Ok tt, h)).
  { intros p. unfold opened. rewrite leaves_is. destruct h. reflexivity. }
  unfold seen. destruct b as [o|g|]; cbn [observe].
  - unfold get, run_getter. cbn [obs_path obs_key] in G. specialize (G _ _ eq_refl eq_refl). unfold seq, try_catch, bind. rewrite enters_is.
    destruct (g_kind (getter_of o)); rewrite G; rewrite ?L; reflexivity.
  - unfold get_read_only, run_getter. cbn [obs_path obs_key] in G. specialize (G _ _ eq_refl eq_refl). unfold seq, try_catch, bind. rewrite enters_is.
    destruct (g_kind (read_only_getter_of g)); rewrite G; rewrite ?L; reflexivity.
  - unfold getWallNormalCoordinates. cbn [obs_path obs_key] in G. specialize (G _ _ eq_refl eq_refl). unfold seq, try_catch, bind. rewrite enters_is, G, L. reflexivity.
Qed.

Lemma embedded_unusable : forall c h h', reached h -> embedded c = true -> call c h = (Throw, h') -> forall b, seen b h' = Throw.
Proof.
  intros c h h' R Em E b. assert (I := reached_inv h R). destruct (embedded_is c h I Em) as [[_ H]|[_ (ws & H)]]; rewrite H in E; [discriminate|].
  injection E as <-. destruct (puts_strip ws h) as [S P]. apply stuck.
  - unfold opened. cbn [h_entries]. rewrite S. exact (proj1 (proj2 I)).
  - unfold opened. cbn [h_path]. rewrite P, (proj1 I). reflexivity.
Qed.

(** A refinement parameter of 2 is rejected. *)
Lemma embedded_rejects : forall h, reached h -> exists h', call (CEmbedded (12 / 10) 2 1 1 1 1) h = (Throw, h').
Proof.
  intros h R. assert (I := reached_inv h R). destruct (embedded_is (CEmbedded (12 / 10) 2 1 1 1 1) h I eq_refl) as [[A _]|[_ (ws & H)]]; [|eauto].
  exfalso. destruct A as [G _]. cbn [stores] in G. inversion G as [|? ? _ G']. inversion G' as [|? ? G2 _].
  assert (P : pattern_at emb_path "Refinement parameter"%string = Some (PDouble (Some 0) (Some 1))) by reflexivity.
  apply (good_is _ _ _ _ P) in G2. cbn [to_text matches] in G2. rewrite print_decimal in G2 by (apply dec_small; reflexivity).
  apply within_bounds in G2. destruct G2. lra.
Qed.

(** ** Parameter files *)

Lemma store_value_is : forall h w, inv h ->
  (good w /\ store_value w h = (Ok tt, put (fst (fst w)) (snd (fst w)) (snd w) h)) \/ (~ good w /\ store_value w h = (Throw, h)).
Proof.
  intros h [[p k] t] I. unfold store_value. cbn [fst snd]. destruct (pattern_at p k) as [pt|] eqn:P.
  - destruct (at_inv h p k pt I P) as (d & F & E & _). rewrite F, E. destruct (matches pt t) eqn:M0; [left|right]; (split; [|reflexivity]).
    + apply (good_is p k t pt P). exact M0.
    + rewrite (good_is p k t pt P). congruence.
  - right. assert (F : find (is_entry p k) declared = None) by (unfold pattern_at in P; destruct (find (is_entry p k) declared); [discriminate|reflexivity]).
    rewrite (find_none_strip _ _ _ _ (proj1 (proj2 I)) F). split; [|reflexivity]. intros (pt & P' & _). cbn in P'. congruence.
Qed.

Lemma read_file_is : forall file h, inv h ->
  (Forall good file /\ readFromXMLFile file h = (Ok tt, puts file h)) \/
  (~ Forall good file /\ exists h', readFromXMLFile file h = (Throw, h') /\ inv h').
Proof.
  induction file as [|w file IH]; intros h I.
  - left. split; [constructor|reflexivity].
  - cbn [readFromXMLFile]. unfold seq, bind. destruct (store_value_is h w I) as [[G ->]|[G ->]].
    + destruct G as (pt & P & M0). destruct (IH _ (put_inv h _ _ _ pt I P M0)) as [[G' H]|[G' (h' & H & I')]].
      * left. split; [constructor; [exists pt; auto|exact G']|exact H].
      * right. split; [intros C; inversion C; contradiction|]. exists h'. split; [exact H|exact I'].
    + right. split; [intros C; inversion C; contradiction|]. exists h. split; [reflexivity|exact I].
Qed.

Lemma unique_strip : forall l1 l2, map strip l1 = map strip l2 -> unique l1 = unique l2.
Proof.
  induction l1 as [|a l1 IH]; intros [|b l2] E; try discriminate; [reflexivity|]. simpl in E. injection E as E1 E2 E3 E.
  cbn [unique]. rewrite (IH l2 E), E1, E2. f_equal. f_equal. clear IH. revert l2 E. induction l1 as [|c l1 IH]; intros [|d l2] E; try discriminate; [reflexivity|].
  simpl in E. injection E as F1 F2 F3 E. cbn [existsb]. rewrite (IH l2 E). f_equal. unfold is_entry. rewrite F1, F2. reflexivity.
Qed.

Lemma find_split : forall l p k d, unique l = true -> find (is_entry p k) l = Some d ->
  exists l1 l2, l = l1 ++ d :: l2 /\ is_entry p k d = true /\ forall e, In e l2 -> is_entry p k e = false.
Proof.
  induction l as [|a l IH]; intros p k d U F; [discriminate|]. cbn [unique] in U. apply andb_true_iff in U. destruct U as [U1 U2].
  cbn [find] in F. destruct (is_entry p k a) eqn:E.
  - injection F as ->. exists [], l. split; [reflexivity|]. split; [exact E|]. intros e Ie.
    apply is_entry_eq in E. destruct E as [-> ->]. apply negb_true_iff in U1. destruct (is_entry (d_path d) (d_key d) e) eqn:Ee; [|reflexivity].
    assert (existsb (is_entry (d_path d) (d_key d)) l = true) by (apply existsb_exists; exists e; auto). congruence.
  - destruct (IH p k d U2 F) as (l1 & l2 & -> & H1 & H2). exists (a :: l1), l2. split; [reflexivity|]. auto.
Qed.

(** A configuration written to a file and read back. *)
Lemma file_round_trip : forall h0 h, reached h0 -> reached h -> exists h',
  readFromXMLFile (print_parameters h) h0 = (Ok tt, h') /\ forall b, seen b h' = seen b h.
Proof.
  intros h0 h R0 R. assert (I0 := reached_inv h0 R0). assert (I := reached_inv h R). destruct I as (P & S & F).
  assert (U : unique (h_entries h) = true) by (rewrite (unique_strip _ _ S); exact unique_declared).
  assert (G : Forall good (print_parameters h)).
  { unfold print_parameters. rewrite Forall_map. rewrite Forall_forall in *. intros d Id. exists (d_pattern d). cbn [fst snd].
    split; [|exact (F d Id)]. assert (X : find (is_entry (d_path d) (d_key d)) (h_entries h) = Some d).
    { apply unique_find; [exact U|exact Id|]. apply is_entry_eq. auto. }
    destruct (find_strip declared (h_entries h) _ _ _ (eq_sym S) X) as (d2 & F2 & _ & E2). unfold pattern_at. rewrite F2. cbn. congruence. }
  destruct (read_file_is (print_parameters h) h0 I0) as [[_ H]|[N _]]; [|contradiction].
  eexists. split; [exact H|]. intros b.
  assert (I : inv h) by (split; [exact P|split; assumption]).
  destruct (observe_works b h I) as (t & v & Ht & Hv & Ho). unfold seen at 2. rewrite Ho. cbn [fst].
  apply (seen_is b _ t); [apply puts_inv; assumption| |exact Hv].
  unfold text_at in Ht. destruct (find (is_entry (obs_path b) (obs_key b)) (h_entries h)) as [d|] eqn:Fd; [|discriminate]. injection Ht as Ht.
  destruct (find_split _ _ _ _ U Fd) as (l1 & l2 & E & Ed & Nd). apply is_entry_eq in Ed. destruct Ed as [E1 E2].
  assert (Ef : print_parameters h = map (fun d => (d_path d, d_key d, d_text d)) l1 ++ (obs_path b, obs_key b, t) :: map (fun d => (d_path d, d_key d, d_text d)) l2).
  { unfold print_parameters. rewrite E, map_app. cbn [map]. rewrite <- E1, <- E2, Ht. reflexivity. }
  rewrite Ef. apply puts_last; [exact I0|rewrite <- Ef; exact G|].
  intros w Iw. apply in_map_iff in Iw. destruct Iw as (e & <- & Ie). cbn [fst]. intros C. injection C as C1 C2.
  specialize (Nd e Ie). rewrite (proj2 (is_entry_eq _ _ _)) in Nd; [discriminate|]. auto.
Qed.

Lemma file_untouched : forall file h h' b, reached h -> readFromXMLFile file h = (Ok tt, h') ->
  (forall w, In w file -> fst w <> (obs_path b, obs_key b)) -> seen b h' = seen b h.
Proof.
  intros file h h' b R E N. assert (I := reached_inv h R). destruct (read_file_is file h I) as [[G H]|[_ (h2 & H & _)]]; rewrite H in E; [|discriminate].
  injection E as <-. apply seen_text; [apply puts_inv; assumption|exact I|]. apply puts_other. exact N.
Qed.

Lemma file_rejected : forall file h h', reached h -> readFromXMLFile file h = (Throw, h') -> forall b, exists v, seen b h' = Ok v.
Proof.
  intros file h h' R E b. destruct (read_file_is file h (reached_inv h R)) as [[_ H]|[_ (h2 & H & I')]]; rewrite H in E; [discriminate|].
  injection E as <-. destruct (observe_works b h2 I') as (t & v & _ & _ & O). exists v. unfold seen. rewrite O. reflexivity.
Qed.

Lemma constructor_throws : forall file, file <> [] -> xml_configuration file = Throw.
Proof. intros [|w file] H; [congruence|]. reflexivity. Qed.

Lemma constructor_empty : exists h, xml_configuration [] = Ok h /\ forall b, seen b h = Throw.
Proof. eexists. split; [reflexivity|]. intros [o|g|]; [destruct o|destruct g|]; reflexivity. Qed.

(** ** Witnesses from the default configuration *)

Lemma double_accuracy : forall o x h h',
  reached h -> well_typed (CSet o (VDouble x)) -> set o (VDouble x) h = (Ok tt, h') -> o <> O_ExponentialFilterNc ->
  exists y, seen (Value o) h' = Ok (VDouble y) /\ Rabs (y - x) <= 1/2 * powerRZ 10 (-15) * Rabs x.
Proof.
  intros o x h h' R T E N. exists (print_digits 16 x). split; [|apply (print_accuracy 16)].
  rewrite (accepted_kept (CSet o (VDouble x)) (Value o) (VDouble x) h h' (reached_inv h R) T E (sr_set _ _)).
  unfold kept. destruct o; try reflexivity. congruence.
Qed.

Lemma double_witness : exists h x y z h', reached h /\
  double x /\ double z /\ set O_CFL (VDouble x) h = (Ok tt, h') /\ seen (Value O_CFL) h' = Ok (VDouble y) /\
  y <> x /\ Rabs (y - z) < Rabs (y - x).
Proof.
  destruct (double_not_kept _ reached_start) as (x & y & z & h' & H). exists default_configuration, x, y, z, h'. split; [exact reached_start|exact H].
Qed.

Lemma nc_witness : exists h h', reached h /\
  set O_ExponentialFilterNc (VDouble (3 / 2)) h = (Ok tt, h') /\ seen (Value O_ExponentialFilterNc) h' = Ok (VInt 1).
Proof. destruct (nc_truncated _ reached_start) as [h' H]. exists default_configuration, h'. split; [exact reached_start|exact H]. Qed.

Lemma coords_witness : exists h h', reached h /\
  setWallNormalCoordinates [1234567 / 10 ^ 7] h = (Ok tt, h') /\ seen Coords h' = Ok (VCoords [123457 / 10 ^ 6]).
Proof. destruct (coords_rounded _ reached_start) as [h' H]. exists default_configuration, h'. split; [exact reached_start|exact H]. Qed.

Lemma embedded_witness : exists c h h', reached h /\ well_typed c /\ call c h = (Throw, h') /\ forall b, seen b h' = Throw.
Proof.
  destruct (embedded_rejects _ reached_start) as [h' H]. exists (CEmbedded (12 / 10) 2 1 1 1 1), default_configuration, h'.
  split; [exact reached_start|]. split; [exact I|]. split; [exact H|].
  exact (embedded_unusable (CEmbedded (12 / 10) 2 1 1 1 1) _ _ reached_start eq_refl H).
Qed.

Lemma cfl_rejected : forall h, reached h -> call (CSet O_CFL (VDouble (-1))) h = (Throw, h).
Proof.
  intros h R. destruct (set_iff O_CFL (VDouble (-1)) h (reached_inv h R) I) as [[D _]|[_ H]].
  - intros x E. injection E as <-. apply dec_small. reflexivity.
  - cbn [in_domain double_domain] in D. unfold ge in D. lra.
  - exact H.
Qed.

Lemma rejected_example : call (CSet O_CFL (VDouble (-1))) default_configuration = (Throw, default_configuration).
Proof. exact (cfl_rejected _ reached_start). Qed.

Lemma history_example : exists h,
  history [CSet O_CollisionScheme (VEnum 8); CSet O_CFL (VDouble (4 / 10 ^ 1)); CSet O_CollisionScheme (VEnum 3)] h /\
  seen (Value O_CollisionScheme) h = Ok (VEnum 8) /\ seen (Value O_CFL) h = Ok (VDouble (4 / 10 ^ 1)).
Proof.
  assert (D : decimal 16 (4 / 10 ^ 1)) by (apply decimal_frac; reflexivity).
  assert (H0 := history_start).
  destruct (domain_accepted O_CollisionScheme (VEnum 3) _ (reached_inv _ (history_reached _ _ H0)) I) as [h1 E1]. { cbn. lia. }
  assert (H1 := history_accepted _ (CSet O_CollisionScheme (VEnum 3)) _ h1 H0 I E1).
  destruct (domain_accepted O_CFL (VDouble (4 / 10 ^ 1)) _ (reached_inv _ (history_reached _ _ H1)) I) as [h2 E2].
  { cbn [in_domain double_domain]. unfold ge. lra. }
  assert (H2 := history_accepted _ (CSet O_CFL (VDouble (4 / 10 ^ 1))) _ h2 H1 I E2).
  assert (H3 := history_rejected _ (CSet O_CFL (VDouble (-1))) _ h2 H2 I eq_refl (cfl_rejected _ (history_reached _ _ H2))).
  destruct (domain_accepted O_CollisionScheme (VEnum 8) _ (reached_inv _ (history_reached _ _ H3)) I) as [h4 E4]. { cbn. lia. }
  assert (H4 := history_accepted _ (CSet O_CollisionScheme (VEnum 8)) _ h4 H3 I E4).
  exists h4. split; [exact H4|]. split.
  - exact (history_last _ _ H4 [] _ _ (Value O_CollisionScheme) (VEnum 8) eq_refl (sr_set _ _) (fun c' (H : In c' []) => match H with end)).
  - rewrite (history_last _ _ H4 [CSet O_CollisionScheme (VEnum 8)] (CSet O_CFL (VDouble (4 / 10 ^ 1))) _ (Value O_CFL) (VDouble (4 / 10 ^ 1)) eq_refl (sr_set _ _)).
    + unfold kept. rewrite (print_decimal 16 _ D). reflexivity.
    + intros c' [<-|[]]. discriminate.
Qed.

Lemma domain_only : forall o v h h',
  reached h -> well_typed (CSet o v) -> (forall x, v = VDouble x -> decimal 16 x) -> set o v h = (Ok tt, h') -> in_domain o v.
Proof.
  intros o v h h' R T D E. destruct (set_iff o v h (reached_inv h R) T D) as [[A _]|[_ B]]; [exact A|]. rewrite B in E. discriminate.
Qed.

Lemma last_set : forall later c earlier b v h,
  history (later ++ c :: earlier) h -> should_return c b v -> holds b v -> (forall c', In c' later -> ~ belongs b c') ->
  exists w, seen b h = Ok w /\ same w v.
Proof.
  intros later c earlier b v h H S V N. exists (kept b v). split; [|exact (kept_same b v V)].
  exact (history_last _ h H later c earlier b v eq_refl S N).
Qed.
