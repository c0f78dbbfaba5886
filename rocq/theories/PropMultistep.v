(** C92-C99: the multistep collision object. *)
From Verif Require Import Prelude ModelStencils SpecStencils SpecCollision BigSum ModelConfigNames ModelEquilibria ModelCollision ProofEqMoments ProofCollideNode ModelOldCollision SpecOldCollision ProofOldCollision
  ProofOldLoop ModelMultistep SpecMultistep ProofMultistep ProofMultistep2 ProofMultistep3 ProofMultistep4 ProofMultistep5 ProofMultistepEx.
Local Open Scope R_scope.

(** ** C92: total mass and momentum over a run. *)
Lemma totals_all c t s nu dt m nodes ops x x' : s <> 0 -> make_multi c t s nu dt = Ok m -> NoDup nodes ->
  moves_keep_totals (stencil_of t s) nodes ops -> ms_first x = true -> perform m nodes ops x = Ok x' ->
  let st := stencil_of t s in
  total_mass st nodes (fl_f (ms_x x')) = total_mass st nodes (fl_f (ms_x x)) /\
  forall a, (a < st_D st)%nat -> total_momentum st nodes (fl_f (ms_x x')) a = total_momentum st nodes (fl_f (ms_x x)) a.
Proof.
  intros Hs Hm Hnd HT Hf H. cbv zeta.
  assert (E : om_t (mu_m m) = t /\ om_s (mu_m m) = s).
  { unfold make_multi in Hm. destruct (calculateRelaxationParameter BGKStandard nu dt (stencil_of t s)); try discriminate. cbn [obind] in Hm.
    injection Hm as <-. split; reflexivity. }
  destruct E as [Et Es]. destruct (match t with Stencil_D2Q9 => true | _ => false end) eqn:D.
  - assert (ET : t = Stencil_D2Q9) by (destruct t; try discriminate; reflexivity). rewrite ET in *.
    exact (solver_totals c s nu dt m nodes Hs Hm Hnd ops x x' HT Hf H).
  - rewrite <- Et, <- Es in *. apply perform_other with (ops := ops); try assumption. intros Eq. rewrite Eq in D. discriminate.
Qed.
Theorem C92_totals : forall c t s nu dt m nodes ops x x', s <> 0 -> make_multi c t s nu dt = Ok m -> NoDup nodes ->
  moves_keep_totals (stencil_of t s) nodes ops -> ms_first x = true -> perform m nodes ops x = Ok x' ->
  let st := stencil_of t s in
  total_mass st nodes (fl_f (ms_x x')) = total_mass st nodes (fl_f (ms_x x)) /\
  forall a, (a < st_D st)%nat -> total_momentum st nodes (fl_f (ms_x x')) a = total_momentum st nodes (fl_f (ms_x x)) a.
Proof. exact totals_all. Qed.
Print Assumptions C92_totals.
Example C92_totals_ex : make_multi ADAMSMOULTON4 Stencil_D2Q9 1 1 1 = Ok (the_multi ADAMSMOULTON4 Stencil_D2Q9) /\
  moves_keep_totals (D2Q9 1) [0%nat; 1%nat] [Collide; Move swap; Collide] /\
  exists x', perform (the_multi ADAMSMOULTON4 Stencil_D2Q9) [0%nat; 1%nat] [Collide; Move swap; Collide] (pair_of still rest9) = Ok x'.
Proof.
  split; [apply the_multi_made|]. split.
  - intros T [E|[E|[E|[]]]]; try discriminate. injection E as <-. exact swap_keeps.
  - destruct local_mass as (y & x' & E1 & E2 & _). exists x'. cbn [perform] in E1 |- *.
    destruct (multi_collideAll _ _ _ (pair_of still rest9)) as [z| |]; try discriminate. cbn [obind] in E1 |- *. injection E1 as ->. rewrite E2. reflexivity.
Qed.

(** ** C93: mass and momentum of a node. *)
Lemma nodes_conserved c s nu dt m nodes x : s <> 0 -> make_multi c Stencil_D2Q9 s nu dt = Ok m -> NoDup nodes -> ms_first x = true ->
  (forall n, In n nodes -> 1 / 10^10 <= mass (D2Q9 s) (fl_f (ms_x x) n)) ->
  forall k, exists x', collide_times m nodes k x = Ok x' /\ forall n, In n nodes -> conserves (D2Q9 s) (fl_f (ms_x x) n) (fl_f (ms_x x') n).
Proof.
  intros Hs Hm Hnd Hx Hd k. destruct (made _ _ _ _ _ Hm) as (Hn & Hdt & Ec & En & Et & Es & Ed & Ef). rewrite <- Es in *.
  destruct (times_run m nodes Et Hs Ef Hnd k x Hx Hd) as (x' & E & _ & A). exists x'. split; [exact E|].
  intros n Hn'. exact (at_step_moments m Hs Ef _ _ _ _ (dens_neq0 _ (Hd n Hn')) (A n Hn')).
Qed.
Theorem C93_collisions_partial : forall c s nu dt m nodes x, s <> 0 -> make_multi c Stencil_D2Q9 s nu dt = Ok m -> NoDup nodes -> ms_first x = true ->
  (forall n, In n nodes -> 1 / 10^10 <= mass (D2Q9 s) (fl_f (ms_x x) n)) ->
  forall k, exists x', collide_times m nodes k x = Ok x' /\ forall n, In n nodes -> conserves (D2Q9 s) (fl_f (ms_x x) n) (fl_f (ms_x x') n).
Proof. exact nodes_conserved. Qed.
Print Assumptions C93_collisions_partial.
Example C93_collisions_partial_ex : forall n, In n [0%nat; 1%nat] -> 1 / 10^10 <= mass (D2Q9 1) (fl_f (ms_x (pair_of still rest9)) n).
Proof. intros n [<-|[<-|[]]]; cbn [ms_x pair_of fresh fl_f]; [rewrite still_mass|rewrite rest_mass]; exact ten. Qed.

(** Once the populations have been moved, a collision changes the density of a node. *)
Theorem C93_moved_refuted : exists m y x', make_multi ADAMSMOULTON4 Stencil_D2Q9 1 1 1 = Ok m /\ keeps_totals (D2Q9 1) [0%nat; 1%nat] swap /\
  perform m [0%nat; 1%nat] [Collide; Move swap] (pair_of still rest9) = Ok y /\ multi_collideAll m false [0%nat; 1%nat] y = Ok x' /\
  mass (D2Q9 1) (fl_f (ms_x x') 0%nat) <> mass (D2Q9 1) (fl_f (ms_x y) 0%nat).
Proof.
  destruct local_mass as (y & x' & E1 & E2 & E3). exists (the_multi ADAMSMOULTON4 Stencil_D2Q9), y, x'.
  split; [apply the_multi_made|]. split; [exact swap_keeps|]. split; [exact E1|]. split; [exact E2|]. rewrite E3. lra.
Qed.
Print Assumptions C93_moved_refuted.

(** ** C94: the collisions are the multistep method for the BGK equation. *)
Theorem C94_method_partial : forall c s nu dt m nodes, s <> 0 -> make_multi c Stencil_D2Q9 s nu dt = Ok m -> NoDup nodes ->
  forall x, ms_first x = true -> (forall n, In n nodes -> 1 / 10^10 <= mass (D2Q9 s) (fl_f (ms_x x) n)) ->
  forall n i, In n nodes -> (i < 9)%nat ->
  let e := equilibrium (D2Q9 s) (fl_f (ms_x x) n) i in
  let lambda := nu / st_cs2 (D2Q9 s) in
  exists y, multistep_method c lambda dt e y /\
    forall k, exists x', collide_times m nodes k x = Ok x' /\ fl_f (ms_x x') n i = y k + implicit_weight c * dt / lambda * (y k - e).
Proof. exact solver_method. Qed.
Print Assumptions C94_method_partial.
Example C94_method_partial_ex : equilibrium (D2Q9 1) still 0 = 4/9 /\ still 0%nat = 1 /\ forall n, In n [0%nat] -> 1 / 10^10 <= mass (D2Q9 1) (fl_f (ms_x (at_node still)) n).
Proof.
  split; [rewrite quiet_equilibrium; [reflexivity|apply still_mass|apply still_momentum|lia]|]. split; [reflexivity|].
  intros n [<-|[]]. cbn [at_node ms_x fresh fl_f]. rewrite still_mass. exact ten.
Qed.

(** ** C95: collisions lead to the equilibrium. *)
Lemma bdf2_all s nu dt m nodes x n i : s <> 0 -> make_multi BDF2 Stencil_D2Q9 s nu dt = Ok m -> NoDup nodes -> ms_first x = true ->
  (forall n, In n nodes -> 1 / 10^10 <= mass (D2Q9 s) (fl_f (ms_x x) n)) -> In n nodes -> (i < 9)%nat ->
  settles m nodes x n i (equilibrium (D2Q9 s) (fl_f (ms_x x) n) i).
Proof. intros Hs Hm Hnd Hx Hd Hn Hi. apply (solver_settles BDF2 s nu dt m nodes Hs Hm Hnd x Hx Hd n i Hn Hi). exact (bdf2_settles BDF2 s nu dt m Hs Hm eq_refl). Qed.
Theorem C95_bdf2_partial : forall s nu dt m nodes x n i, s <> 0 -> make_multi BDF2 Stencil_D2Q9 s nu dt = Ok m -> NoDup nodes -> ms_first x = true ->
  (forall n, In n nodes -> 1 / 10^10 <= mass (D2Q9 s) (fl_f (ms_x x) n)) -> In n nodes -> (i < 9)%nat ->
  settles m nodes x n i (equilibrium (D2Q9 s) (fl_f (ms_x x) n) i).
Proof. exact bdf2_all. Qed.
Print Assumptions C95_bdf2_partial.
Example C95_bdf2_partial_ex : make_multi BDF2 Stencil_D2Q9 1 1 1 = Ok (the_multi BDF2 Stencil_D2Q9) /\ still 0%nat <> equilibrium (D2Q9 1) still 0.
Proof. split; [apply the_multi_made|]. rewrite quiet_equilibrium; [|apply still_mass|apply still_momentum|lia]. unfold still, rest9, vec. cbn [nth]. lra. Qed.

(** Adams-Moulton: exactly when nu / (cs2 dt) is above 1/6. *)
Lemma am4_all s nu dt m nodes x n i : s <> 0 -> make_multi ADAMSMOULTON4 Stencil_D2Q9 s nu dt = Ok m -> NoDup nodes -> ms_first x = true ->
  (forall n, In n nodes -> 1 / 10^10 <= mass (D2Q9 s) (fl_f (ms_x x) n)) -> In n nodes -> (i < 9)%nat ->
  fl_f (ms_x x) n i <> equilibrium (D2Q9 s) (fl_f (ms_x x) n) i ->
  (settles m nodes x n i (equilibrium (D2Q9 s) (fl_f (ms_x x) n) i) <-> 1/6 < nu / (st_cs2 (D2Q9 s) * dt)).
Proof.
  intros Hs Hm Hnd Hx Hd Hn Hi Hne. split.
  - intros Hset. destruct (Rlt_dec (1/6) (nu / (st_cs2 (D2Q9 s) * dt))) as [L|L]; [exact L|exfalso].
    apply (solver_never ADAMSMOULTON4 s nu dt m nodes Hs Hm Hnd x Hx Hd n i Hn Hi eq_refl); [unfold ratio; lra|exact Hne|exact Hset].
  - intros HL. apply (solver_settles ADAMSMOULTON4 s nu dt m nodes Hs Hm Hnd x Hx Hd n i Hn Hi).
    exact (am4_settles ADAMSMOULTON4 s nu dt m Hs Hm eq_refl HL).
Qed.
Theorem C95_am4_partial : forall s nu dt m nodes x n i, s <> 0 -> make_multi ADAMSMOULTON4 Stencil_D2Q9 s nu dt = Ok m -> NoDup nodes -> ms_first x = true ->
  (forall n, In n nodes -> 1 / 10^10 <= mass (D2Q9 s) (fl_f (ms_x x) n)) -> In n nodes -> (i < 9)%nat ->
  fl_f (ms_x x) n i <> equilibrium (D2Q9 s) (fl_f (ms_x x) n) i ->
  (settles m nodes x n i (equilibrium (D2Q9 s) (fl_f (ms_x x) n) i) <-> 1/6 < nu / (st_cs2 (D2Q9 s) * dt)).
Proof. exact am4_all. Qed.
Print Assumptions C95_am4_partial.
Example C95_am4_partial_ex : make_multi ADAMSMOULTON4 Stencil_D2Q9 1 1 1 = Ok (the_multi ADAMSMOULTON4 Stencil_D2Q9) /\ 1/6 < 1 / (st_cs2 (D2Q9 1) * 1).
Proof. split; [apply the_multi_made|]. cbn [D2Q9 st_cs2]. replace (1 / (1 * 1 / 3 * 1)) with 3 by field. lra. Qed.

(** For a small viscosity the populations leave every bound. *)
Lemma am4_refuted : exists m, make_multi ADAMSMOULTON4 Stencil_D2Q9 1 (1/36) 1 = Ok m /\ blows_up m [0%nat] (at_node still) 0 0.
Proof.
  assert (Hm : exists m, make_multi ADAMSMOULTON4 Stencil_D2Q9 1 (1/36) 1 = Ok m).
  { unfold make_multi, calculateRelaxationParameter. destruct (Rlt_dec 0 (1/36)); [|lra]. destruct (Rlt_dec 0 1); [|lra]. eexists. reflexivity. }
  destruct Hm as [m Hm]. exists m. split; [exact Hm|].
  apply (solver_blows_up ADAMSMOULTON4 1 (1/36) 1 m [0%nat] R1_neq_R0 Hm); try reflexivity.
  - repeat constructor; cbn; tauto.
  - intros n [<-|[]]. cbn [at_node ms_x fresh fl_f]. rewrite still_mass. exact ten.
  - left. reflexivity.
  - lia.
  - unfold ratio. cbn [D2Q9 st_cs2]. lra.
  - cbn [at_node ms_x fresh fl_f]. rewrite quiet_equilibrium; [|apply still_mass|apply still_momentum|lia]. unfold still, rest9, vec. cbn [nth]. lra.
Qed.
Theorem C95_am4_refuted : exists m, make_multi ADAMSMOULTON4 Stencil_D2Q9 1 (1/36) 1 = Ok m /\ blows_up m [0%nat] (at_node still) 0 0.
Proof. exact am4_refuted. Qed.
Print Assumptions C95_am4_refuted.

(** Equilibria stay, whatever scheme and viscosity. *)
Lemma multi_fixed c s nu dt m nodes x : s <> 0 -> make_multi c Stencil_D2Q9 s nu dt = Ok m -> NoDup nodes -> ms_first x = true ->
  (forall n, In n nodes -> 1 / 10^10 <= mass (D2Q9 s) (fl_f (ms_x x) n)) ->
  (forall n i, In n nodes -> (i < 9)%nat -> fl_f (ms_x x) n i = equilibrium (D2Q9 s) (fl_f (ms_x x) n) i) ->
  forall k, exists x', collide_times m nodes k x = Ok x' /\ forall n, In n nodes -> same_populations (D2Q9 s) (fl_f (ms_x x) n) (fl_f (ms_x x') n).
Proof.
  intros Hs Hm Hnd Hx Hd He k. destruct (solver_run c s nu dt m nodes Hs Hm Hnd x Hx Hd k) as (x' & E & A). exists x'. split; [exact E|].
  intros n Hn i Hi. rewrite (A n i Hn Hi), <- (He n i Hn Hi). ring.
Qed.
Theorem C95_fixed_partial : forall c s nu dt m nodes x, s <> 0 -> make_multi c Stencil_D2Q9 s nu dt = Ok m -> NoDup nodes -> ms_first x = true ->
  (forall n, In n nodes -> 1 / 10^10 <= mass (D2Q9 s) (fl_f (ms_x x) n)) ->
  (forall n i, In n nodes -> (i < 9)%nat -> fl_f (ms_x x) n i = equilibrium (D2Q9 s) (fl_f (ms_x x) n) i) ->
  forall k, exists x', collide_times m nodes k x = Ok x' /\ forall n, In n nodes -> same_populations (D2Q9 s) (fl_f (ms_x x) n) (fl_f (ms_x x') n).
Proof. exact multi_fixed. Qed.
Print Assumptions C95_fixed_partial.
Example C95_fixed_partial_ex : forall n i, In n [0%nat] -> (i < 9)%nat -> fl_f (ms_x (at_node rest9)) n i = equilibrium (D2Q9 1) (fl_f (ms_x (at_node rest9)) n) i.
Proof. intros n i _ Hi. cbn [at_node ms_x fresh fl_f]. rewrite quiet_equilibrium; [reflexivity|apply rest_mass|apply rest_momentum|exact Hi]. Qed.

(** ** C96: the first collision against BGKStandard. *)
Theorem C96_first_partial : forall c s nu dt m nodes, s <> 0 -> make_multi c Stencil_D2Q9 s nu dt = Ok m -> NoDup nodes ->
  forall o x x' y', make_old BGKStandard Stencil_D2Q9 s nu dt = Ok o -> ms_first x = true ->
  multi_collideAll m false nodes x = Ok x' -> old_collideAll BGKStandard o false nodes (ms_x x) = Ok y' ->
  forall n i, In n nodes -> (i < 9)%nat ->
    (fl_f (ms_x x') n i = fl_f y' n i <-> fl_f (ms_x x) n i = equilibrium (D2Q9 s) (fl_f (ms_x x) n) i).
Proof. exact first_vs_bgk. Qed.
Print Assumptions C96_first_partial.
Lemma first_runs : exists o x' y', make_old BGKStandard Stencil_D2Q9 1 1 1 = Ok o /\
  multi_collideAll (the_multi BDF2 Stencil_D2Q9) false [0%nat] (at_node still) = Ok x' /\
  old_collideAll BGKStandard o false [0%nat] (ms_x (at_node still)) = Ok y'.
Proof.
  exists (old_new Stencil_D2Q9 1 (1 / (1 * st_cs2 (D2Q9 1))) 1).
  destruct (multi_runs (the_multi BDF2 Stencil_D2Q9) [0%nat] (at_node still) eq_refl) as [x' Hx'].
  { repeat constructor; cbn; tauto. }
  { intros n [<-|[]]. change (1 / 10^10 <= mass (D2Q9 1) still). rewrite still_mass. exact ten. }
  exists x'. unfold make_old, calculateRelaxationParameter. destruct (Rlt_dec 0 1); [|lra]. cbn [obind stencil_of].
  unfold old_collideAll. cbn [old_supported old_loop old_node]. unfold node_standard. cbn [old_new om_t]. unfold node_standard_D2Q9.
  change (sumf 9 (fl_f (ms_x (at_node still)) 0)) with (mass (D2Q9 1) still). rewrite still_mass, ProofOldNode.checked_ok by exact ten.
  destruct (force_velocities _ _ _) as [w v]. cbn [obind]. eexists. split; [reflexivity|]. split; [exact Hx'|reflexivity].
Qed.
Example C96_first_partial_ex : exists o x' y', make_old BGKStandard Stencil_D2Q9 1 1 1 = Ok o /\
  multi_collideAll (the_multi BDF2 Stencil_D2Q9) false [0%nat] (at_node still) = Ok x' /\
  old_collideAll BGKStandard o false [0%nat] (ms_x (at_node still)) = Ok y'.
Proof. exact first_runs. Qed.
Theorem C96_first_refuted : exists m o x x' y', make_multi BDF2 Stencil_D2Q9 1 1 1 = Ok m /\ make_old BGKStandard Stencil_D2Q9 1 1 1 = Ok o /\
  ms_first x = true /\ multi_collideAll m false [0%nat] x = Ok x' /\ old_collideAll BGKStandard o false [0%nat] (ms_x x) = Ok y' /\
  fl_f (ms_x x') 0%nat 0%nat <> fl_f y' 0%nat 0%nat.
Proof.
  destruct first_runs as (o & x' & y' & E1 & E2 & E3). exists (the_multi BDF2 Stencil_D2Q9), o, (at_node still), x', y'.
  split; [apply the_multi_made|]. split; [exact E1|]. split; [reflexivity|]. split; [exact E2|]. split; [exact E3|].
  intros E. apply (first_vs_bgk BDF2 1 1 1 _ [0%nat] R1_neq_R0 (the_multi_made _ _) (ltac:(repeat constructor; cbn; tauto)) o (at_node still) _ _ E1 eq_refl E2 E3 0%nat 0%nat) in E; [|left; reflexivity|lia].
  cbn [at_node ms_x fresh fl_f] in E. rewrite quiet_equilibrium in E; [|apply still_mass|apply still_momentum|lia]. unfold still, rest9, vec in E. cbn [nth] in E. lra.
Qed.
Print Assumptions C96_first_refuted.

(** ** C97: forces. *)
Lemma exact_am4 s nu dt m F nodes ops x x' : s <> 0 -> make_multi ADAMSMOULTON4 Stencil_D2Q9 s nu dt = Ok m -> NoDup nodes ->
  moves_keep_totals (D2Q9 s) nodes ops -> ms_first x = true -> perform (multi_force m EXACT_DIFFERENCE F) nodes ops x = Ok x' ->
  forall a, (a < 2)%nat -> total_momentum (D2Q9 s) nodes (fl_f (ms_x x')) a
    = total_momentum (D2Q9 s) nodes (fl_f (ms_x x)) a + INR (collisions ops) * (INR (length nodes) * (dt * F a)).
Proof.
  intros Hs Hm Hnd HT Hf H a Ha. destruct (made_force _ _ _ _ _ EXACT_DIFFERENCE F Hm) as (Et & Es & Ed & Eft & EF & Ec & _). cbv zeta in *.
  set (m' := multi_force m EXACT_DIFFERENCE F) in *. rewrite <- Es in Hs, HT |- *. rewrite <- Ed, <- EF.
  apply (exact_perform m' nodes Et Hs Hnd Eft Ec ops); try assumption.
  intros b Hb. unfold hist_F, hist_FEq. rewrite Hf. reflexivity.
Qed.
Theorem C97_am4_exact : forall s nu dt m F nodes ops x x', s <> 0 -> make_multi ADAMSMOULTON4 Stencil_D2Q9 s nu dt = Ok m -> NoDup nodes ->
  moves_keep_totals (D2Q9 s) nodes ops -> ms_first x = true -> perform (multi_force m EXACT_DIFFERENCE F) nodes ops x = Ok x' ->
  forall a, (a < 2)%nat -> total_momentum (D2Q9 s) nodes (fl_f (ms_x x')) a
    = total_momentum (D2Q9 s) nodes (fl_f (ms_x x)) a + INR (collisions ops) * (INR (length nodes) * (dt * F a)).
Proof. exact exact_am4. Qed.
Print Assumptions C97_am4_exact.
Example C97_am4_exact_ex : exists x', perform (forced_multi ADAMSMOULTON4 EXACT_DIFFERENCE) [0%nat] [Collide] (at_node rest9) = Ok x'.
Proof. destruct (forced_runs ADAMSMOULTON4 EXACT_DIFFERENCE) as [x' E]. exists x'. cbn [perform]. rewrite E. reflexivity. Qed.

(** With BDF2 the same force scheme gives one and a half times the force in the long run. *)
Lemma exact_bdf2 s nu dt m F nodes k x x' n a : s <> 0 -> make_multi BDF2 Stencil_D2Q9 s nu dt = Ok m -> NoDup nodes ->
  ms_first x = true -> In n nodes -> (a < 2)%nat -> collide_times (multi_force m EXACT_DIFFERENCE F) nodes k x = Ok x' ->
  momentum (D2Q9 s) (fl_f (ms_x x') n) a
    = momentum (D2Q9 s) (fl_f (ms_x x) n) a + (3/2 * INR k - 3/4 * (1 - (1/3) ^ k)) * (dt * F a).
Proof.
  intros Hs Hm Hnd Hf Hn Ha H. destruct (made_force _ _ _ _ _ EXACT_DIFFERENCE F Hm) as (Et & Es & Ed & Eft & EF & Ec & _). cbv zeta in *.
  set (m' := multi_force m EXACT_DIFFERENCE F) in *. rewrite <- Es in Hs |- *. rewrite <- Ed, <- EF.
  destruct (bdf_times m' nodes Et Hs Hnd Eft Ec k x x' n a Hf Hn Ha H) as (_ & E & _). exact E.
Qed.
Theorem C97_bdf2_exact_partial : forall s nu dt m F nodes k x x' n a, s <> 0 -> make_multi BDF2 Stencil_D2Q9 s nu dt = Ok m -> NoDup nodes ->
  ms_first x = true -> In n nodes -> (a < 2)%nat -> collide_times (multi_force m EXACT_DIFFERENCE F) nodes k x = Ok x' ->
  momentum (D2Q9 s) (fl_f (ms_x x') n) a
    = momentum (D2Q9 s) (fl_f (ms_x x) n) a + (3/2 * INR k - 3/4 * (1 - (1/3) ^ k)) * (dt * F a).
Proof. exact exact_bdf2. Qed.
Print Assumptions C97_bdf2_exact_partial.
Lemma bdf2_twice : exists x', collide_times (forced_multi BDF2 EXACT_DIFFERENCE) [0%nat] 2 (at_node rest9) = Ok x'.
Proof.
  set (m := forced_multi BDF2 EXACT_DIFFERENCE). assert (Hnd : NoDup [0%nat]) by (repeat constructor; cbn; tauto). assert (H1 : 1 <> 0) by lra.
  destruct (forced_runs BDF2 EXACT_DIFFERENCE) as [y E]. fold m in E.
  destruct (multi_ok m [0%nat] _ y eq_refl Hnd E) as (Fy & A & _). destruct (A 0%nat (or_introl eq_refl)) as (r & Hr & E1 & _).
  pose proof (node_mass m eq_refl H1 _ _ _ _ Hr) as NM. change (D2Q9 (om_s (mu_m m))) with (D2Q9 1) in NM.
  change (fl_f (ms_x (at_node rest9)) 0%nat) with rest9 in NM. change (hist_F (at_node rest9) 0%nat) with rest9 in NM. change (hist_FEq (at_node rest9) 0%nat) with rest9 in NM.
  assert (Hq : mass (D2Q9 1) rest9 <> 0) by (rewrite rest_mass; lra).
  pose proof (ProofOldForce.edm_mass wind (multi_v m rest9) (mass (D2Q9 1) rest9) 1 1 eq_refl Hq) as EM.
  change (mass (D2Q9 1) (multi_source m (mass (D2Q9 1) rest9) (multi_v m rest9)) = 0) in EM. rewrite EM, rest_mass in NM.
  destruct (multi_runs m [0%nat] y eq_refl Hnd) as [x' Hx'].
  { intros n [<-|[]]. change (D2Q9 (om_s (mu_m m))) with (D2Q9 1). rewrite E1, NM. change (adv_f m) with (4/3). change (adv_F m) with (- (1/3)). pose proof ten. lra. }
  exists x'. cbn [collide_times]. rewrite E. cbn [obind]. rewrite Hx'. reflexivity.
Qed.
Example C97_bdf2_exact_partial_ex : exists x', collide_times (forced_multi BDF2 EXACT_DIFFERENCE) [0%nat] 2 (at_node rest9) = Ok x'.
Proof. exact bdf2_twice. Qed.
Theorem C97_bdf2_refuted : exists m x x', make_multi BDF2 Stencil_D2Q9 1 1 1 = Ok m /\ ms_first x = true /\
  collide_times (multi_force m EXACT_DIFFERENCE wind) [0%nat] 2 x = Ok x' /\
  momentum (D2Q9 1) (fl_f (ms_x x') 0%nat) 0 <> momentum (D2Q9 1) (fl_f (ms_x x) 0%nat) 0 + 2 * (1 * wind 0).
Proof.
  destruct bdf2_twice as [x' E]. exists (the_multi BDF2 Stencil_D2Q9), (at_node rest9), x'. split; [apply the_multi_made|]. split; [reflexivity|]. split; [exact E|].
  rewrite (exact_bdf2 1 1 1 (the_multi BDF2 Stencil_D2Q9) wind [0%nat] 2 (at_node rest9) x' 0 0); [|lra|apply the_multi_made|repeat constructor; cbn; tauto|reflexivity|left; reflexivity|lia|exact E].
  unfold wind. cbn [INR pow]. intros X. lra.
Qed.
Print Assumptions C97_bdf2_refuted.

(** The other two force schemes give the wrong momentum for every viscosity and time step. *)
Lemma first_force c s nu dt m F nodes ft x x' n a : s <> 0 -> make_multi c Stencil_D2Q9 s nu dt = Ok m -> NoDup nodes -> ft = SHIFTING_VELOCITY \/ ft = GUO ->
  ms_first x = true -> In n nodes -> (a < 2)%nat -> F a <> 0 -> multi_collideAll (multi_force m ft F) false nodes x = Ok x' ->
  momentum (D2Q9 s) (fl_f (ms_x x') n) a <> momentum (D2Q9 s) (fl_f (ms_x x) n) a + dt * F a.
Proof.
  intros Hs Hm Hnd Hft Hf Hn Ha HF H. destruct (made_force _ _ _ _ _ ft F Hm) as (Et & Es & Ed & Eft & EF & Ec & E0 & E1). cbv zeta in *.
  pose proof (factor_differs c s nu dt m Hs Hm) as Hne. destruct (made _ _ _ _ _ Hm) as (_ & Hdt & _).
  assert (Hrf : relax_factor m <> 0). { rewrite (relax_ok c s nu dt m Hs Hm). pose proof (ratio_pos c s nu dt m Hs Hm).
    unfold Rdiv. apply Rmult_integral_contrapositive_currified; [lra|apply Rinv_neq_0_compat; lra]. }
  assert (Hx : dt * F a <> 0) by (apply Rmult_integral_contrapositive_currified; [lra|exact HF]).
  destruct Hft as [->| ->].
  - pose proof (shifting_first (multi_force m SHIFTING_VELOCITY F) nodes Et (ltac:(rewrite Es; exact Hs)) Hnd x x' n a Eft) as Q.
    rewrite E1 in Q. specialize (Q Hrf Hf Hn Ha H). rewrite Es, Ed, EF, E0 in Q. rewrite Q. intros X.
    assert (Z : (factor0 m / relax_factor m - 1) * (dt * F a) = 0) by lra. apply Rmult_integral in Z. destruct Z as [Z|Z]; [|contradiction].
    apply Hne. apply (Rmult_eq_reg_r (/ relax_factor m)); [|apply Rinv_neq_0_compat; exact Hrf]. rewrite Rinv_r by exact Hrf. unfold Rdiv in Z. lra.
  - pose proof (guo_first (multi_force m GUO F) nodes Et (ltac:(rewrite Es; exact Hs)) Hnd x x' n a Eft Hf Hn Ha H) as Q.
    rewrite Es, Ed, EF, E0, E1 in Q. rewrite Q. intros X.
    assert (Z : ((relax_factor m - factor0 m) / 2) * (dt * F a) = 0) by lra. apply Rmult_integral in Z. destruct Z as [Z|Z]; [|contradiction].
    apply Hne. lra.
Qed.
Theorem C97_other_schemes : forall c s nu dt m F nodes ft x x' n a, s <> 0 -> make_multi c Stencil_D2Q9 s nu dt = Ok m -> NoDup nodes -> ft = SHIFTING_VELOCITY \/ ft = GUO ->
  ms_first x = true -> In n nodes -> (a < 2)%nat -> F a <> 0 -> multi_collideAll (multi_force m ft F) false nodes x = Ok x' ->
  momentum (D2Q9 s) (fl_f (ms_x x') n) a <> momentum (D2Q9 s) (fl_f (ms_x x) n) a + dt * F a.
Proof. exact first_force. Qed.
Print Assumptions C97_other_schemes.
Example C97_other_schemes_ex : wind 0 <> 0 /\ forall c ft, exists x', multi_collideAll (multi_force (the_multi c Stencil_D2Q9) ft wind) false [0%nat] (at_node rest9) = Ok x'.
Proof. split; [unfold wind; lra|exact forced_runs]. Qed.

(** ** C98: every stencil. *)
Theorem C98_only_D2Q9 : forall c t s nu dt m nodes k x x', t <> Stencil_D2Q9 -> make_multi c t s nu dt = Ok m ->
  collide_times m nodes k x = Ok x' -> fl_f (ms_x x') = fl_f (ms_x x).
Proof.
  intros c t s nu dt m nodes k x x' Ht Hm. apply no_collision_times. unfold make_multi in Hm.
  destruct (calculateRelaxationParameter BGKStandard nu dt (stencil_of t s)); try discriminate. cbn [obind] in Hm. injection Hm as <-. exact Ht.
Qed.
Print Assumptions C98_only_D2Q9.
Lemma cube : exists x', multi_collideAll (the_multi BDF2 Stencil_D3Q19) false [0%nat] (at_node still) = Ok x'.
Proof.
  unfold multi_collideAll. change (om_t (mu_m (the_multi BDF2 Stencil_D3Q19))) with Stencil_D3Q19. cbv beta iota.
  cbn [multi_loop_D3Q19]. unfold multi_node_D3Q19.
  assert (E : sumf 19 (fl_f (ms_x (start_history (reinit (at_node still)))) 0%nat) = 1) by (cbn [at_node fresh reinit start_history ms_first ms_x fl_f sumf]; unfold still; lra).
  rewrite E, ProofOldNode.checked_ok by exact ten. cbn [obind]. eexists. reflexivity.
Qed.
Example C98_only_D2Q9_ex : exists x', collide_times (the_multi BDF2 Stencil_D3Q19) [0%nat] 1 (at_node still) = Ok x'.
Proof. destruct cube as [x' E]. exists x'. cbn [collide_times]. rewrite E. reflexivity. Qed.

(** Populations far from equilibrium do not move on D3Q19. *)
Theorem C98_D3Q19_refuted : exists m x x', make_multi BDF2 Stencil_D3Q19 1 1 1 = Ok m /\ multi_collideAll m false [0%nat] x = Ok x' /\
  (forall i, fl_f (ms_x x') 0%nat i = fl_f (ms_x x) 0%nat i) /\ fl_f (ms_x x) 0%nat 0%nat <> equilibrium (D3Q19 1) (fl_f (ms_x x) 0%nat) 0.
Proof.
  destruct cube as [x' E]. exists (the_multi BDF2 Stencil_D3Q19), (at_node still), x'. split; [apply the_multi_made|]. split; [exact E|].
  split; [intros i; rewrite (no_collision (the_multi BDF2 Stencil_D3Q19) false [0%nat] (at_node still) x' (ltac:(discriminate)) E); reflexivity|].
  cbn [at_node ms_x fresh fl_f]. unfold equilibrium, mass, momentum, dot, still. cbn [D3Q19 st_D st_Q st_w st_e st_cs2 sumf]. cbv zeta.
  lit15. intros X. lra.
Qed.
Print Assumptions C98_D3Q19_refuted.

(** C94 is false of D3Q19: no solution of BDF2 fits populations that do not change (missing in C94_method_partial: D3Q19, the
    other stencil with an implementation). *)
Theorem C94_D3Q19_refuted : exists m nodes x n i, make_multi BDF2 Stencil_D3Q19 1 1 1 = Ok m /\ NoDup nodes /\ ms_first x = true /\
  (forall n, In n nodes -> 1 / 10^10 <= mass (D3Q19 1) (fl_f (ms_x x) n)) /\ In n nodes /\ (i < 19)%nat /\
  let e := equilibrium (D3Q19 1) (fl_f (ms_x x) n) i in
  let lambda := 1 / st_cs2 (D3Q19 1) in
  ~ exists y, multistep_method BDF2 lambda 1 e y /\
    forall k, exists x', collide_times m nodes k x = Ok x' /\ fl_f (ms_x x') n i = y k + implicit_weight BDF2 * 1 / lambda * (y k - e).
Proof.
  exists (the_multi BDF2 Stencil_D3Q19), [0%nat], (at_node still), 0%nat, 0%nat.
  split; [apply the_multi_made|]. split; [repeat constructor; cbn; tauto|]. split; [reflexivity|].
  split; [intros n [<-|[]]; cbn [at_node ms_x fresh fl_f]; unfold mass; cbn [D3Q19 st_Q sumf]; unfold still; pose proof ten; lra|].
  split; [now left|]. split; [lia|]. cbv zeta.
  assert (Ee : equilibrium (D3Q19 1) (fl_f (ms_x (at_node still)) 0%nat) 0 = 1/3).
  { cbn [at_node ms_x fresh fl_f]. unfold equilibrium, mass, momentum, dot, still. cbn [D3Q19 st_D st_Q st_w st_e st_cs2 sumf]. cbv zeta. lit15. field. }
  rewrite Ee. replace (st_cs2 (D3Q19 1)) with (1/3) by (cbn [D3Q19 st_cs2]; lit15; field). intros (y & B & H).
  assert (C : forall k, 1 = y k + 2/3 * 1 / (1 / (1/3)) * (y k - 1/3)).
  { intros k. destruct (H k) as (x' & E & V). rewrite (no_collision_times (the_multi BDF2 Stencil_D3Q19) [0%nat] k (ltac:(discriminate)) _ _ E) in V.
    cbn [at_node ms_x fresh fl_f implicit_weight] in V. rewrite <- V. reflexivity. }
  cbn [multistep_method] in B. unfold bdf2 in B. pose proof (C 0%nat) as C0. pose proof (C 1%nat) as C1. pose proof (C 2%nat) as C2. specialize (B 0%nat). clear - B C0 C1 C2.
  assert (Q : forall z, 2/3 * 1 / (1 / (1/3)) * z = 2/9 * z) by (intros; field). rewrite Q in C0, C1, C2.
  assert (Q' : forall z, - (1) / (1 / (1/3)) * z = - (1/3) * z) by (intros; field). rewrite Q' in B. lra.
Qed.
Print Assumptions C94_D3Q19_refuted.

(** On all other stencils nothing is done and nothing reported. *)
Theorem C98_silent_refuted : exists t m x x', make_multi BDF2 t 1 1 1 = Ok m /\ multi_collideAll m false [0%nat] x = Ok x' /\ ms_x x' = ms_x x /\
  fl_rho (ms_x x') 0%nat <> mass (stencil_of t 1) (fl_f (ms_x x) 0%nat).
Proof.
  set (x := at_node (fun i => match i with O => 2 | _ => 0 end)).
  destruct (silent (the_multi BDF2 Stencil_D3Q15) false [0%nat] x) as (x' & E & Ex); try discriminate.
  exists Stencil_D3Q15, (the_multi BDF2 Stencil_D3Q15), x, x'. split; [apply the_multi_made|]. split; [exact E|]. split; [exact Ex|].
  rewrite Ex. unfold x, mass. cbn [at_node ms_x fresh fl_rho fl_f stencil_of D3Q15 st_Q sumf]. lra.
Qed.
Print Assumptions C98_silent_refuted.

(** ** C99: the initialisation. *)
Theorem C99_init_refuted : exists c t m x, make_multi c t 1 1 1 = Ok m /\ multi_collideAll m false [0%nat] x <> UB /\ multi_collideAll m true [0%nat] x = UB.
Proof.
  exists BDF2, Stencil_D3Q19, (the_multi BDF2 Stencil_D3Q19), (at_node still). split; [apply the_multi_made|]. split.
  - destruct cube as [x' E]. rewrite E. discriminate.
  - apply init_ub; [right; reflexivity|]. cbn [the_multi mu_m old_new om_t om_s stencil_of at_node ms_x fresh fl_f]. unfold mass. cbn [D3Q19 st_Q sumf]. unfold still. pose proof ten. lra.
Qed.
Print Assumptions C99_init_refuted.
(** For every configuration, and every node whose density passes the check. *)
Theorem C99_init_always : forall c t s nu dt m n rest x, t = Stencil_D2Q9 \/ t = Stencil_D3Q19 -> make_multi c t s nu dt = Ok m ->
  1 / 10^10 <= mass (stencil_of t s) (fl_f (ms_x x) n) -> multi_collideAll m true (n :: rest) x = UB.
Proof.
  intros c t s nu dt m n rest x Ht Hm. unfold make_multi in Hm.
  destruct (calculateRelaxationParameter BGKStandard nu dt (stencil_of t s)); try discriminate. cbn [obind] in Hm. injection Hm as <-. intros Hd. apply init_ub; [exact Ht|exact Hd].
Qed.
Print Assumptions C99_init_always.
Example C99_init_always_ex : 1 / 10^10 <= mass (D2Q9 1) (fl_f (ms_x (at_node still)) 0%nat).
Proof. cbn [at_node ms_x fresh fl_f]. rewrite still_mass. exact ten. Qed.
