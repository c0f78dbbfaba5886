(** From moments indexed by exponents to moments indexed by component tuples. *)
From Verif Require Import Prelude ModelStencils SpecStencils BigSum ProofStencils ProofStencilMoments.
Open Scope R_scope.

Definition cnt (l : list nat) (d : nat) : nat := count_occ Nat.eq_dec l d.
Definition counts (D : nat) (l : list nat) : list nat := map (cnt l) (seq 0 D).

Lemma counts_length D l : length (counts D l) = D.
Proof. unfold counts. rewrite map_length, seq_length. reflexivity. Qed.

Lemma sum_counts_gen l : forall L, NoDup L -> (forall x, In x l -> In x L) ->
  sum_list (map (cnt l) L) = length l.
Proof.
  induction l as [|x l IH]; intros L HL Hin.
  - cbn [length]. clear. induction L as [|y L IH]; [reflexivity|].
    cbn [map sum_list fold_right]. fold (sum_list (map (cnt []) L)). rewrite IH. reflexivity.
  - cbn [length]. rewrite <- (IH L) by (auto; intros; apply Hin; right; assumption).
    assert (HxL : In x L) by (apply Hin; left; reflexivity). clear IH Hin.
    revert HxL. induction HL as [|y L HyL HL IHL]; intros HxL; [contradiction|].
    cbn [map sum_list fold_right]. fold (sum_list (map (cnt (x :: l)) L)). fold (sum_list (map (cnt l) L)).
    unfold cnt at 1. cbn [count_occ]. destruct (Nat.eq_dec x y) as [->|Hne].
    + assert (E : forall L', ~ In y L' -> sum_list (map (cnt (y :: l)) L') = sum_list (map (cnt l) L')).
      { induction L' as [|z L' IH']; intros Hz; [reflexivity|].
        cbn [map sum_list fold_right]. fold (sum_list (map (cnt (y :: l)) L')). fold (sum_list (map (cnt l) L')).
        rewrite IH' by (intros ?; apply Hz; right; assumption).
        unfold cnt at 1. cbn [count_occ]. destruct (Nat.eq_dec y z) as [->|]; [exfalso; apply Hz; left; reflexivity|].
        reflexivity. }
      rewrite E by assumption. fold (cnt l y). lia.
    + destruct HxL as [->|HxL]; [congruence|]. rewrite IHL by assumption. fold (cnt l y). lia.
Qed.

Lemma sum_counts D l : Forall (fun a => (a < D)%nat) l -> sum_list (counts D l) = length l.
Proof.
  intros H. apply sum_counts_gen; [apply seq_NoDup|].
  intros x Hx. rewrite Forall_forall in H. apply in_seq. specialize (H x Hx). lia.
Qed.

Fixpoint prodl (f : nat -> R) (l : list nat) : R :=
  match l with [] => 1 | x :: r => f x * prodl f r end.

Lemma monomial_prodl st i c : forall n a, monomial st i a (map c (seq a n)) = prodl (fun d => st_e st i d ^ c d) (seq a n).
Proof. induction n as [|n IH]; intros a; [reflexivity|]. cbn [seq map monomial prodl]. rewrite IH. reflexivity. Qed.

Lemma prodl_ext f g L : (forall d, In d L -> f d = g d) -> prodl f L = prodl g L.
Proof.
  induction L as [|y L IH]; intros H; [reflexivity|]. cbn [prodl].
  rewrite (H y), IH; auto; [intros; apply H; right; assumption | left; reflexivity].
Qed.

Lemma prodl_pick f g c x L : NoDup L -> In x L ->
  f x = c * g x -> (forall d, In d L -> d <> x -> f d = g d) -> prodl f L = c * prodl g L.
Proof.
  induction 1 as [|y L HyL HL IH]; intros Hin Hx He; [contradiction|]. cbn [prodl].
  destruct (Nat.eq_dec y x) as [->|Hne].
  - rewrite Hx. rewrite (prodl_ext f g L); [ring|].
    intros d Hd. apply He; [right; assumption|]. intros ->. contradiction.
  - destruct Hin as [->|Hin]; [congruence|].
    rewrite (He y); [|left; reflexivity|assumption].
    rewrite IH; auto; [ring|]. intros; apply He; [right|]; assumption.
Qed.

Lemma eprod_monomial st i D l : Forall (fun a => (a < D)%nat) l ->
  eprod st i l = monomial st i 0 (counts D l).
Proof.
  unfold counts. rewrite monomial_prodl. induction l as [|x l IH]; intros H.
  - cbn [eprod]. symmetry. generalize (seq 0 D). induction l as [|y l IH]; [reflexivity|].
    cbn [prodl]. rewrite IH. cbn. ring.
  - inversion H; subst. cbn [eprod]. rewrite IH by assumption.
    symmetry. apply prodl_pick with (x := x).
    + apply seq_NoDup.
    + apply in_seq. lia.
    + unfold cnt. cbn [count_occ]. destruct (Nat.eq_dec x x); [reflexivity|congruence].
    + intros d _ Hd. unfold cnt. cbn [count_occ]. destruct (Nat.eq_dec x d); [congruence|reflexivity].
Qed.

Lemma tmom_mom st l : Forall (fun a => (a < st_D st)%nat) l -> tmom st l = mom st (counts (st_D st) l).
Proof.
  intros H. apply sumf_ext. intros i _. rewrite (eprod_monomial st i (st_D st) l H). reflexivity.
Qed.

(** Wick's formula by counting. *)
Definition zprod (f : nat -> Z) (L : list nat) : Z := fold_right Z.mul 1%Z (map f L).

Lemma zprod_ext f g L : (forall d, In d L -> f d = g d) -> zprod f L = zprod g L.
Proof. intros H. unfold zprod. f_equal. apply map_ext_in. exact H. Qed.

Lemma zprod_pick f g c x L : NoDup L -> In x L ->
  f x = (c * g x)%Z -> (forall d, In d L -> d <> x -> f d = g d) -> zprod f L = (c * zprod g L)%Z.
Proof.
  induction 1 as [|y L HyL HL IH]; intros Hin Hx He; [contradiction|].
  unfold zprod. cbn [map fold_right]. fold (zprod f L). fold (zprod g L).
  destruct (Nat.eq_dec y x) as [->|Hne].
  - rewrite Hx. rewrite (zprod_ext f g L); [ring|].
    intros d Hd. apply He; [right; assumption|]. intros ->. contradiction.
  - destruct Hin as [->|Hin]; [congruence|].
    rewrite (He y); [|left; reflexivity|assumption].
    rewrite IH; auto; [ring|]. intros; apply He; [right|]; assumption.
Qed.

Lemma selects_cnt r : forall p, In p (selects r) ->
  In (fst p) r /\ length r = S (length (snd p)) /\ (forall x, In x (snd p) -> In x r) /\
  forall d, cnt r d = (cnt (snd p) d + (if Nat.eqb d (fst p) then 1 else 0))%nat.
Proof.
  induction r as [|x r IH]; intros p Hp; [contradiction|].
  cbn [selects] in Hp. destruct Hp as [<-|Hp].
  - cbn [fst snd length]. repeat split; [left; reflexivity | intros; right; assumption |].
    intros d. unfold cnt. cbn [count_occ]. destruct (Nat.eq_dec x d), (Nat.eqb_spec d x); try congruence; lia.
  - apply in_map_iff in Hp. destruct Hp as [q [<- Hq]]. destruct (IH q Hq) as [H1 [H2 [H3 H4]]].
    cbn [fst snd length]. repeat split; [right; assumption | lia | |].
    + intros y [->|Hy]; [left; reflexivity | right; auto].
    + intros d. specialize (H4 d). unfold cnt in *. cbn [count_occ]. destruct (Nat.eq_dec x d); lia.
Qed.

Lemma selects_fst r : map fst (selects r) = r.
Proof. induction r as [|x r IH]; [reflexivity|]. cbn [selects map fst]. rewrite map_map. cbn [fst]. f_equal. exact IH. Qed.

Lemma sum_if_cnt a K r :
  fold_right Z.add 0%Z (map (fun x => if Nat.eqb a x then K else 0%Z) r) = (Z.of_nat (cnt r a) * K)%Z.
Proof.
  induction r as [|x r IH]; [reflexivity|]. cbn [map fold_right]. rewrite IH.
  unfold cnt. cbn [count_occ]. destruct (Nat.eq_dec x a), (Nat.eqb_spec a x); try congruence; lia.
Qed.

Lemma wickn_counts D : forall n l, (length l <= n)%nat -> Forall (fun a => (a < D)%nat) l ->
  wickn n l = fold_right Z.mul 1%Z (map normal_moment (counts D l)).
Proof.
  assert (Hnil : fold_right Z.mul 1%Z (map normal_moment (counts D [])) = 1%Z).
  { unfold counts. rewrite map_map. generalize (seq 0 D). induction l as [|y l IH]; [reflexivity|].
    cbn [map fold_right]. rewrite IH. reflexivity. }
  induction n as [|n IH]; intros l Hn Hl.
  - destruct l; [|cbn in Hn; lia]. symmetry. exact Hnil.
  - destruct l as [|a r]; [symmetry; exact Hnil|]. inversion Hl as [|? ? Ha Hr]; subst.
    cbn [wickn].
    set (K := zprod (fun d => normal_moment (cnt r d - (if Nat.eqb d a then 1 else 0))) (seq 0 D)).
    transitivity (fold_right Z.add 0%Z (map (fun p => if Nat.eqb a (fst p) then K else 0%Z) (selects r))).
    + f_equal. apply map_ext_in. intros p Hp. destruct (Nat.eqb_spec a (fst p)) as [Hap|]; [|reflexivity].
      destruct (selects_cnt r p Hp) as [H1 [H2 [H3 H4]]].
      rewrite IH.
      * unfold K, zprod, counts. rewrite map_map. f_equal. apply map_ext. intros d.
        f_equal. rewrite (H4 d), Hap. lia.
      * cbn in Hn. lia.
      * rewrite Forall_forall in *. auto.
    + replace (map (fun p => if Nat.eqb a (fst p) then K else 0%Z) (selects r))
        with (map (fun x => if Nat.eqb a x then K else 0%Z) (map fst (selects r))) by (rewrite map_map; reflexivity).
      rewrite selects_fst, sum_if_cnt. symmetry.
      unfold counts. rewrite map_map.
      change (fold_right Z.mul 1%Z (map (fun x => normal_moment (cnt (a :: r) x)) (seq 0 D)))
        with (zprod (fun x => normal_moment (cnt (a :: r) x)) (seq 0 D)).
      apply zprod_pick with (x := a).
      * apply seq_NoDup.
      * apply in_seq. lia.
      * rewrite Nat.eqb_refl. unfold cnt. cbn [count_occ]. destruct (Nat.eq_dec a a); [|congruence].
        destruct (count_occ Nat.eq_dec r a) as [|c]; [reflexivity|].
        cbn [normal_moment Nat.sub]. rewrite Nat.sub_0_r. reflexivity.
      * intros d _ Hd. unfold cnt. cbn [count_occ]. destruct (Nat.eq_dec a d); [congruence|].
        destruct (Nat.eqb_spec d a); [congruence|]. rewrite Nat.sub_0_r. reflexivity.
Qed.

Lemma wick_gauss D c l : Forall (fun a => (a < D)%nat) l ->
  gauss c (counts D l) = IZR (wick l) * c ^ (Nat.div2 (length l)).
Proof.
  intros H. unfold gauss, wick. rewrite sum_counts by assumption.
  rewrite (wickn_counts D (length l) l) by auto. reflexivity.
Qed.

Lemma tmom_ok t s l :
  Forall (fun a => (a < st_D (stencil_of t s))%nat) l -> (length l <= moment_order t)%nat ->
  Rabs (tmom (stencil_of t s) l - IZR (wick l) * st_cs2 (stencil_of t s) ^ (Nat.div2 (length l)))
    <= moment_tol t * Rabs (st_cs (stencil_of t s)) ^ (length l).
Proof.
  intros H HL. rewrite tmom_mom, <- (wick_gauss _ _ _ H) by assumption.
  rewrite <- (sum_counts _ l H). apply mom_ok_all; [apply counts_length|].
  rewrite sum_counts by assumption. exact HL.
Qed.

Lemma isotropic_all t s : closed_form t = true -> isotropic (stencil_of t s) (moment_order t).
Proof.
  intros Hc l Hl HL. pose proof (tmom_ok t s l Hl HL) as H.
  replace (moment_tol t) with 0 in H by (destruct t; try discriminate; reflexivity).
  rewrite Rmult_0_l in H.
  assert (E : forall x, Rabs x <= 0 -> x = 0).
  { intros x Hx. destruct (Req_dec x 0) as [|Hx0]; [assumption|]. apply Rabs_pos_lt in Hx0. lra. }
  apply E in H. lra.
Qed.

Lemma isotropic_le st n m : isotropic st n -> (m <= n)%nat -> isotropic st m.
Proof. intros H Hm l Hl HL. apply H; [assumption|lia]. Qed.

(** all odd tensor moments vanish, at every order, for every stencil *)
Lemma tmom_odd t s l :
  Forall (fun a => (a < st_D (stencil_of t s))%nat) l -> Nat.odd (length l) = true ->
  tmom (stencil_of t s) l = 0.
Proof.
  intros H Ho. rewrite tmom_mom by assumption. apply odd_mom_zero.
  - apply opp_ok_all.
  - apply counts_length.
  - rewrite sum_counts by assumption. exact Ho.
Qed.

(** Explicit low-order forms. *)
Section Explicit.
  Variables (st : stencil) (n : nat).
  Hypothesis Hiso : isotropic st n.
  Let w := st_w st.
  Let e := st_e st.
  Let Q := st_Q st.

  Lemma iso0 : sumf Q w = 1.
  Proof.
    pose proof (Hiso [] (Forall_nil _) ltac:(cbn; lia)) as H. unfold tmom in H. cbn [eprod] in H.
    cbn in H. rewrite Rmult_1_l in H. rewrite <- H. apply sumf_ext. intros. unfold w. ring.
  Qed.
  Ltac fa := repeat (constructor; [assumption|]); constructor.
  Lemma iso1 a : (1 <= n)%nat -> (a < st_D st)%nat -> sumf Q (fun i => w i * e i a) = 0.
  Proof.
    intros Hn Ha. pose proof (Hiso [a] ltac:(fa) Hn) as H. unfold tmom in H. cbn [eprod] in H.
    cbn in H. rewrite Rmult_0_l in H. rewrite <- H. apply sumf_ext. intros. unfold w, e. ring.
  Qed.
  Lemma iso2 a b : (2 <= n)%nat -> (a < st_D st)%nat -> (b < st_D st)%nat ->
    sumf Q (fun i => w i * e i a * e i b) = st_cs2 st * delta a b.
  Proof.
    intros Hn Ha Hb. pose proof (Hiso [a; b] ltac:(fa) Hn) as H. unfold tmom in H. cbn [eprod] in H.
    transitivity (IZR (wick [a; b]) * st_cs2 st ^ Nat.div2 (length [a; b])).
    - rewrite <- H. apply sumf_ext. intros. unfold w, e. ring.
    - unfold wick, delta. cbn. destruct (Nat.eqb a b); cbn; ring.
  Qed.
  Lemma iso3 a b c : (3 <= n)%nat -> (a < st_D st)%nat -> (b < st_D st)%nat -> (c < st_D st)%nat ->
    sumf Q (fun i => w i * e i a * e i b * e i c) = 0.
  Proof.
    intros Hn Ha Hb Hc. pose proof (Hiso [a; b; c] ltac:(fa) Hn) as H. unfold tmom in H. cbn [eprod] in H.
    transitivity (IZR (wick [a; b; c]) * st_cs2 st ^ Nat.div2 (length [a; b; c])).
    - rewrite <- H. apply sumf_ext. intros. unfold w, e. ring.
    - unfold wick. cbn. destruct (Nat.eqb a b), (Nat.eqb a c); cbn; ring.
  Qed.
  Lemma iso4 a b c d : (4 <= n)%nat -> (a < st_D st)%nat -> (b < st_D st)%nat -> (c < st_D st)%nat ->
    (d < st_D st)%nat ->
    sumf Q (fun i => w i * e i a * e i b * e i c * e i d)
    = st_cs2 st * st_cs2 st * (delta a b * delta c d + delta a c * delta b d + delta a d * delta b c).
  Proof.
    intros Hn Ha Hb Hc Hd. pose proof (Hiso [a; b; c; d] ltac:(fa) Hn) as H. unfold tmom in H. cbn [eprod] in H.
    transitivity (IZR (wick [a; b; c; d]) * st_cs2 st ^ Nat.div2 (length [a; b; c; d])).
    - rewrite <- H. apply sumf_ext. intros. unfold w, e. ring.
    - unfold wick, delta. cbn.
      destruct (Nat.eqb a b), (Nat.eqb a c), (Nat.eqb a d), (Nat.eqb b c), (Nat.eqb b d), (Nat.eqb c d); cbn; ring.
  Qed.
  Lemma iso5 a b c d g : (5 <= n)%nat -> (a < st_D st)%nat -> (b < st_D st)%nat -> (c < st_D st)%nat ->
    (d < st_D st)%nat -> (g < st_D st)%nat ->
    sumf Q (fun i => w i * e i a * e i b * e i c * e i d * e i g) = 0.
  Proof.
    intros Hn Ha Hb Hc Hd Hg. pose proof (Hiso [a; b; c; d; g] ltac:(fa) Hn) as H. unfold tmom in H. cbn [eprod] in H.
    transitivity (IZR (wick [a; b; c; d; g]) * st_cs2 st ^ Nat.div2 (length [a; b; c; d; g])).
    - rewrite <- H. apply sumf_ext. intros. unfold w, e. ring.
    - replace (wick [a; b; c; d; g]) with 0%Z; [ring|].
      unfold wick. cbn.
      destruct (Nat.eqb a b), (Nat.eqb a c), (Nat.eqb a d), (Nat.eqb a g),
       (Nat.eqb b c), (Nat.eqb b d), (Nat.eqb b g), (Nat.eqb c d), (Nat.eqb c g), (Nat.eqb d g); reflexivity.
  Qed.
End Explicit.

Lemma moments_exact5 : forall (t : StencilType) (s : R), closed_form t = true ->
  let st := stencil_of t s in let Q := st_Q st in let w := st_w st in let e := st_e st in
  forall a b c d g, (a < st_D st)%nat -> (b < st_D st)%nat -> (c < st_D st)%nat ->
    (d < st_D st)%nat -> (g < st_D st)%nat ->
  sumf Q w = 1 /\
  sumf Q (fun i => w i * e i a) = 0 /\
  sumf Q (fun i => w i * e i a * e i b) = st_cs2 st * delta a b /\
  sumf Q (fun i => w i * e i a * e i b * e i c) = 0 /\
  sumf Q (fun i => w i * e i a * e i b * e i c * e i d)
    = st_cs2 st * st_cs2 st * (delta a b * delta c d + delta a c * delta b d + delta a d * delta b c) /\
  sumf Q (fun i => w i * e i a * e i b * e i c * e i d * e i g) = 0.
Proof.
  intros t s Hc st Q w e a b c d g Ha Hb Hcc Hd Hg.
  pose proof (isotropic_all t s Hc) as Hi. fold st in Hi.
  assert (H5 : (5 <= moment_order t)%nat) by (destruct t; try discriminate; cbn; lia).
  assert (Hi5 : isotropic st 5) by (eapply isotropic_le; eassumption).
  repeat split.
  - apply (iso0 st 5 Hi5).
  - apply (iso1 st 5 Hi5); auto; lia.
  - apply (iso2 st 5 Hi5); auto; lia.
  - apply (iso3 st 5 Hi5); auto; lia.
  - apply (iso4 st 5 Hi5); auto; lia.
  - apply (iso5 st 5 Hi5); auto; lia.
Qed.

Lemma cs_square t s : st_cs2 (stencil_of t s) = st_cs (stencil_of t s) * st_cs (stencil_of t s) /\
  (0 < s -> 0 < st_cs (stencil_of t s)).
Proof.
  assert (H3 : 0 < sqrt 3) by (apply sqrt_lt_R0; lra).
  assert (H5 : 0 < sqrt 5) by (apply sqrt_lt_R0; lra).
  destruct t; cbn [stencil_of st_cs2 st_cs D2Q9 D3Q15 D3Q19 D3Q27 RD3Q27 D3V27 D2Q19V D2Q19H
    D3Q45 D3Q77 D2Q777 D3Q13 D3Q21 D2Q25H];
  (split; [apply cs2_sqrt; lra | intros Hs; apply Rdiv_lt_0_compat; assumption]).
Qed.
