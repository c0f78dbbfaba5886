(** Travel times of boundary hits. *)
From Verif Require Import Prelude BigSum ModelSemiLagrangian SpecSemiLagrangian ProofSemiLagrangian ProofSemiLagrangian2
  ProofSemiLagrangian3 ProofSemiLagrangian4 ModelWalls SpecWalls ProofWalls.
Local Open Scope R_scope.

(** ** Distances *)
Lemma Rabs_le_inv x y : Rabs x <= y -> - y <= x <= y.
Proof. intros H. assert (A := Rle_abs x). assert (B := Rle_abs (- x)). rewrite Rabs_Ropp in B. lra. Qed.
Lemma dot_lin D a b x y : dot D (fun i => a * x i + b * y i) (fun i => a * x i + b * y i) = a * a * dot D x x + 2 * a * b * dot D x y + b * b * dot D y y.
Proof. unfold dot. rewrite <- !sumf_scal, <- !sumf_plus. apply sumf_ext. intros i Hi. ring. Qed.

Lemma cauchy D x y : dot D x y * dot D x y <= dot D x x * dot D y y.
Proof.
  assert (P := dot_self D x). assert (Py := dot_self D y).
  destruct (Req_dec (dot D y y) 0) as [E|E].
  - assert (Z : dot D x y = 0). { unfold dot. apply sumf_zero. intros i Hi. rewrite (dot_self_0 D y E i Hi). ring. }
    rewrite Z, E. lra.
  - assert (L := dot_self D (fun i => dot D y y * x i + - dot D x y * y i)). rewrite dot_lin in L.
    apply Rmult_le_reg_l with (dot D y y); [lra|]. nra.
Qed.

Lemma dist_triangle D x y v : dist D x v <= dist D x y + dist D y v.
Proof.
  unfold dist. set (p := fun i => x i - y i). set (q := fun i => y i - v i).
  replace (dot D (fun i => x i - v i) (fun i => x i - v i)) with (dot D p p + 2 * dot D p q + dot D q q).
  2:{ transitivity (dot D (fun i => 1 * p i + 1 * q i) (fun i => 1 * p i + 1 * q i)); [rewrite dot_lin; ring|].
      unfold dot. apply sumf_ext. intros i Hi. unfold p, q. ring. }
  assert (Pp := dot_self D p). assert (Pq := dot_self D q). assert (C := cauchy D p q).
  assert (Sp := sqrt_pos (dot D p p)). assert (Sq := sqrt_pos (dot D q q)).
  assert (Ep := sqrt_sqrt _ Pp). assert (Eq := sqrt_sqrt _ Pq).
  assert (K : dot D p q <= sqrt (dot D p p) * sqrt (dot D q q)).
  { apply Rsqr_incr_0_var; [|apply Rmult_le_pos; assumption]. unfold Rsqr.
    replace (sqrt (dot D p p) * sqrt (dot D q q) * (sqrt (dot D p p) * sqrt (dot D q q)))
      with (sqrt (dot D p p) * sqrt (dot D p p) * (sqrt (dot D q q) * sqrt (dot D q q))) by ring. rewrite Ep, Eq. exact C. }
  rewrite <- (sqrt_Rsqr (sqrt (dot D p p) + sqrt (dot D q q))) by lra. apply sqrt_le_1_alt. unfold Rsqr.
  replace ((sqrt (dot D p p) + sqrt (dot D q q)) * (sqrt (dot D p p) + sqrt (dot D q q)))
    with (sqrt (dot D p p) * sqrt (dot D p p) + 2 * (sqrt (dot D p p) * sqrt (dot D q q)) + sqrt (dot D q q) * sqrt (dot D q q)) by ring.
  rewrite Ep, Eq. lra.
Qed.

Lemma dist_scaled D a x y p q : (forall i, (i < D)%nat -> p i - q i = a * (x i - y i)) -> dist D p q = Rabs a * dist D x y.
Proof.
  intros H. unfold dist. rewrite <- (sqrt_Rsqr_abs a). rewrite <- sqrt_mult_alt by apply Rle_0_sqr. f_equal.
  unfold dot. rewrite <- sumf_scal. apply sumf_ext. intros i Hi. rewrite H by exact Hi. unfold Rsqr. ring.
Qed.

(** Splitting at a point near the segment. *)
Lemma split_near D x y p l eta : 0 <= l <= 1 -> dist D p (fun i => x i + l * (y i - x i)) <= eta ->
  Rabs (dist D x p + dist D p y - dist D x y) <= 2 * eta.
Proof.
  intros Hl Hp. set (m := fun i => x i + l * (y i - x i)) in *.
  assert (A : dist D x m = l * dist D x y).
  { rewrite (dist_scaled D l x y x m); [rewrite Rabs_pos_eq by lra; reflexivity|]. intros i Hi. unfold m. ring. }
  assert (B : dist D m y = (1 - l) * dist D x y).
  { rewrite (dist_scaled D (1 - l) x y m y); [rewrite Rabs_pos_eq by lra; reflexivity|]. intros i Hi. unfold m. ring. }
  assert (T1 := dist_triangle D x m p). assert (T2 := dist_triangle D p m y). assert (T3 := dist_triangle D x p y).
  rewrite (dist_sym D m p) in T1. apply Rabs_le. lra.
Qed.

Section Time.
  Context {cell : Type} (M : mesh cell) (e : nat -> point) (opp : nat -> nat) (dt eta : R) (Q : nat).
  Hypothesis Hdt : 0 <= dt.
  Hypothesis Hrigid : rigid M.
  Hypothesis Hstraight : straight_within M eta.
  Hypothesis Hopp : opposites Q opp.
  Hypothesis Hnorm : forall a, (1 <= a < Q)%nat -> 0 < norm M (e a) /\ norm M (e (opp a)) = norm M (e a).

  Lemma step_point el ev : step M e opp dt el = Ok ev ->
    match ev with
    | Continue el' | ContinueHit el' _ | Hit el' _ => exists k, findFace M (currentCell el) (currentPoint el) (departurePoint el) = Ok (Some k) /\
       hit_do_nothing el' = hit_do_nothing el /\ dest el' = dest el /\ (currentDirection el' = currentDirection el \/ currentDirection el' = opp (currentDirection el)) /\
       (0 < norm M (e (currentDirection el')) -> dist (dim M) (currentPoint el') (departurePoint el') = dist (dim M) (cr_point k) (departurePoint el))
    | _ => True
    end.
  Proof.
    unfold step. cbn [lifeTimeCounter currentCell currentPoint departurePoint dest_index dest_direction currentDirection hit_do_nothing].
    destruct (Nat.ltb 50 _); [intros H; injection H as <-; exact I|].
    destruct (findFace M _ _ _) as [r| |] eqn:FF; cbn [obind]; try discriminate.
    destruct r as [k|]; [|intros H; injection H as <-; exact I].
    assert (W := Hrigid (currentCell el) (cr_face k)).
    destruct (face_behind M _ _) as [c| |ac op|b|b|b] eqn:E; try discriminate; try (destruct W; fail).
    - destruct (owned_or_ghost M c); [|discriminate]. intros H; injection H as <-. exists k. cbn. repeat split; auto.
    - intros H; injection H as <-. exists k. cbn. repeat split; auto.
    - intros H; injection H as <-. exists k. cbn [hit_do_nothing currentDirection currentPoint departurePoint dest dest_index dest_direction].
      split; [reflexivity|]. split; [reflexivity|]. split; [reflexivity|]. split; [right; reflexivity|]. intros P.
      set (d := opp (currentDirection el)) in *. set (m := norm M (fun i => departurePoint el i - cr_point k i)).
      rewrite (dist_scaled (dim M) (m / norm M (e d)) (e d) (fun _ => 0)).
      2:{ intros i Hi. unfold Rdiv. ring. }
      assert (Ed : dist (dim M) (e d) (fun _ => 0) = norm M (e d)).
      { unfold dist, norm, dot. f_equal. apply sumf_ext. intros i Hi. ring. }
      assert (Em : m = dist (dim M) (cr_point k) (departurePoint el)) by (rewrite dist_sym; reflexivity).
      rewrite Ed, Rabs_pos_eq.
      2:{ apply Rmult_le_pos; [rewrite Em; apply dist_nonneg|left; apply Rinv_0_lt_compat; exact P]. }
      unfold Rdiv. rewrite Rmult_assoc, Rinv_l, Rmult_1_r by lra. exact Em.
    - intros H; injection H as <-. exists k. cbn. repeat split; auto.
  Qed.

  Lemma travelled_time c i x a n s el : (1 <= a < Q)%nat ->
    travelled M e opp dt (departs M e dt c i x a) n s el ->
    (1 <= currentDirection el < Q)%nat /\ norm M (e (currentDirection el)) = norm M (e a) /\ dest el = (i, a) /\
    Rabs (s + dist (dim M) (currentPoint el) (departurePoint el) - dt * norm M (e a)) <= INR n * (2 * eta).
  Proof.
    intros Ha T. induction T as [|n s el el' k T IH FF S].
    - unfold departs. cbn [currentDirection currentPoint departurePoint dest dest_index dest_direction]. split; [exact Ha|]. split; [reflexivity|]. split; [reflexivity|].
      cbn [INR]. rewrite (dist_scaled (dim M) dt (e a) (fun _ => 0)).
      2:{ intros j Hj. ring. }
      assert (Ed : dist (dim M) (e a) (fun _ => 0) = norm M (e a)).
      { unfold dist, norm, dot. f_equal. apply sumf_ext. intros j Hj. ring. }
      rewrite Ed, (Rabs_pos_eq dt) by exact Hdt. replace (0 + dt * norm M (e a) - dt * norm M (e a)) with 0 by ring. rewrite Rabs_R0. lra.
    - destruct IH as (R1 & R2 & R3 & R4).
      assert (X : exists k', findFace M (currentCell el) (currentPoint el) (departurePoint el) = Ok (Some k') /\
        hit_do_nothing el' = hit_do_nothing el /\ dest el' = dest el /\ (currentDirection el' = currentDirection el \/ currentDirection el' = opp (currentDirection el)) /\
        (0 < norm M (e (currentDirection el')) -> dist (dim M) (currentPoint el') (departurePoint el') = dist (dim M) (cr_point k') (departurePoint el))).
      { destruct S as [S|[[b S]|[b S]]]; exact (step_point el _ S). }
      destruct X as (k' & FF' & _ & Hd & Hdir & Hdist). rewrite FF in FF'. injection FF' as <-.
      assert (Y : (1 <= currentDirection el' < Q)%nat /\ norm M (e (currentDirection el')) = norm M (e a)).
      { destruct Hdir as [-> | ->]; [split; assumption|]. split; [apply (Hopp _ R1)|]. rewrite (proj2 (Hnorm _ R1)). exact R2. }
      destruct Y as [Y1 Y2]. split; [exact Y1|]. split; [exact Y2|]. split; [rewrite Hd; exact R3|].
      rewrite (Hdist (proj1 (Hnorm _ Y1))). destruct (Hstraight _ _ _ _ FF) as (l & Hl & Hp).
      assert (Sp := split_near _ _ _ _ l eta Hl Hp). rewrite S_INR. apply Rabs_le_inv in Sp. apply Rabs_le_inv in R4. apply Rabs_le. lra.
  Qed.

  Lemma travelled_trans el0 n s el n' s' el' : travelled M e opp dt el0 n s el -> travelled M e opp dt el n' s' el' ->
    travelled M e opp dt el0 (n + n') (s + s') el'.
  Proof.
    intros T T'. induction T' as [|n' s' el1 el2 k T' IH FF S].
    - rewrite Nat.add_0_r, Rplus_0_r. exact T.
    - rewrite Nat.add_succ_r, <- Rplus_assoc. econstructor; eassumption.
  Qed.

  (** All hits of a path. *)
  Lemma loop_hits fuel : forall el l ev, path_loop M e opp dt fuel [el] = Some (Ok l) -> In ev l ->
    forall el' b, ev = ContinueHit el' b \/ ev = Hit el' b -> exists n s, travelled M e opp dt el n s el' /\ (n + lifeTimeCounter el <= 50)%nat.
  Proof.
    induction fuel as [|fuel IH]; intros el l ev H Hin el' b Hev; [discriminate|]. cbn [path_loop] in H.
    destruct (step M e opp dt el) as [ev0| |] eqn:S; try discriminate.
    assert (Nil : path_loop M e opp dt fuel [] = Some (Ok [])) by (destruct fuel; reflexivity).
    assert (P := step_point el ev0 S).
    assert (Life : forall el1 b', ev0 = Continue el1 \/ ev0 = ContinueHit el1 b' -> lifeTimeCounter el1 = Datatypes.S (lifeTimeCounter el) /\ (Datatypes.S (lifeTimeCounter el) <= 50)%nat).
    { intros el1 b' [-> | ->]; apply (step_life M e opp dt el el1); [left; exact S|right; exists b'; exact S]. }
    destruct ev0 as [el1|el1 bi|el1|el1|el1 bi].
    - destruct P as (k & FF & _). destruct (IH el1 l ev H Hin el' b Hev) as (n & s & T & L). destruct (Life el1 0%nat (or_introl eq_refl)) as [L1 L2].
      exists (1 + n)%nat, (0 + dist (dim M) (currentPoint el) (cr_point k) + s). split; [|lia].
      apply (travelled_trans _ _ _ el1); [|exact T]. econstructor; [constructor|exact FF|left; exact S].
    - destruct P as (k & FF & _). destruct (Life el1 bi (or_intror eq_refl)) as [L1 L2].
      assert (T1 : travelled M e opp dt el 1 (0 + dist (dim M) (currentPoint el) (cr_point k)) el1).
      { econstructor; [constructor|exact FF|right; left; exists bi; exact S]. }
      destruct (path_loop M e opp dt fuel [el1]) as [[x| |]|] eqn:E; cbn in H; try discriminate. injection H as <-.
      destruct Hin as [<-|Hin].
      + destruct Hev as [Hev|Hev]; [|discriminate]. injection Hev as <- <-. eexists _, _. split; [exact T1|lia].
      + destruct (IH el1 x ev E Hin el' b Hev) as (n & s & T & L). eexists _, _. split; [exact (travelled_trans _ _ _ _ _ _ _ T1 T)|lia].
    - rewrite Nil in H. cbn in H. injection H as <-. destruct Hin as [<-|[]]. destruct Hev; discriminate.
    - rewrite Nil in H. cbn in H. injection H as <-. destruct Hin as [<-|[]]. destruct Hev; discriminate.
    - rewrite Nil in H. cbn in H. injection H as <-. destruct Hin as [<-|[]]. destruct Hev as [Hev|Hev]; [discriminate|]. injection Hev as <- <-.
      destruct P as (k & FF & _).
      exists 1%nat, (0 + dist (dim M) (currentPoint el) (cr_point k)). split; [econstructor; [constructor|exact FF|right; right; exists bi; exact S]|].
      unfold step in S. cbn [lifeTimeCounter] in S. destruct (Nat.ltb_spec 50 (Datatypes.S (lifeTimeCounter el))); [discriminate|lia].
  Qed.

  Lemma hit_times n node dofs cells hs : 0 <= eta -> all_hits M e opp dt n node dofs Q cells = Some (Ok hs) ->
    forall h, In h hs -> exists c j m s el, In c cells /\ (j < n)%nat /\ (1 <= hit_direction h < Q)%nat /\ hit_index h = dofs c j /\
      travelled M e opp dt (departs M e dt c (dofs c j) (to_real M c (node j)) (hit_direction h)) m s el /\
      hit_point h = currentPoint el /\ hit_cell h = currentCell el /\
      Rabs (hit_dt h - s / norm M (e (hit_direction h))) <= 100 * eta / norm M (e (hit_direction h)).
  Proof.
    intros He HH h Hh. unfold all_hits in HH. apply fill_ok in HH. destruct HH as (ys & FH & ->).
    apply in_concat in Hh. destruct Hh as (y & Hy & Hh). destruct (Forall2_in_r _ _ _ _ FH Hy) as (el0 & Hel & (l & Hl & Hc)).
    assert (H0 := trackers_fresh _ _ _ _ _ _ _ _ _ _ Hel).
    destruct (trackers_origin M e dt n node dofs _ cells [] el0 Hel) as (c & j & a & Hcc & Hj & Ha & _ & El). apply in_seq in Ha.
    apply collect_ok in Hc. destruct Hc as (xs & F & ->). apply in_concat in Hh. destruct Hh as (y' & Hy' & Hh).
    destruct (Forall2_in_r _ _ _ _ F Hy') as (ev & Hev & E).
    assert (X : exists el bi, (ev = ContinueHit el bi \/ ev = Hit el bi) /\ h = make_hit M e dt el bi).
    { destruct ev as [el'|el' bi|el'|el'|el' bi]; cbn [event_hits] in E; injection E as <-; try (destruct Hh; fail);
        destruct Hh as [<-|[]]; exists el', bi; auto. }
    destruct X as (el & bi & Hev' & ->).
    assert (P := follow_some M e opp dt el0 H0). rewrite Hl in P.
    destruct (loop_hits 51 el0 l ev P Hev el bi Hev') as (m & s & T & Lm). rewrite H0 in Lm.
    change (fun k => to_real M c (node j) k + minus_dtealpha e dt a k) with (fun k => to_real M c (node j) k + e a k * - dt) in El.
    fold (departs M e dt c (dofs c j) (to_real M c (node j)) a) in El. rewrite El in T.
    assert (Ha' : (1 <= a < Q)%nat) by lia.
    destruct (travelled_time c (dofs c j) (to_real M c (node j)) a m s el Ha' T) as (R1 & R2 & R3 & R4).
    unfold make_hit. cbn [hit_direction hit_index hit_point hit_cell hit_dt]. unfold dest in R3. injection R3 as R3 R3'. rewrite R3, R3', R2.
    exists c, j, m, s, el. split; [exact Hcc|]. split; [exact Hj|]. split; [exact Ha'|]. split; [reflexivity|]. split; [exact T|].
    split; [reflexivity|]. split; [reflexivity|]. assert (Pn := proj1 (Hnorm a Ha')). set (N := norm M (e a)) in *.
    replace (dt - dist (dim M) (currentPoint el) (departurePoint el) / N - s / N)
      with (- ((s + dist (dim M) (currentPoint el) (departurePoint el) - dt * N) / N)) by (field; lra).
    rewrite Rabs_Ropp. unfold Rdiv. rewrite Rabs_mult, (Rabs_pos_eq (/ N)) by (left; apply Rinv_0_lt_compat; exact Pn).
    apply Rmult_le_compat_r; [left; apply Rinv_0_lt_compat; exact Pn|]. eapply Rle_trans; [exact R4|].
    assert (INR m <= 50) by (replace 50 with (INR 50) by (cbn; lra); apply le_INR; lia).
    nra.
  Qed.
End Time.
