(** Moments of the quartic (temperature dependent) equilibrium. *)
From Verif Require Import Prelude ModelStencils SpecStencils SpecCollision BigSum ProofStencils ProofWick
  ModelEquilibria ProofEquilibria.
Open Scope R_scope.

Section Hermite.
  Variables (L : stencil) (n : nat).
  Hypothesis Hiso : isotropic L n.
  Let D := st_D L.
  Let cs2 := st_cs2 L.
  Hypothesis Hcs : cs2 <> 0.

  Ltac fa := repeat (constructor; [assumption|]); constructor.
  Ltac odd0 := match goal with
    | |- context [Ex L (fun i => eprod L i ?l)] =>
        rewrite (Ex_odd L n Hiso l) by (try reflexivity; try fa; cbn [length]; lia) end.

  Lemma Ex_H3 a b c l :
    Ex L (fun i => H3 L i a b c * eprod L i l) =
    Ex L (fun i => eprod L i (a :: b :: c :: l))
    - cs2 * (delta b c * Ex L (fun i => eprod L i (a :: l)) + delta a c * Ex L (fun i => eprod L i (b :: l))
             + delta a b * Ex L (fun i => eprod L i (c :: l))).
  Proof.
    rewrite <- !Ex_scal, <- !Ex_plus, <- Ex_scal, <- Ex_minus. apply Ex_ext. intros.
    unfold H3. cbn [eprod]. fold cs2. ring.
  Qed.

  Lemma Ex_H4 a b c d l :
    Ex L (fun i => H4 L i a b c d * eprod L i l) =
    Ex L (fun i => eprod L i (a :: b :: c :: d :: l))
    - cs2 * (delta c d * Ex L (fun i => eprod L i (a :: b :: l)) + delta b d * Ex L (fun i => eprod L i (a :: c :: l))
           + delta b c * Ex L (fun i => eprod L i (a :: d :: l)) + delta a d * Ex L (fun i => eprod L i (b :: c :: l))
           + delta a c * Ex L (fun i => eprod L i (b :: d :: l)) + delta a b * Ex L (fun i => eprod L i (c :: d :: l)))
    + cs2 * cs2 * (delta a b * delta c d + delta a c * delta b d + delta a d * delta b c) * Ex L (fun i => eprod L i l).
  Proof.
    rewrite <- !Ex_scal, <- !Ex_plus, <- Ex_scal, <- Ex_minus, <- Ex_plus. apply Ex_ext. intros.
    unfold H4. cbn [eprod]. fold cs2. ring.
  Qed.

  Lemma H3_0 a b c : (3 <= n)%nat -> (a < D)%nat -> (b < D)%nat -> (c < D)%nat ->
    Ex L (fun i => H3 L i a b c * eprod L i []) = 0.
  Proof. intros. rewrite Ex_H3. repeat odd0. ring. Qed.
  Lemma H3_1 a b c p : (4 <= n)%nat -> (a < D)%nat -> (b < D)%nat -> (c < D)%nat -> (p < D)%nat ->
    Ex L (fun i => H3 L i a b c * eprod L i [p]) = 0.
  Proof.
    intros. rewrite Ex_H3. rewrite (Ex4 L n Hiso), !(Ex2 L n Hiso) by (assumption || lia). fold cs2. ring.
  Qed.
  Lemma H3_2 a b c p q : (5 <= n)%nat -> (a < D)%nat -> (b < D)%nat -> (c < D)%nat -> (p < D)%nat -> (q < D)%nat ->
    Ex L (fun i => H3 L i a b c * eprod L i [p; q]) = 0.
  Proof. intros. rewrite Ex_H3. repeat odd0. ring. Qed.
  Lemma H3_3 a b c p q r : (6 <= n)%nat -> (a < D)%nat -> (b < D)%nat -> (c < D)%nat ->
    (p < D)%nat -> (q < D)%nat -> (r < D)%nat ->
    Ex L (fun i => H3 L i a b c * eprod L i [p; q; r]) =
    cs2 * cs2 * cs2 * (delta a p * (delta b q * delta c r + delta b r * delta c q)
                     + delta a q * (delta b p * delta c r + delta b r * delta c p)
                     + delta a r * (delta b p * delta c q + delta b q * delta c p)).
  Proof.
    intros. rewrite Ex_H3. rewrite (Ex6 L n Hiso), !(Ex4 L n Hiso) by (assumption || lia). fold cs2. ring.
  Qed.
  Lemma H4_0 a b c d : (4 <= n)%nat -> (a < D)%nat -> (b < D)%nat -> (c < D)%nat -> (d < D)%nat ->
    Ex L (fun i => H4 L i a b c d * eprod L i []) = 0.
  Proof.
    intros. rewrite Ex_H4. rewrite (Ex4 L n Hiso), !(Ex2 L n Hiso) by (assumption || lia).
    change (Ex L (fun i => eprod L i [])) with (Ex L (fun _ => 1)). rewrite (Ex1 L n Hiso). fold cs2. ring.
  Qed.
  Lemma H4_1 a b c d p : (5 <= n)%nat -> (a < D)%nat -> (b < D)%nat -> (c < D)%nat -> (d < D)%nat -> (p < D)%nat ->
    Ex L (fun i => H4 L i a b c d * eprod L i [p]) = 0.
  Proof. intros. rewrite Ex_H4. repeat odd0. ring. Qed.
  Lemma H4_2 a b c d p q : (6 <= n)%nat -> (a < D)%nat -> (b < D)%nat -> (c < D)%nat -> (d < D)%nat ->
    (p < D)%nat -> (q < D)%nat ->
    Ex L (fun i => H4 L i a b c d * eprod L i [p; q]) = 0.
  Proof.
    intros. rewrite Ex_H4. rewrite (Ex6 L n Hiso), !(Ex4 L n Hiso), !(Ex2 L n Hiso) by (assumption || lia).
    fold cs2. ring.
  Qed.
  Lemma H4_3 a b c d p q r : (7 <= n)%nat -> (a < D)%nat -> (b < D)%nat -> (c < D)%nat -> (d < D)%nat ->
    (p < D)%nat -> (q < D)%nat -> (r < D)%nat ->
    Ex L (fun i => H4 L i a b c d * eprod L i [p; q; r]) = 0.
  Proof. intros. rewrite Ex_H4. repeat odd0. ring. Qed.

  (** trace part *)
  Definition tr (i : nat) : R := sumf D (fun a => st_e L i a * st_e L i a - cs2).
  Lemma Ex_tr l :
    Ex L (fun i => tr i * eprod L i l) = sumf D (fun a => Ex L (fun i => eprod L i (a :: a :: l)) - cs2 * Ex L (fun i => eprod L i l)).
  Proof.
    unfold tr.
    transitivity (Ex L (fun i => sumf D (fun a => eprod L i (a :: a :: l) - cs2 * eprod L i l))).
    - apply Ex_ext. intros. rewrite <- sumf_scal_r. apply sumf_ext. intros. cbn [eprod]. ring.
    - rewrite Ex_sum. apply sumf_ext. intros. rewrite <- Ex_scal, <- Ex_minus. reflexivity.
  Qed.
  Lemma tr_0 : (2 <= n)%nat -> Ex L (fun i => tr i * eprod L i []) = 0.
  Proof.
    intros. rewrite Ex_tr. apply sumf_zero. intros a Ha. rewrite (Ex2 L n Hiso) by (assumption || lia).
    change (Ex L (fun i => eprod L i [])) with (Ex L (fun _ => 1)). rewrite (Ex1 L n Hiso), delta_refl. fold cs2. ring.
  Qed.
  Lemma tr_1 p : (3 <= n)%nat -> (p < D)%nat -> Ex L (fun i => tr i * eprod L i [p]) = 0.
  Proof. intros. rewrite Ex_tr. apply sumf_zero. intros a Ha. repeat odd0. ring. Qed.
  Lemma tr_2 p q : (4 <= n)%nat -> (p < D)%nat -> (q < D)%nat ->
    Ex L (fun i => tr i * eprod L i [p; q]) = 2 * (cs2 * cs2) * delta p q.
  Proof.
    intros. rewrite Ex_tr.
    rewrite (sumf_ext D _ (fun a => (2 * (cs2 * cs2)) * (delta p a * delta a q))).
    - rewrite sumf_scal. rewrite (sumf_delta D p (fun a => delta a q)) by assumption. reflexivity.
    - intros a Ha. rewrite (Ex4 L n Hiso), (Ex2 L n Hiso) by (assumption || lia).
      rewrite delta_refl, (delta_sym a p). fold cs2. ring.
  Qed.
  Lemma tr_3 p q r : (5 <= n)%nat -> (p < D)%nat -> (q < D)%nat -> (r < D)%nat ->
    Ex L (fun i => tr i * eprod L i [p; q; r]) = 0.
  Proof. intros. rewrite Ex_tr. apply sumf_zero. intros a Ha. repeat odd0. ring. Qed.

  (** Sums of Hermite polynomials given by coefficient lists *)
  Definition P3 (l : list (R * nat * nat * nat)) (i : nat) : R :=
    suml (fun t => let '(x, a, b, c) := t in x * H3 L i a b c) l.
  Definition P4 (l : list (R * nat * nat * nat * nat)) (i : nat) : R :=
    suml (fun t => let '(x, a, b, c, d) := t in x * H4 L i a b c d) l.
  Definition in3 (t : R * nat * nat * nat) : Prop :=
    let '(_, a, b, c) := t in (a < D)%nat /\ (b < D)%nat /\ (c < D)%nat.
  Definition in4 (t : R * nat * nat * nat * nat) : Prop :=
    let '(_, a, b, c, d) := t in (a < D)%nat /\ (b < D)%nat /\ (c < D)%nat /\ (d < D)%nat.

  Lemma Ex_P3 (l : list (R * nat * nat * nat)) p :
    Ex L (fun i => P3 l i * p i) = suml (fun t => let '(x, a, b, c) := t in x * Ex L (fun i => H3 L i a b c * p i)) l.
  Proof.
    induction l as [|[[[x a] b] c] l IH].
    - cbn. transitivity (Ex L (fun i => 0 * p i)); [apply Ex_ext; intros; reflexivity|].
      rewrite Ex_scal. ring.
    - cbn [suml]. rewrite <- IH. rewrite <- Ex_scal, <- Ex_plus. apply Ex_ext. intros. unfold P3. cbn [suml]. ring.
  Qed.
  Lemma Ex_P4 (l : list (R * nat * nat * nat * nat)) p :
    Ex L (fun i => P4 l i * p i) = suml (fun t => let '(x, a, b, c, d) := t in x * Ex L (fun i => H4 L i a b c d * p i)) l.
  Proof.
    induction l as [|[[[[x a] b] c] d] l IH].
    - cbn. transitivity (Ex L (fun i => 0 * p i)); [apply Ex_ext; intros; reflexivity|].
      rewrite Ex_scal. ring.
    - cbn [suml]. rewrite <- IH. rewrite <- Ex_scal, <- Ex_plus. apply Ex_ext. intros. unfold P4. cbn [suml]. ring.
  Qed.
  Lemma suml_zero {A} (f : A -> R) l : Forall (fun x => f x = 0) l -> suml f l = 0.
  Proof. induction 1 as [|x l H _ IH]; cbn [suml]; [reflexivity|]. rewrite H, IH. ring. Qed.

  Lemma P3_zero l p : Forall in3 l -> (length p <= 2)%nat -> (3 + length p <= n)%nat ->
    Forall (fun a => (a < D)%nat) p -> Ex L (fun i => P3 l i * eprod L i p) = 0.
  Proof.
    intros Hl Hp Hn Hb. rewrite Ex_P3. apply suml_zero. eapply Forall_impl; [|exact Hl].
    intros [[[x a] b] c] (Ha & Hb' & Hc).
    destruct p as [|p1 [|p2 [|p3 p]]]; cbn [length] in *.
    - rewrite H3_0 by (assumption || lia). ring.
    - inversion Hb; subst. rewrite H3_1 by (assumption || lia). ring.
    - inversion Hb; subst. inversion H2; subst. rewrite H3_2 by (assumption || lia). ring.
    - lia.
  Qed.
  Lemma P4_zero l p : Forall in4 l -> (length p <= 3)%nat -> (4 + length p <= n)%nat ->
    Forall (fun a => (a < D)%nat) p -> Ex L (fun i => P4 l i * eprod L i p) = 0.
  Proof.
    intros Hl Hp Hn Hb. rewrite Ex_P4. apply suml_zero. eapply Forall_impl; [|exact Hl].
    intros [[[[x a] b] c] d] (Ha & Hb' & Hc & Hd).
    destruct p as [|p1 [|p2 [|p3 [|p4 p]]]]; cbn [length] in *.
    - rewrite H4_0 by (assumption || lia). ring.
    - inversion Hb; subst. rewrite H4_1 by (assumption || lia). ring.
    - inversion Hb; subst. inversion H2; subst. rewrite H4_2 by (assumption || lia). ring.
    - inversion Hb; subst. inversion H2; subst. inversion H4; subst. rewrite H4_3 by (assumption || lia). ring.
    - lia.
  Qed.
End Hermite.

(** ** The quartic polynomial as Hermite expansion *)
Section Quartic.
  Variables (L : stencil) (n : nat).
  Hypothesis Hiso : isotropic L n.
  Let D := st_D L.
  Let cs2 := st_cs2 L.
  Hypothesis Hcs : cs2 <> 0.
  Hypothesis HD : D = 2%nat \/ D = 3%nat.
  Variables (rho T : R) (u : nat -> R).

  (** Third-order coefficient a_{abc} = u_a u_b u_c + cs2 (T-1) (u_a d_bc + u_b d_ac + u_c d_ab) *)
  Definition c3 (a b c : nat) : R :=
    u a * u b * u c + cs2 * (T - 1) * (u a * delta b c + u b * delta a c + u c * delta a b).
  Definition c4 (a b c d : nat) : R :=
    u a * u b * u c * u d
    + cs2 * (T - 1) * (u a * u b * delta c d + u a * u c * delta b d + u a * u d * delta b c
                       + u b * u c * delta a d + u b * u d * delta a c + u c * u d * delta a b)
    + cs2 * (T - 1) * (cs2 * (T - 1)) * (delta a b * delta c d + delta a c * delta b d + delta a d * delta b c).

  Definition mk3 (x : R) (a b c : nat) : R * nat * nat * nat := (x, a, b, c).
  Definition mk4 (x : R) (a b c d : nat) : R * nat * nat * nat * nat := (x, a, b, c, d).
  Definition l3_2 : list (R * nat * nat * nat) :=
    [mk3 (c3 0 0 0) 0 0 0; mk3 (3 * c3 0 0 1) 0 0 1; mk3 (3 * c3 0 1 1) 0 1 1; mk3 (c3 1 1 1) 1 1 1].
  Definition l3_3 : list (R * nat * nat * nat) :=
    l3_2 ++ [mk3 (c3 2 2 2) 2 2 2; mk3 (3 * c3 0 0 2) 0 0 2; mk3 (3 * c3 0 2 2) 0 2 2; mk3 (3 * c3 1 2 2) 1 2 2;
             mk3 (3 * c3 1 1 2) 1 1 2; mk3 (6 * c3 0 1 2) 0 1 2].
  Definition l4_2 : list (R * nat * nat * nat * nat) :=
    [mk4 (c4 0 0 0 0) 0 0 0 0; mk4 (c4 1 1 1 1) 1 1 1 1; mk4 (6 * c4 0 0 1 1) 0 0 1 1;
     mk4 (4 * c4 0 1 1 1) 0 1 1 1; mk4 (4 * c4 0 0 0 1) 0 0 0 1].
  Definition l4_3 : list (R * nat * nat * nat * nat) :=
    l4_2 ++ [mk4 (c4 2 2 2 2) 2 2 2 2; mk4 (4 * c4 0 2 2 2) 0 2 2 2; mk4 (4 * c4 1 2 2 2) 1 2 2 2;
             mk4 (4 * c4 0 0 0 2) 0 0 0 2; mk4 (4 * c4 1 1 1 2) 1 1 1 2; mk4 (6 * c4 0 0 2 2) 0 0 2 2;
             mk4 (6 * c4 1 1 2 2) 1 1 2 2; mk4 (12 * c4 0 0 1 2) 0 0 1 2; mk4 (12 * c4 0 1 1 2) 0 1 1 2;
             mk4 (12 * c4 0 1 2 2) 0 1 2 2].
  Definition l3 := if Nat.eqb D 3 then l3_3 else l3_2.
  Definition l4 := if Nat.eqb D 3 then l4_3 else l4_2.

  Lemma l3_in : Forall (in3 L) l3.
  Proof.
    unfold l3, in3. fold D. destruct HD as [-> | ->]; cbn [Nat.eqb]; unfold l3_3, l3_2, mk3; cbn [app];
      repeat (constructor; [repeat split; lia|]); constructor.
  Qed.
  Lemma l4_in : Forall (in4 L) l4.
  Proof.
    unfold l4, in4. fold D. destruct HD as [-> | ->]; cbn [Nat.eqb]; unfold l4_3, l4_2, mk4; cbn [app];
      repeat (constructor; [repeat split; lia|]); constructor.
  Qed.

  Definition quartic_poly (i : nat) : R :=
    poly2 L u (1 + uu_term L u) 1 (1/2) i + (T - 1) / (2 * cs2) * tr L i
    + / (6 * cs2 * cs2 * cs2) * P3 L l3 i + / (24 * cs2 * cs2 * cs2 * cs2) * P4 L l4 i.

  Lemma tr_double i :
    sumf D (fun alp => sumf D (fun bet =>
      rho * st_w L i / (2 * cs2) * ((T - 1) * delta alp bet * st_e L i alp * st_e L i bet - cs2 * delta alp bet * (T - 1))))
    = st_w L i * rho * ((T - 1) / (2 * cs2) * tr L i).
  Proof.
    rewrite (sumf_ext D _ (fun a => (rho * st_w L i / (2 * cs2) * (T - 1)) * (st_e L i a * st_e L i a - cs2))).
    - rewrite sumf_scal. unfold tr. fold D cs2. unfold Rdiv. ring.
    - intros a Ha.
      rewrite (sumf_ext D _ (fun b => delta a b * ((rho * st_w L i / (2 * cs2) * (T - 1)) * (st_e L i a * st_e L i b - cs2)))).
      + rewrite (sumf_delta D a (fun b => (rho * st_w L i / (2 * cs2) * (T - 1)) * (st_e L i a * st_e L i b - cs2))) by assumption.
        reflexivity.
      + intros b Hb. unfold Rdiv. ring.
  Qed.

  Lemma quartic_split i : QuarticEquilibrium_calc L rho u T i = st_w L i * rho * quartic_poly i.
  Proof.
    unfold QuarticEquilibrium_calc. fold D cs2. rewrite tr_double.
    unfold quartic_poly, poly2, l3, l4.
    destruct HD as [E | E]; rewrite E; cbn [Nat.eqb]; unfold l3_3, l4_3, l3_2, l4_2, P3, P4, mk3, mk4; cbn [app suml];
    unfold c3, c4, delta; cbn [Nat.eqb]; fold cs2; unfold Rdiv; ring.
  Qed.

  Lemma quartic_mom l : (length l <= 2)%nat -> (4 + length l <= n)%nat -> Forall (fun a => (a < D)%nat) l ->
    Ex L (fun i => quartic_poly i * eprod L i l) =
    Ex L (fun i => poly2 L u (1 + uu_term L u) 1 (1/2) i * eprod L i l)
    + (T - 1) / (2 * cs2) * Ex L (fun i => tr L i * eprod L i l).
  Proof.
    intros Hl Hn Hb.
    transitivity (Ex L (fun i => poly2 L u (1 + uu_term L u) 1 (1/2) i * eprod L i l)
      + (T - 1) / (2 * cs2) * Ex L (fun i => tr L i * eprod L i l)
      + / (6 * cs2 * cs2 * cs2) * Ex L (fun i => P3 L l3 i * eprod L i l)
      + / (24 * cs2 * cs2 * cs2 * cs2) * Ex L (fun i => P4 L l4 i * eprod L i l)).
    - rewrite <- !Ex_scal, <- !Ex_plus. apply Ex_ext. intros. unfold quartic_poly. ring.
    - rewrite (P3_zero L n Hiso l3 l l3_in) by (assumption || lia).
      rewrite (P4_zero L n Hiso l4 l l4_in) by (assumption || lia). ring.
  Qed.

  Lemma quartic_mom0 : (4 <= n)%nat -> Ex L quartic_poly = 1.
  Proof.
    intros Hn. transitivity (Ex L (fun i => quartic_poly i * eprod L i [])).
    { apply Ex_ext. intros. cbn [eprod]. ring. }
    rewrite quartic_mom by (cbn; lia || constructor). rewrite (tr_0 L n Hiso) by lia.
    transitivity (Ex L (poly2 L u (1 + uu_term L u) 1 (1/2)) + 0).
    { f_equal; [|ring]. apply Ex_ext. intros. cbn [eprod]. ring. }
    rewrite (poly_mom0 L n Hiso Hcs) by lia. rewrite uu_dot. fold D cs2. field. assumption.
  Qed.
  Lemma quartic_mom1 a : (5 <= n)%nat -> (a < D)%nat -> Ex L (fun i => quartic_poly i * st_e L i a) = u a.
  Proof.
    intros Hn Ha. transitivity (Ex L (fun i => quartic_poly i * eprod L i [a])).
    { apply Ex_ext. intros. cbn [eprod]. ring. }
    rewrite quartic_mom by (cbn; lia || (constructor; [assumption|constructor])). rewrite (tr_1 L n Hiso) by (assumption || lia).
    transitivity (Ex L (fun i => poly2 L u (1 + uu_term L u) 1 (1/2) i * st_e L i a) + 0).
    { f_equal; [|ring]. apply Ex_ext. intros. cbn [eprod]. ring. }
    rewrite (poly_mom1 L n Hiso Hcs) by (assumption || lia). ring.
  Qed.
  Lemma quartic_mom2 a b : (6 <= n)%nat -> (a < D)%nat -> (b < D)%nat ->
    Ex L (fun i => quartic_poly i * st_e L i a * st_e L i b) = T * cs2 * delta a b + u a * u b.
  Proof.
    intros Hn Ha Hb. transitivity (Ex L (fun i => quartic_poly i * eprod L i [a; b])).
    { apply Ex_ext. intros. cbn [eprod]. ring. }
    rewrite quartic_mom by (cbn; lia || (repeat (constructor; [assumption|]); constructor)).
    rewrite (tr_2 L n Hiso) by (assumption || lia).
    transitivity (Ex L (fun i => poly2 L u (1 + uu_term L u) 1 (1/2) i * st_e L i a * st_e L i b)
                  + (T - 1) / (2 * cs2) * (2 * (cs2 * cs2) * delta a b)).
    { f_equal. apply Ex_ext. intros. cbn [eprod]. ring. }
    rewrite (poly_mom2 L n Hiso Hcs) by (assumption || lia). rewrite uu_dot. fold D cs2. field. assumption.
  Qed.
  Lemma quartic_mom3 a b c : (7 <= n)%nat -> (a < D)%nat -> (b < D)%nat -> (c < D)%nat ->
    Ex L (fun i => quartic_poly i * st_e L i a * st_e L i b * st_e L i c) =
    u a * u b * u c + T * cs2 * (u a * delta b c + u b * delta a c + u c * delta a b).
  Proof.
    intros Hn Ha Hb Hc.
    transitivity (Ex L (fun i => poly2 L u (1 + uu_term L u) 1 (1/2) i * st_e L i a * st_e L i b * st_e L i c)
      + (T - 1) / (2 * cs2) * Ex L (fun i => tr L i * eprod L i [a; b; c])
      + / (6 * cs2 * cs2 * cs2) * Ex L (fun i => P3 L l3 i * eprod L i [a; b; c])
      + / (24 * cs2 * cs2 * cs2 * cs2) * Ex L (fun i => P4 L l4 i * eprod L i [a; b; c])).
    { rewrite <- !Ex_scal, <- !Ex_plus. apply Ex_ext. intros. unfold quartic_poly. cbn [eprod]. ring. }
    rewrite (P4_zero L n Hiso l4 [a; b; c] l4_in) by (cbn; lia || (repeat (constructor; [assumption|]); constructor)).
    rewrite (tr_3 L n Hiso) by (assumption || lia).
    rewrite (poly_mom3 L n Hiso Hcs) by (assumption || lia).
    rewrite Ex_P3.
    rewrite (suml_ext _ (fun t => let '(x, a', b', c') := t in
       x * (cs2 * cs2 * cs2 * (delta a' a * (delta b' b * delta c' c + delta b' c * delta c' b)
                     + delta a' b * (delta b' a * delta c' c + delta b' c * delta c' a)
                     + delta a' c * (delta b' a * delta c' b + delta b' b * delta c' a))))).
    - fold cs2. set (K := cs2 * cs2 * cs2).
      assert (HK : cs2 * cs2 * cs2 <> 0).
      { intros HK. apply Rmult_integral in HK. destruct HK as [HK|HK]; [|contradiction].
        apply Rmult_integral in HK. destruct HK; contradiction. }
      unfold l3. destruct HD as [E | E]; rewrite E in *; cbn [Nat.eqb];
      destruct a as [|[|[|a]]]; try lia; destruct b as [|[|[|b]]]; try lia; destruct c as [|[|[|c]]]; try lia;
      unfold l3_3, l3_2, mk3; cbn [app suml]; unfold c3, delta; cbn [Nat.eqb]; fold K in HK |- *;
      (replace (6 * cs2 * cs2 * cs2) with (6 * K) by (unfold K; ring)); field; repeat split; assumption.
    - intros [[[x a'] b'] c'] Hin. pose proof l3_in as H3. rewrite Forall_forall in H3. specialize (H3 _ Hin).
      destruct H3 as (H1 & H2 & H4). rewrite (H3_3 L n Hiso) by (assumption || lia). reflexivity.
  Qed.
End Quartic.
