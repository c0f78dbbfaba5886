(** Discontinuous Galerkin operator: mass and energy. *)
From Verif Require Import Prelude BigSum ModelStencils ProofStencils ModelSemiLagrangian ModelSEDG SpecSEDG ProofSEDG ProofSEDGRate ProofSEDGSums.
Local Open Scope R_scope.

Lemma total_sumf_swap {A} (l : list A) m (g : A -> nat -> R) : total l (fun x => sumf m (g x)) = sumf m (fun k => total l (fun x => g x k)).
Proof. induction m as [|m IH]; cbn [sumf]; [apply total_zero; reflexivity|]. rewrite total_plus, IH. reflexivity. Qed.

Section Main.
  Context {cell : Type} (S : space cell) (qn : nat -> nat) (fd : nat -> nat -> nat) (st : stencil)
          (velocity : nat -> option (point -> point)) (cells : list cell).
  Hypothesis G : good_mesh S qn fd cells.
  Hypothesis Hsup : supported S velocity cells.
  Hypothesis Hopp : forall a, (1 <= a < st_Q st)%nat -> exists b, st_opp st a = Some b /\ (1 <= b < st_Q st)%nat /\ st_opp st b = Some a /\
    st_w st b = st_w st a /\ forall k, (k < sp_dim S)%nat -> st_e st b k = - st_e st a k.
  Hypothesis Hcs : st_cs2 st <> 0.
  Hypothesis HQ : (1 < st_Q st)%nat.
  Notation n := (dofs_per_cell S).
  Notation nf := (n_face_points S).
  Notation nF := (faces_per_cell S).
  Notation behindx := (behind S fd st velocity).
  Notation contr := (contribution S fd st false velocity).

  Variable s : system.
  Hypothesis Es : reassemble S st false velocity cells empty_system = Ok s.
  Lemma rate_node F c i a : In c cells -> (i < n)%nat -> (1 <= a < st_Q st)%nat -> rate s F a (dof_index S c i) = node_rate S qn fd st false velocity F c i a.
  Proof.
    intros Hc Hi Ha. destruct (assembled S qn fd st false velocity cells G Hsup) as (x & E & R); auto.
    { intros b Hb. destruct (Hopp b Hb) as (b' & E1 & H1 & _). exists b'. auto. }
    rewrite E in Es. unfold empty_system in Es. cbn [fst snd app] in Es. assert (s = x) by (destruct x; cbn [fst snd] in Es; congruence). subst s. apply R; assumption.
  Qed.

  (** Weights of the directions that the two sides of a face share. *)
  Section Weighted.
    Variables (omega : nat -> R) (F : nat -> nat -> R).
    Hypothesis Hom : forall p, In p (places S st cells) -> omega (snd (partner S st p)) = omega (snd p).

    Lemma mass_pairs : sumf (st_Q st - 1) (fun b => omega (Datatypes.S b) * integral S qn cells (rate s F) (Datatypes.S b))
      = - sumf (st_Q st - 1) (fun b => omega (Datatypes.S b) * total cells (fun c => sumf nF (fun f =>
          match at_face S c f with Beyond _ _ => 0 | Outside b' => match velocity b' with Some u =>
            1 / 2 * sumf nf (fun q => face_JxW S c f q * outward S st (Datatypes.S b) c f q * wall_shift S st (u (face_point S c f q)) (Datatypes.S b)) | None => 0 end end))).
    Proof.
      set (m := fun p : cell * nat * nat => let '(c, f, a) := p in omega a * sumf nf (fun q => contr F a c f q - face_JxW S c f q * outward S st a c f q * F a (dof_index S c (fd f q)))).
      assert (L : sumf (st_Q st - 1) (fun b => omega (Datatypes.S b) * integral S qn cells (rate s F) (Datatypes.S b)) = total (places S st cells) m).
      { rewrite sum_places. apply sumf_ext. intros b Hb. unfold integral. rewrite <- total_scal. apply total_ext. intros c Hc. unfold m. rewrite sumf_scal. f_equal.
        rewrite <- (cell_mass S qn fd st velocity cells G) by exact Hc. apply sumf_ext. intros i Hi. f_equal. apply rate_node; auto. lia. }
      rewrite L, (total_pairs _ (partner S st) m (places_nodup S qn fd st cells G)); [|apply (partner_in S qn fd st cells G Hopp)|apply (partner_twice S qn fd st cells G Hopp)].
      set (h := fun p : cell * nat * nat => let '(c, f, a) := p in - (omega a * match at_face S c f with Beyond _ _ => 0 | Outside b' => match velocity b' with Some u =>
            1 / 2 * sumf nf (fun q => face_JxW S c f q * outward S st a c f q * wall_shift S st (u (face_point S c f q)) a) | None => 0 end end)).
      rewrite <- total_scal. rewrite (total_ext _ _ h).
      - rewrite sum_places, <- sumf_opp. apply sumf_ext. intros b Hb. unfold h.
        rewrite (total_ext cells _ (fun c => - omega (Datatypes.S b) * sumf nF (fun f => match at_face S c f with Beyond _ _ => 0 | Outside b' => match velocity b' with Some u =>
            1 / 2 * sumf nf (fun q => face_JxW S c f q * outward S st (Datatypes.S b) c f q * wall_shift S st (u (face_point S c f q)) (Datatypes.S b)) | None => 0 end end))).
        + rewrite total_scal. ring.
        + intros c Hc. rewrite <- sumf_scal. apply sumf_ext. intros f Hf. ring.
      - intros p Hp. assert (O := Hom p Hp). destruct p as [[c f] a]. assert (P := fun q => partner_outward S qn fd st cells G Hopp (c, f, a) q Hp).
        assert (Hp' := partner_in S qn fd st cells G Hopp _ Hp). apply in_places in Hp. destruct Hp as (Hc & Hf & Ha). unfold m, h.
        unfold partner in *. destruct (at_face S c f) as [c' f'|b'] eqn:E.
        + cbn [snd] in O. apply in_places in Hp'. destruct Hp' as (Hc' & Hf' & _).
          destruct (gm_conforming _ _ _ _ G c f c' f' Hc Hf E) as (_ & _ & E' & _).
          rewrite <- Rmult_plus_distr_l, <- sumf_plus, sumf_zero; [ring|]. intros q Hq. destruct (P q Hq) as [P1 P2].
          rewrite !(contribution_upwind S fd st velocity cells Hsup) by assumption. unfold behind. rewrite E, E', P1, P2.
          destruct (Rlt_dec (outward S st a c f q) 0), (Rlt_dec (- outward S st a c f q) 0); try lra; try ring.
          replace (outward S st a c f q) with 0 by lra. ring.
        + cbn [snd] in O. destruct (velocity b') as [u|] eqn:Eu; [|elim (Hsup c f b' Hc Hf E Eu)]. rewrite O.
          destruct (Hopp a Ha) as (b & E1 & Hb & E2 & Hw & He). assert (Ob : opposite st a = b) by (unfold opposite; rewrite E1; reflexivity). rewrite Ob in *.
          assert (Oa : opposite st b = a) by (unfold opposite; rewrite E2; reflexivity).
          rewrite <- Rmult_plus_distr_l, <- sumf_plus.
          replace (- (omega a * (1 / 2 * sumf nf (fun q => face_JxW S c f q * outward S st a c f q * wall_shift S st (u (face_point S c f q)) a))))
            with (1 / 2 * (omega a * (- sumf nf (fun q => face_JxW S c f q * outward S st a c f q * wall_shift S st (u (face_point S c f q)) a)))) by ring.
          rewrite <- sumf_opp. f_equal. f_equal. apply sumf_ext. intros q Hq. destruct (P q Hq) as [P1 P2].
          rewrite !(contribution_upwind S fd st velocity cells Hsup) by assumption. unfold behind. rewrite E, Eu, P1, Ob, Oa.
          assert (Ws : wall_shift S st (u (face_point S c f q)) b = - wall_shift S st (u (face_point S c f q)) a).
          { unfold wall_shift. rewrite Hw. rewrite (sumf_ext (sp_dim S) (fun k => u (face_point S c f q) k * st_e st b k) (fun k => - (u (face_point S c f q) k * st_e st a k))).
            - rewrite sumf_opp. field. exact Hcs.
            - intros k Hk. rewrite He by exact Hk. ring. }
          rewrite Ws. destruct (Rlt_dec (outward S st a c f q) 0), (Rlt_dec (- outward S st a c f q) 0); try lra; try ring.
          replace (outward S st a c f q) with 0 by lra. ring.
    Qed.

    Lemma energy_pairs : resting_walls S velocity cells -> sumf (st_Q st - 1) (fun b => omega (Datatypes.S b) * inner S qn cells (F (Datatypes.S b)) (rate s F (Datatypes.S b)))
      = - (1 / 4) * sumf (st_Q st - 1) (fun b => omega (Datatypes.S b) * jumps S fd st velocity cells F (Datatypes.S b)).
    Proof.
      intros Rest.
      set (m := fun p : cell * nat * nat => let '(c, f, a) := p in omega a * sumf nf (fun q => F a (dof_index S c (fd f q)) * contr F a c f q
         - 1 / 2 * (face_JxW S c f q * outward S st a c f q * (F a (dof_index S c (fd f q)) * F a (dof_index S c (fd f q)))))).
      assert (L : sumf (st_Q st - 1) (fun b => omega (Datatypes.S b) * inner S qn cells (F (Datatypes.S b)) (rate s F (Datatypes.S b))) = total (places S st cells) m).
      { rewrite sum_places. apply sumf_ext. intros b Hb. unfold inner. rewrite <- total_scal. apply total_ext. intros c Hc. unfold m. rewrite sumf_scal. f_equal.
        rewrite <- (cell_energy S qn fd st velocity cells G) by exact Hc. apply sumf_ext. intros i Hi. f_equal. f_equal. apply rate_node; auto. lia. }
      rewrite L, (total_pairs _ (partner S st) m (places_nodup S qn fd st cells G)); [|apply (partner_in S qn fd st cells G Hopp)|apply (partner_twice S qn fd st cells G Hopp)].
      set (h := fun p : cell * nat * nat => let '(c, f, a) := p in - (1 / 4) * (omega a * sumf nf (fun q => face_JxW S c f q * Rabs (outward S st a c f q) * (F a (dof_index S c (fd f q)) - behindx F a c f q) ^ 2))).
      rewrite <- total_scal. rewrite (total_ext _ _ h).
      - rewrite sum_places, <- sumf_scal. apply sumf_ext. intros b Hb. unfold h, jumps. rewrite <- !total_scal. apply total_ext. intros c Hc. rewrite <- !sumf_scal. apply sumf_ext. intros f Hf. ring.
      - intros p Hp. assert (O := Hom p Hp). destruct p as [[c f] a]. assert (P := fun q => partner_outward S qn fd st cells G Hopp (c, f, a) q Hp).
        assert (Hp' := partner_in S qn fd st cells G Hopp _ Hp). apply in_places in Hp. destruct Hp as (Hc & Hf & Ha). unfold m, h.
        unfold partner in *. destruct (at_face S c f) as [c' f'|b'] eqn:E.
        + cbn [snd] in O. apply in_places in Hp'. destruct Hp' as (Hc' & Hf' & _).
          destruct (gm_conforming _ _ _ _ G c f c' f' Hc Hf E) as (_ & _ & E' & _).
          rewrite <- Rmult_plus_distr_l, <- sumf_plus.
          match goal with |- 1 / 2 * (omega a * ?X) = - (1 / 4) * (omega a * ?Y) => replace X with (- (1 / 2) * Y); [field|] end.
          rewrite <- sumf_scal. apply sumf_ext. intros q Hq. destruct (P q Hq) as [P1 P2].
          rewrite !(contribution_upwind S fd st velocity cells Hsup) by assumption. unfold behind. rewrite E, E', P1, P2.
          destruct (Rlt_dec (outward S st a c f q) 0), (Rlt_dec (- outward S st a c f q) 0); try lra.
          * rewrite Rabs_left by lra. field.
          * rewrite Rabs_right by lra. field.
          * replace (outward S st a c f q) with 0 by lra. rewrite Rabs_R0. field.
        + cbn [snd] in O. destruct (velocity b') as [u|] eqn:Eu; [|elim (Hsup c f b' Hc Hf E Eu)]. rewrite O.
          destruct (Hopp a Ha) as (b & E1 & Hb & E2 & Hw & He). assert (Ob : opposite st a = b) by (unfold opposite; rewrite E1; reflexivity). rewrite Ob in *.
          assert (Oa : opposite st b = a) by (unfold opposite; rewrite E2; reflexivity).
          rewrite <- Rmult_plus_distr_l, <- sumf_plus.
          match goal with |- 1 / 2 * (omega a * ?X) = - (1 / 4) * (omega a * ?Y) => replace X with (- (1 / 2) * Y); [field|] end.
          rewrite <- sumf_scal. apply sumf_ext. intros q Hq. destruct (P q Hq) as [P1 P2].
          rewrite !(contribution_upwind S fd st velocity cells Hsup) by assumption. unfold behind. rewrite E, Eu, P1, Ob, Oa.
          assert (Ws : forall d, wall_shift S st (u (face_point S c f q)) d = 0).
          { intros d. unfold wall_shift. rewrite sumf_zero; [field; exact Hcs|]. intros k Hk. rewrite (Rest c f b' u _ k Hc Hf E Eu). ring. }
          rewrite !Ws.
          destruct (Rlt_dec (outward S st a c f q) 0), (Rlt_dec (- outward S st a c f q) 0); try lra.
          * rewrite Rabs_left by lra. field.
          * rewrite Rabs_right by lra. field.
          * replace (outward S st a c f q) with 0 by lra. rewrite Rabs_R0. field.
    Qed.
  End Weighted.

  Lemma single_ok a : no_walls S cells -> forall p, In p (places S st cells) -> (fun b => if Nat.eqb a b then 1 else 0) (snd (partner S st p)) = (fun b => if Nat.eqb a b then 1 else 0) (snd p).
  Proof.
    intros Nw [[c f] b] Hp. apply in_places in Hp. destruct Hp as (Hc & Hf & _). destruct (Nw c f Hc Hf) as (c' & f' & E). unfold partner. rewrite E. reflexivity.
  Qed.
  Lemma pick_direction a (g : nat -> R) : (1 <= a < st_Q st)%nat -> sumf (st_Q st - 1) (fun b => (if Nat.eqb a (Datatypes.S b) then 1 else 0) * g (Datatypes.S b)) = g a.
  Proof.
    intros Ha. rewrite (sumf_ext _ _ (fun b => if Nat.eqb (a - 1) b then g (Datatypes.S b) else 0)).
    - rewrite (sumf_one _ (a - 1) (fun b => g (Datatypes.S b))) by lia. f_equal. lia.
    - intros b Hb. destruct (Nat.eqb_spec a (Datatypes.S b)), (Nat.eqb_spec (a - 1) b); try lia; ring.
  Qed.
  Lemma mass_periodic F a : no_walls S cells -> (1 <= a < st_Q st)%nat -> integral S qn cells (rate s F) a = 0.
  Proof.
    intros Nw Ha. assert (M := mass_pairs (fun b => if Nat.eqb a b then 1 else 0) F (single_ok a Nw)). cbn beta in M.
    rewrite (pick_direction a (integral S qn cells (rate s F)) Ha) in M. rewrite M. rewrite sumf_zero; [ring|].
    intros b Hb. rewrite total_zero; [ring|]. intros c Hc. apply sumf_zero. intros f Hf. destruct (Nw c f Hc Hf) as (c' & f' & E). rewrite E. reflexivity.
  Qed.
  Lemma energy_periodic F a : no_walls S cells -> (1 <= a < st_Q st)%nat ->
    inner S qn cells (F a) (rate s F a) = - (1 / 4) * jumps S fd st velocity cells F a.
  Proof.
    intros Nw Ha. assert (Rw : resting_walls S velocity cells).
    { intros c f b u x k Hc Hf E. destruct (Nw c f Hc Hf) as (c' & f' & E'). congruence. }
    assert (M := energy_pairs (fun b => if Nat.eqb a b then 1 else 0) F (single_ok a Nw) Rw). cbn beta in M.
    rewrite (pick_direction a (fun a => inner S qn cells (F a) (rate s F a)) Ha), (pick_direction a (jumps S fd st velocity cells F) Ha) in M. exact M.
  Qed.
  Lemma symmetric_ok (omega : nat -> R) : (forall a, (1 <= a < st_Q st)%nat -> omega (opposite st a) = omega a) ->
    forall p, In p (places S st cells) -> omega (snd (partner S st p)) = omega (snd p).
  Proof.
    intros H [[c f] b] Hp. apply in_places in Hp. destruct Hp as (Hc & Hf & Hb). unfold partner. destruct (at_face S c f); [reflexivity|]. cbn [snd]. apply H. exact Hb.
  Qed.

  (** Mass in the whole: what walls that move through the fluid push in. *)
  Lemma mass_walls F : (forall i j, (i < sp_dim S)%nat -> (j < sp_dim S)%nat -> sumf (st_Q st) (fun a => st_w st a * st_e st a i * st_e st a j) = st_cs2 st * delta i j) ->
    (forall k, (k < sp_dim S)%nat -> st_e st 0 k = 0) -> over_directions st (integral S qn cells (rate s F)) = - wall_flux S velocity cells.
  Proof.
    intros Iso Zero. assert (M := mass_pairs (fun _ => 1) F (fun p _ => eq_refl)). unfold over_directions.
    rewrite (sumf_ext (st_Q st - 1) _ (fun b => 1 * integral S qn cells (rate s F) (Datatypes.S b))) by (intros; ring). rewrite M. f_equal. clear M.
    rewrite (sumf_ext (st_Q st - 1) _ (fun b => total cells (fun c => sumf nF (fun f =>
          match at_face S c f with Beyond _ _ => 0 | Outside b' => match velocity b' with Some u =>
            1 / 2 * sumf nf (fun q => face_JxW S c f q * outward S st (Datatypes.S b) c f q * wall_shift S st (u (face_point S c f q)) (Datatypes.S b)) | None => 0 end end)))) by (intros; ring).
    rewrite <- total_sumf_swap. unfold wall_flux. apply total_ext. intros c Hc. rewrite sumf_swap. apply sumf_ext. intros f Hf.
    destruct (at_face S c f) as [c' f'|b']; [apply sumf_0|]. destruct (velocity b') as [u|]; [|apply sumf_0].
    rewrite sumf_scal, sumf_swap, <- sumf_scal. apply sumf_ext. intros q Hq.
    set (v := u (face_point S c f q)). set (nn := face_normal S c f q).
    rewrite (sumf_ext _ _ (fun b => face_JxW S c f q * (outward S st (Datatypes.S b) c f q * wall_shift S st v (Datatypes.S b)))) by (intros; ring).
    rewrite sumf_scal.
    assert (E : sumf (st_Q st - 1) (fun b => outward S st (Datatypes.S b) c f q * wall_shift S st v (Datatypes.S b)) = sumf (st_Q st) (fun a => outward S st a c f q * wall_shift S st v a)).
    { replace (sumf (st_Q st)) with (sumf (Datatypes.S (st_Q st - 1))) by (f_equal; lia). rewrite sumf_S_first.
      replace (outward S st 0 c f q) with 0; [ring|]. unfold outward. symmetry. apply sumf_zero. intros k Hk. rewrite Zero by exact Hk. ring. }
    rewrite E.
    assert (E2 : sumf (st_Q st) (fun a => outward S st a c f q * wall_shift S st v a) = 2 * sumf (sp_dim S) (fun k => nn k * v k)).
    { rewrite (sumf_ext _ _ (fun a => 2 / st_cs2 st * sumf (sp_dim S) (fun i => sumf (sp_dim S) (fun j => nn i * v j * (st_w st a * st_e st a i * st_e st a j))))).
      - rewrite sumf_scal, sumf_swap.
        rewrite (sumf_ext (sp_dim S) _ (fun i => st_cs2 st * (nn i * v i))).
        + rewrite sumf_scal. field. exact Hcs.
        + intros i Hi. rewrite sumf_swap. rewrite (sumf_ext (sp_dim S) _ (fun j => delta i j * (st_cs2 st * (nn i * v j)))).
          * rewrite sumf_delta by exact Hi. ring.
          * intros j Hj. rewrite sumf_scal, Iso by assumption. ring.
      - intros a Ha. unfold outward, wall_shift. fold nn.
        replace (sumf (sp_dim S) (fun i => sumf (sp_dim S) (fun j => nn i * v j * (st_w st a * st_e st a i * st_e st a j))))
          with (st_w st a * (sumf (sp_dim S) (fun i => nn i * st_e st a i) * sumf (sp_dim S) (fun j => v j * st_e st a j))); [field; exact Hcs|].
        rewrite <- sumf_scal_r, <- sumf_scal. apply sumf_ext. intros i Hi. rewrite <- sumf_scal, <- sumf_scal. apply sumf_ext. intros j Hj. ring. }
    rewrite E2. field.
  Qed.

  (** Without jumps the operator is the derivative. *)
  Lemma no_jump F c i a : In c cells -> (i < n)%nat -> (1 <= a < st_Q st)%nat ->
    (forall f q, (f < nF)%nat -> (q < nf)%nat -> outward S st a c f q < 0 -> fd f q = i -> behindx F a c f q = F a (dof_index S c i)) ->
    rate s F a (dof_index S c i) = - sumf (sp_dim S) (fun k => st_e st a k * slope S qn c (fun j => F a (dof_index S c j)) i k).
  Proof.
    intros Hc Hi Ha H. rewrite rate_node by assumption. unfold node_rate. rewrite (sumf_zero nF); [ring|]. intros f Hf. apply sumf_zero. intros q Hq.
    destruct (Nat.eqb_spec i (fd f q)) as [E|]; [|reflexivity]. rewrite (contribution_upwind S fd st velocity cells Hsup) by assumption.
    destruct (Rlt_dec (outward S st a c f q) 0) as [L|L]; [|ring]. rewrite (H f q Hf Hq L) by (symmetry; exact E). rewrite <- E. ring.
  Qed.
End Main.
