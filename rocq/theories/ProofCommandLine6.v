(** Command lines that do not do what is documented. *)
From Coq Require Import String QArith Qreals.
From Verif Require Import Prelude StencilData ModelStencils ModelText SpecText ProofText ConfigTypes ConfigData EnumData ModelConfig SpecConfig
  ProofConfig ProofConfig2 ProofConfig3 ModelCommandLine SpecCommandLine ProofCommandLine ProofCommandLine2 ProofCommandLine3 ProofCommandLine4
  ProofCommandLine5.
Open Scope R_scope.
Local Open Scope string_scope.

Definition nothing : arguments := fun _ => None.
Definition fitting (name : string) (v : aval) : Prop :=
  forall d, In d (ps_defs new_parser) -> df_name d = name -> type_of v = df_type d /\ (forall z, v = AInt z -> - 2 ^ 31 <= z < 2 ^ 31)%Z.

Lemma nothing_parsed : parsed nothing.
Proof. intros d v _ E. discriminate. Qed.
Lemma also_parsed : forall name v a, parsed a -> fitting name v -> parsed (also name v a).
Proof.
  intros name v a Hp F d w I. unfold also. destruct (String.eqb_spec (df_name d) name) as [E|]; [|exact (Hp d w I)].
  intros Ew. injection Ew as <-. exact (F d I E).
Qed.
Lemma only_is : forall name v n, only name v n = also name v nothing n.
Proof. reflexivity. Qed.
Ltac fitting := intros d I E; cbn [ps_defs new_parser In] in I;
  repeat (destruct I as [<-|I]; [first [discriminate E | split; [reflexivity|intros z Ez; try discriminate Ez; injection Ez as <-; lia]]|]); contradiction.

Lemma also_asks : forall name v a o w, asks (also name v a) o w -> In (o, w) (meaning name v) \/ asks a o w.
Proof.
  intros name v a o w (n & x & E & I). unfold also in E. destruct (String.eqb_spec n name) as [->|].
  - injection E as <-. left. exact I.
  - right. exists n, x. split; assumption.
Qed.
Lemma nothing_asks : forall o w, ~ asks nothing o w.
Proof. intros o w (n & x & E & _). discriminate. Qed.

(** --mrt-relax nonsense *)
Lemma mrt_relax_accepts : forall s h, reached h -> exists h', applyToSolverConfiguration (only "mrt-relax" (AString s)) h = (Ok tt, h') /\
  (value_of (documented "mrt-relax") s = None -> seen (Value O_MRTRelaxationTimes) h' = Ok (VEnum N_RELAX_DHUMIERES_PAPER)).
Proof.
  intros s h R.
  assert (Hp : parsed (only "mrt-relax" (AString s))) by (apply only_parsed; discriminate).
  assert (M : exists n, (n < 3)%nat /\ meaning "mrt-relax" (AString s) = [(O_MRTRelaxationTimes, VEnum n)] /\
                (value_of (documented "mrt-relax") s = None -> n = N_RELAX_DHUMIERES_PAPER)).
  { unfold meaning. change (accepted "mrt-relax") with (documented "mrt-relax"). unfold value_of. cbn.
    destruct (String.eqb s "full"); [eexists; split; [|split; [reflexivity|discriminate]]; cbv; lia|].
    destruct (String.eqb s "dellar-only-N"); [eexists; split; [|split; [reflexivity|discriminate]]; cbv; lia|].
    destruct (String.eqb s "dhumieres-paper"); (eexists; split; [|split; [reflexivity|reflexivity]]; cbv; lia). }
  destruct M as (n & Bn & M & Nn).
  destruct (succeeds _ h Hp R) as [h' E].
  - apply only_no_conflict. cbn. tauto.
  - intros m t E _ Nm. exfalso. unfold only in E. destruct (String.eqb_spec m "mrt-relax"); [contradiction|discriminate].
  - split; [|discriminate]. intros o v H. apply only_asks in H. rewrite M in H. destruct H as [H|[]]. injection H as <- <-.
    cbn [in_domain]. change (enum_size O_MRTRelaxationTimes) with 3%nat. exact Bn.
  - discriminate.
  - exists h'. split; [exact E|]. intros V. rewrite <- (Nn V).
    destruct (proj1 (applied _ h Hp R h' E) O_MRTRelaxationTimes (VEnum n)) as (w & S & W).
    + left. apply only_asks. rewrite M. left. reflexivity.
    + cbn in W. subst w. exact S.
Qed.

Lemma mrt_relax_witness : exists s h h', value_of (documented "mrt-relax") s = None /\ reached h /\
  applyToSolverConfiguration (only "mrt-relax" (AString s)) h = (Ok tt, h') /\ seen (Value O_MRTRelaxationTimes) h' = Ok (VEnum N_RELAX_DHUMIERES_PAPER).
Proof.
  destruct (mrt_relax_accepts "nonsense" default_configuration reached_start) as (h' & E & S).
  exists "nonsense", default_configuration, h'. split; [reflexivity|]. split; [exact reached_start|]. split; [exact E|]. exact (S eq_refl).
Qed.

(** --stencil d3q13 *)
Lemma stencil_witness : exists s h h', value_of (documented "stencil") s = None /\ reached h /\
  applyToSolverConfiguration (only "stencil" (AString s)) h = (Ok tt, h') /\ seen (Value O_Stencil) h' = Ok (VEnum N_Stencil_D3Q13).
Proof.
  assert (Hp : parsed (only "stencil" (AString "d3q13"))) by (apply only_parsed; discriminate).
  destruct (succeeds _ default_configuration Hp reached_start) as [h' E].
  - apply only_no_conflict. cbn. tauto.
  - intros m t E _ _. unfold only in E. destruct (String.eqb_spec m "stencil") as [->|]; [|discriminate]. injection E as <-. discriminate.
  - split; [|discriminate]. intros o v H. apply only_asks in H. cbn in H. destruct H as [H|[]]. injection H as <- <-. cbv; lia.
  - discriminate.
  - exists "d3q13", default_configuration, h'. split; [reflexivity|]. split; [exact reached_start|]. split; [exact E|].
    destruct (proj1 (applied _ _ Hp reached_start h' E) O_Stencil (VEnum N_Stencil_D3Q13)) as (w & S & W).
    + left. apply only_asks. left. reflexivity.
    + cbn in W. subst w. exact S.
Qed.

(** --standard-lbm --standard-lbm-with 4 *)
Definition both_lbm : arguments := also "standard-lbm" AFlag (only "standard-lbm-with" (AInt 4)).
Lemma both_parsed : parsed both_lbm.
Proof. apply also_parsed; [|fitting]. apply (also_parsed "standard-lbm-with" (AInt 4) nothing nothing_parsed). fitting. Qed.
Lemma lbm_parsed : parsed (only "standard-lbm" AFlag).
Proof. apply (also_parsed "standard-lbm" AFlag nothing nothing_parsed). fitting. Qed.

Lemma exec_end : forall l r h, inv h -> Forall typed l -> snd (exec l r h) = snd (exec l (Ok tt) h).
Proof.
  induction l as [|x l IH]; intros r h I T; [reflexivity|]. inversion T as [|? ? Tx Tl]; subst. cbn [exec]. unfold seq, bind.
  destruct (set_cases x h I Tx) as [[h1 [S I1]]|S]; rewrite S; [exact (IH r h1 I1 Tl)|reflexivity].
Qed.

Lemma atomic_witness : exists a h h', parsed a /\ reached h /\ conflicting a /\ applyToSolverConfiguration a h = (Throw, h') /\
  seen (Value O_AdvectionScheme) h = Ok (VEnum N_SEDG) /\ seen (Value O_AdvectionScheme) h' = Ok (VEnum N_SEMI_LAGRANGIAN).
Proof.
  set (h := default_configuration).
  assert (C : conflicting both_lbm) by (right; left; split; discriminate).
  destruct (apply_is both_lbm h both_parsed reached_start) as [T E].
  destruct (apply_is (only "standard-lbm" AFlag) h lbm_parsed reached_start) as [T1 E1].
  assert (L : fst (the_plan both_lbm) = fst (the_plan (only "standard-lbm" AFlag))) by reflexivity.
  assert (G1 : snd (the_plan (only "standard-lbm" AFlag)) = Ok tt) by reflexivity.
  destruct (succeeds (only "standard-lbm" AFlag) h lbm_parsed reached_start) as [h' E'].
  - unfold conflicting, only. cbn. intros [[_ [H|[(z & H & _)|(s & H & _)]]]|[[_ H]|[H _]]]; congruence.
  - intros n s H. unfold only in H. destruct (String.eqb n "standard-lbm"); discriminate.
  - split; [|discriminate]. intros o v H. apply only_asks in H. destruct H.
  - discriminate.
  - exists both_lbm, h, h'. split; [exact both_parsed|]. split; [exact reached_start|]. split; [exact C|].
    assert (Th := conflict_rejected both_lbm h both_parsed reached_start C).
    assert (X : snd (applyToSolverConfiguration both_lbm h) = h').
    { rewrite E, L, (exec_end _ _ h (reached_inv h reached_start)) by (rewrite <- L; exact T). rewrite E1, G1 in E'. rewrite E'. reflexivity. }
    split; [destruct (applyToSolverConfiguration both_lbm h) as [r h1]; cbn in Th, X; subst; reflexivity|]. split; [reflexivity|].
    destruct (proj1 (applied _ _ lbm_parsed reached_start h' E') O_AdvectionScheme (VEnum N_SEMI_LAGRANGIAN)) as (w & S & W).
    + right. split; [intros w H; apply only_asks in H; destruct H|]. left. split; [discriminate|]. right. right. left. reflexivity.
    + cbn in W. subst w. exact S.
Qed.

(** --standard-lbm --stencil d3q15 *)
Definition lbm_d3q15 : arguments := also "stencil" (AString "d3q15") (only "standard-lbm" AFlag).
Lemma d3q15_parsed : parsed lbm_d3q15.
Proof. apply also_parsed; [exact lbm_parsed|]. fitting. Qed.

Lemma root_bounds : 14 / 10 <= sqrt 2 <= 15 / 10 /\ 17 / 10 <= sqrt 3 <= 18 / 10.
Proof.
  rewrite <- (sqrt_square (14 / 10)), <- (sqrt_square (15 / 10)), <- (sqrt_square (17 / 10)), <- (sqrt_square (18 / 10)) by lra.
  repeat split; apply sqrt_le_1; lra.
Qed.

Lemma d3q15_no_hop : forall s dx cfl dt, 0 < s -> 0 < dx -> 2 * sqrt 2 - 1 / 100 <= cfl <= 2 * sqrt 2 + 1 / 100 ->
  calculateTimestep dx 2 (stencil_of Stencil_D3Q15 s) cfl = Ok dt -> ~ hops (stencil_of Stencil_D3Q15 s) dt (dx / 2).
Proof.
  intros s dx cfl dt Hs Hdx Hc E H. destruct root_bounds as [B2 B3].
  unfold calculateTimestep in E. cbn [Z.leb Z.compare Pos.compare Pos.compare_cont] in E. injection E as <-.
  specialize (H 1%nat 0%nat ltac:(cbn; lia) ltac:(cbn; lia)).
  assert (V : st_e (stencil_of Stencil_D3Q15 s) 1 0 = s) by (cbn; unfold tbl, tblQ; cbn; unfold Q2R; cbn; lra).
  rewrite V in H. change (st_maxvel (stencil_of Stencil_D3Q15 s)) with (s * sqrt 3) in H.
  assert (Id : cfl * dx / (s * sqrt 3 * 2 * 2) * s = cfl / (2 * sqrt 3) * (dx / 2)) by (field; split; lra).
  rewrite Id in H. apply (no_hop 0 (cfl / (2 * sqrt 3)) (dx / 2)) in H; [exact H|lra| |].
  - apply Rmult_le_reg_r with (2 * sqrt 3); [lra|]. unfold Rdiv at 2. rewrite Rmult_assoc, Rinv_l by lra. lra.
  - apply Rmult_le_reg_r with (2 * sqrt 3); [lra|]. unfold Rdiv at 1. rewrite Rmult_assoc, Rinv_l by lra. lra.
Qed.

Lemma d3q15_witness : exists a h h' cfl, parsed a /\ reached h /\ a "standard-lbm" <> None /\ applyToSolverConfiguration a h = (Ok tt, h') /\
  seen (Value O_Stencil) h' = Ok (VEnum N_Stencil_D3Q15) /\
  seen (Value O_CFL) h' = Ok (VDouble cfl) /\ seen (Value O_SedgOrderOfFiniteElement) h' = Ok (VInt 2) /\
  forall s dx dt, 0 < s -> 0 < dx -> calculateTimestep dx 2 (stencil_of Stencil_D3Q15 s) cfl = Ok dt -> ~ hops (stencil_of Stencil_D3Q15 s) dt (dx / 2).
Proof.
  set (h := default_configuration).
  assert (NC : ~ conflicting lbm_d3q15).
  { unfold conflicting, lbm_d3q15, also, only. cbn. intros [[_ [H|[(z & H & _)|(s & H & _)]]]|[[_ H]|[H _]]]; congruence. }
  destruct (succeeds lbm_d3q15 h d3q15_parsed reached_start NC) as [h' E].
  - intros n s H _ _. unfold lbm_d3q15, also, only in H. destruct (String.eqb_spec n "stencil") as [->|].
    + injection H as <-. discriminate.
    + destruct (String.eqb n "standard-lbm"); discriminate.
  - split; [|discriminate]. intros o v H. apply also_asks in H. destruct H as [H|H].
    + cbn in H. destruct H as [H|[]]. injection H as <- <-. cbv; lia.
    + apply only_asks in H. destruct H.
  - discriminate.
  - destruct (applied _ h d3q15_parsed reached_start h' E) as [Ap _].
    destruct (lbm_effective lbm_d3q15 2 d3q15_parsed NC) as [Ec Eo]; [left; split; [discriminate|reflexivity]|].
    destruct (Ap _ _ Ec) as (w & Sw & cfl & -> & Bc & _). destruct (Ap _ _ Eo) as (w' & So & Ew). cbn in Ew. subst w'.
    destruct (Ap O_Stencil (VEnum N_Stencil_D3Q15)) as (w & Ss & Ws); [left; exists "stencil", (AString "d3q15"); split; [reflexivity|left; reflexivity]|].
    cbn in Ws. subst w.
    exists lbm_d3q15, h, h', cfl. split; [exact d3q15_parsed|]. split; [exact reached_start|]. split; [discriminate|].
    split; [exact E|]. split; [exact Ss|]. split; [exact Sw|]. split; [exact So|].
    intros s dx dt Hs Hdx. apply d3q15_no_hop; try assumption. apply (cfl_near 2); [lia|exact Bc].
Qed.

(** --standard-lbm-with 3 --order-fe 2 *)
Definition lbm_3_2 : arguments := also "order-fe" (AInt 2) (only "standard-lbm-with" (AInt 3)).
Lemma lbm_3_2_parsed : parsed lbm_3_2.
Proof. apply also_parsed; [|fitting]. apply (also_parsed "standard-lbm-with" (AInt 3) nothing nothing_parsed). fitting. Qed.

Lemma d2q9_no_hop : forall s dx cfl dt, 0 < s -> 0 < dx -> 3 * sqrt 2 - 1 / 100 <= cfl <= 3 * sqrt 2 + 1 / 100 ->
  calculateTimestep dx 2 (stencil_of Stencil_D2Q9 s) cfl = Ok dt -> ~ hops (stencil_of Stencil_D2Q9 s) dt (dx / 2).
Proof.
  intros s dx cfl dt Hs Hdx Hc E H. destruct root_bounds as [B2 B3].
  unfold calculateTimestep in E. cbn [Z.leb Z.compare Pos.compare Pos.compare_cont] in E. injection E as <-.
  specialize (H 1%nat 0%nat ltac:(cbn; lia) ltac:(cbn; lia)).
  assert (V : st_e (stencil_of Stencil_D2Q9 s) 1 0 = s) by (cbn; unfold tbl, tblQ; cbn; unfold Q2R; cbn; lra).
  rewrite V in H. change (st_maxvel (stencil_of Stencil_D2Q9 s)) with (s * sqrt 2) in H.
  assert (Id : cfl * dx / (s * sqrt 2 * 2 * 2) * s = cfl / (2 * sqrt 2) * (dx / 2)) by (field; split; lra).
  rewrite Id in H. apply (no_hop 1 (cfl / (2 * sqrt 2)) (dx / 2)) in H; [exact H|lra| |].
  - apply Rmult_le_reg_r with (2 * sqrt 2); [lra|]. unfold Rdiv at 2. rewrite Rmult_assoc, Rinv_l by lra. lra.
  - apply Rmult_le_reg_r with (2 * sqrt 2); [lra|]. unfold Rdiv at 1. rewrite Rmult_assoc, Rinv_l by lra. lra.
Qed.

Lemma lbm_3_2_witness : exists a h h' cfl, parsed a /\ reached h /\ a "standard-lbm-with" = Some (AInt 3) /\ applyToSolverConfiguration a h = (Ok tt, h') /\
  seen (Value O_CFL) h' = Ok (VDouble cfl) /\ seen (Value O_SedgOrderOfFiniteElement) h' = Ok (VInt 2) /\
  forall s dx dt, 0 < s -> 0 < dx -> calculateTimestep dx 2 (stencil_of Stencil_D2Q9 s) cfl = Ok dt -> ~ hops (stencil_of Stencil_D2Q9 s) dt (dx / 2).
Proof.
  set (h := default_configuration).
  assert (NC : ~ conflicting lbm_3_2).
  { unfold conflicting, lbm_3_2, also, only. cbn. intros [[_ [H|[(z & H & N)|(s & H & _)]]]|[[H _]|[H _]]]; try congruence. }
  destruct (succeeds lbm_3_2 h lbm_3_2_parsed reached_start NC) as [h' E].
  - intros n s H _ _. unfold lbm_3_2, also, only in H. destruct (String.eqb n "order-fe"); [discriminate|].
    destruct (String.eqb n "standard-lbm-with"); discriminate.
  - split.
    + intros o v H. apply also_asks in H. destruct H as [H|H].
      * cbn in H. destruct H as [H|[]]. injection H as <- <-. cbn. lia.
      * apply only_asks in H. destruct H.
    + intros n H. cbn in H. injection H as <-. lia.
  - discriminate.
  - destruct (applied _ h lbm_3_2_parsed reached_start h' E) as [Ap _].
    destruct (Ap O_CFL (VDouble (IZR 3 * sqrt 2))) as (w & Sw & cfl & -> & Bc & _).
    { right. split.
      - intros w H. apply also_asks in H. destruct H as [H|H]; [cbn in H; destruct H as [H|[]]; discriminate H|]. apply only_asks in H. destruct H.
      - right. exists 3%Z. split; [reflexivity|left; reflexivity]. }
    destruct (Ap O_SedgOrderOfFiniteElement (VInt 2)) as (w' & So & Ew).
    { left. exists "order-fe", (AInt 2). split; [reflexivity|left; reflexivity]. }
    cbn in Ew. subst w'.
    exists lbm_3_2, h, h', cfl. split; [exact lbm_3_2_parsed|]. split; [exact reached_start|]. split; [reflexivity|].
    split; [exact E|]. split; [exact Sw|]. split; [exact So|].
    intros s dx dt Hs Hdx. apply d2q9_no_hop; try assumption. apply (cfl_near 3); [lia|exact Bc].
Qed.
