(** Concrete runs of the multistep object. *)
From Verif Require Import Prelude StencilData ModelStencils SpecStencils SpecCollision BigSum ProofStencils
  ModelConfigNames ModelEquilibria ModelCollision ProofEquilibria ProofEqMoments ProofCollideNode ProofCollideAll
  ModelOldCollision SpecOldCollision ProofOldCollision ProofOldNode ProofOldForce ProofOldLoop ModelMultistep SpecMultistep
  ProofMultistep ProofMultistep2 ProofMultistep3 ProofMultistep4 ProofMultistep5.
Local Open Scope R_scope.

(** All particles at rest; the equilibrium of density 1. *)
Definition still (i : nat) : R := match i with O => 1 | _ => 0 end.
Definition rest9 (i : nat) : R := vec [4/9; 1/9; 1/9; 1/9; 1/9; 1/36; 1/36; 1/36; 1/36] i.
Definition at_node (f : nat -> R) : mstate := fresh {| fl_f := fun _ => f; fl_rho := fun _ => 1; fl_u := fun _ _ => 0 |}.
Definition pair_of (f g : nat -> R) : mstate :=
  fresh {| fl_f := fun n => match n with O => f | _ => g end; fl_rho := fun _ => 1; fl_u := fun _ _ => 0 |}.
Definition the_multi (c : multistep_scheme) (t : StencilType) : multi :=
  {| mu_m := old_new t 1 (1 / (1 * st_cs2 (stencil_of t 1))) 1; mu_nu := 1; mu_scheme := c |}.

Lemma the_multi_made c t : make_multi c t 1 1 1 = Ok (the_multi c t).
Proof. unfold make_multi, calculateRelaxationParameter. destruct (Rlt_dec 0 1); [reflexivity|lra]. Qed.
Lemma ratio3 : ratio 1 1 1 = 3.
Proof. unfold ratio. cbn [D2Q9 st_cs2]. field. Qed.

Lemma still_mass : mass (D2Q9 1) still = 1.
Proof. unfold mass, still. nine. lra. Qed.
Lemma rest_mass : mass (D2Q9 1) rest9 = 1.
Proof. unfold mass, rest9. nine. lra. Qed.
Lemma still_momentum a : (a < 2)%nat -> momentum (D2Q9 1) still a = 0.
Proof. intros Ha. unfold momentum, still. do 2 (destruct a as [|a]; [nine; lra|]). lia. Qed.
Lemma rest_momentum a : (a < 2)%nat -> momentum (D2Q9 1) rest9 a = 0.
Proof. intros Ha. unfold momentum, rest9. do 2 (destruct a as [|a]; [nine; lra|]). lia. Qed.
Lemma quiet_equilibrium f i : mass (D2Q9 1) f = 1 -> (forall a, (a < 2)%nat -> momentum (D2Q9 1) f a = 0) -> (i < 9)%nat ->
  equilibrium (D2Q9 1) f i = rest9 i.
Proof.
  intros M J Hi. unfold equilibrium. cbv zeta. unfold dot. cbn [st_D D2Q9 sumf]. fold (D2Q9 1). rewrite M, (J 0%nat), (J 1%nat) by lia.
  unfold rest9. do 9 (destruct i as [|i]; [unfold vec; cbn [nth]; cbn [st_w st_e st_cs2 D2Q9]; lit15; field|]). lia.
Qed.

Lemma ten : 1 / 10^10 <= 1. Proof. assert (1 <= 10^10) by (apply pow_R1_Rle; lra). apply (Rmult_le_reg_r (10^10)); [lra|]. unfold Rdiv. rewrite Rmult_assoc, Rinv_l by lra. lra. Qed.

(** Exchange of the first population of two nodes. *)
Definition swap (f : nat -> nat -> R) : nat -> nat -> R :=
  fun n i => match i with 1%nat => f (match n with O => 1%nat | S _ => O end) i | _ => f n i end.
Lemma swap_keeps : keeps_totals (D2Q9 1) [0%nat; 1%nat] swap.
Proof.
  intros f. split.
  - unfold total_mass, total, mass, swap. cbn [map fold_right]. nine. ring.
  - intros a Ha. unfold total_momentum, total, momentum, swap. cbn [map fold_right D2Q9 st_D] in *.
    do 2 (destruct a as [|a]; [nine; ring|]). lia.
Qed.

Lemma local_mass : exists y x', perform (the_multi ADAMSMOULTON4 Stencil_D2Q9) [0%nat; 1%nat] [Collide; Move swap] (pair_of still rest9) = Ok y /\
  multi_collideAll (the_multi ADAMSMOULTON4 Stencil_D2Q9) false [0%nat; 1%nat] y = Ok x' /\
  mass (D2Q9 1) (fl_f (ms_x x') 0%nat) = mass (D2Q9 1) (fl_f (ms_x y) 0%nat) + 1/369.
Proof.
  set (m := the_multi ADAMSMOULTON4 Stencil_D2Q9). set (nodes := [0%nat; 1%nat]).
  assert (Hnd : NoDup nodes) by (repeat constructor; cbn; intuition lia).
  assert (H1 : 1 <> 0) by lra.
  destruct (times_run m nodes eq_refl H1 eq_refl Hnd 1 (pair_of still rest9) eq_refl) as (x1 & E1 & F1 & A).
  { intros n [<-|[<-|[]]]; [change (1 / 10^10 <= mass (D2Q9 1) still); rewrite still_mass|change (1 / 10^10 <= mass (D2Q9 1) rest9); rewrite rest_mass]; exact ten. }
  destruct (A 0%nat (or_introl eq_refl)) as (_ & B0 & C0). destruct (A 1%nat (or_intror (or_introl eq_refl))) as (_ & B1 & C1).
  change (D2Q9 (om_s (mu_m m))) with (D2Q9 1) in B0, C0, B1, C1. cbn [ms_x pair_of fresh fl_f] in B0, C0, B1, C1.
  assert (Q0 : forall i, (i < 9)%nat -> equilibrium (D2Q9 1) still i = rest9 i) by (intros i Hi; apply quiet_equilibrium; [apply still_mass|apply still_momentum|exact Hi]).
  assert (Q1 : forall i, (i < 9)%nat -> equilibrium (D2Q9 1) rest9 i = rest9 i) by (intros i Hi; apply quiet_equilibrium; [apply rest_mass|apply rest_momentum|exact Hi]).
  assert (B0' : forall i, (i < 9)%nat -> fl_f (ms_x x1) 0%nat i = rest9 i + amp m 1 * (still i - rest9 i)) by (intros i Hi; rewrite (B0 i Hi), (Q0 i Hi); reflexivity).
  assert (B1' : forall i, (i < 9)%nat -> fl_f (ms_x x1) 1%nat i = rest9 i) by (intros i Hi; rewrite (B1 i Hi), (Q1 i Hi); ring).
  assert (C0' : forall i, (i < 9)%nat -> ms_F x1 0%nat i = still i /\ ms_FEq x1 0%nat i = rest9 i).
  { intros i Hi. destruct (C0 i Hi) as [X Y]. rewrite X, Y, (Q0 i Hi), amp_0. split; [ring|reflexivity]. }
  assert (C1' : forall i, (i < 9)%nat -> ms_F x1 1%nat i = rest9 i /\ ms_FEq x1 1%nat i = rest9 i).
  { intros i Hi. destruct (C1 i Hi) as [X Y]. rewrite X, Y, (Q1 i Hi), amp_0. split; [ring|reflexivity]. }
  assert (EA : amp m 1 = 28/41).
  { destruct (rec_coeffs ADAMSMOULTON4 1 1 1 m H1 (the_multi_made _ _)) as (_ & _ & E). rewrite E, ratio3. field. }
  assert (E11 : factor1 m = 1/41) by (rewrite (factor1_ok ADAMSMOULTON4 1 1 1 m H1 (the_multi_made _ _)), ratio3; field).
  set (y := multi_stream swap x1).
  assert (M0 : mass (D2Q9 1) (fl_f (ms_x y) 0%nat) = 1 + 28/369).
  { rewrite (mass_ext (D2Q9 1) _ (fun i => match i with 1%nat => rest9 1%nat | _ => rest9 i + 28/41 * (still i - rest9 i) end)).
    - unfold mass, rest9, still. nine. lra.
    - intros i Hi. unfold y, multi_stream, swap. cbn [ms_x fl_f]. rewrite <- EA. destruct i as [|[|i]]; [apply B0'; lia|apply B1'; lia|apply B0'; exact Hi]. }
  assert (M1 : mass (D2Q9 1) (fl_f (ms_x y) 1%nat) = 1 - 28/369).
  { rewrite (mass_ext (D2Q9 1) _ (fun i => match i with 1%nat => rest9 i + 28/41 * (still i - rest9 i) | _ => rest9 i end)).
    - unfold mass, rest9, still. nine. lra.
    - intros i Hi. unfold y, multi_stream, swap. cbn [ms_x fl_f]. rewrite <- EA. destruct i as [|[|i]]; [apply B1'; lia|apply B0'; lia|apply B1'; exact Hi]. }
  pose proof ten as T.
  destruct (multi_runs m nodes y eq_refl Hnd) as [x' Hx'].
  { assert (T3 : 1 / 10^10 <= 1/10).
    { assert (10 <= 10^10) by (change (10^10) with (10 * 10^9); assert (1 <= 10^9) by (apply pow_R1_Rle; lra); lra).
      apply (Rmult_le_reg_r (10^10)); [lra|]. unfold Rdiv. rewrite Rmult_assoc, Rinv_l by lra. lra. }
    intros n [<-|[<-|[]]]; change (D2Q9 (om_s (mu_m m))) with (D2Q9 1); [rewrite M0|rewrite M1]; lra. }
  exists y, x'. split; [|split; [exact Hx'|]].
  - cbn [perform]. change (collide_times m nodes 1 (pair_of still rest9)) with (obind (multi_collideAll m false nodes (pair_of still rest9)) (fun z => Ok z)) in E1.
    destruct (multi_collideAll m false nodes (pair_of still rest9)) as [z| |]; try discriminate. cbn [obind] in E1 |- *. injection E1 as ->. reflexivity.
  - destruct (multi_ok m nodes y x' eq_refl Hnd Hx') as (_ & G & _). destruct (G 0%nat (or_introl eq_refl)) as (r & Hr & R1 & _).
    pose proof (unforced_mass m eq_refl H1 eq_refl _ _ _ _ Hr) as UM. change (D2Q9 (om_s (mu_m m))) with (D2Q9 1) in UM. rewrite R1, UM. clear UM.
    assert (FN : ms_first y = false) by (unfold y, multi_stream; cbn [ms_first]; exact F1).
    unfold hist_F, hist_FEq. rewrite FN. change (ms_F y) with (if ms_first x1 then ms_F x1 else swap (ms_F x1)). change (ms_FEq y) with (if ms_first x1 then ms_FEq x1 else swap (ms_FEq x1)). rewrite F1.
    rewrite (mass_ext (D2Q9 1) (swap (ms_FEq x1) 0%nat) rest9).
    2: { intros i Hi. unfold swap. destruct i as [|[|i]]; [apply C0'; lia|apply C1'; lia|apply C0'; exact Hi]. }
    rewrite (mass_ext (D2Q9 1) (swap (ms_F x1) 0%nat) (fun i => match i with 1%nat => rest9 1%nat | _ => still i end)).
    2: { intros i Hi. unfold swap. destruct i as [|[|i]]; [apply C0'; lia|apply C1'; lia|apply C0'; exact Hi]. }
    rewrite E11, rest_mass.
    assert (MF : mass (D2Q9 1) (fun i => match i with 1%nat => rest9 1%nat | _ => still i end) = 1 + 1/9) by (unfold mass, rest9, still; nine; lra).
    rewrite MF. change (adv_f m) with 1. change (adv_F m) with 0. lra.
Qed.

(** ** Forces *)
Definition wind (a : nat) : R := match a with O => 1 | _ => 0 end.
Definition forced_multi (c : multistep_scheme) (ft : ForceType) : multi := multi_force (the_multi c Stencil_D2Q9) ft wind.
Lemma forced_runs c ft : exists x', multi_collideAll (forced_multi c ft) false [0%nat] (at_node rest9) = Ok x'.
Proof.
  apply multi_runs; [reflexivity|repeat constructor; cbn; tauto|]. intros n [<-|[]].
  change (1 / 10^10 <= mass (D2Q9 1) rest9). rewrite rest_mass. exact ten.
Qed.
