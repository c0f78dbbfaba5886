(** Two square cells side by side, bilinear elements; periodic from left to right; below and above periodic or walls. *)
From Verif Require Import Prelude BigSum ModelStencils SpecStencils ModelSemiLagrangian ModelSEDG SpecSEDG ProofSEDG ProofSEDGRate ProofSEDGSums ProofSEDGMain ProofCollideNode ProofSEDGStencil.
Local Open Scope R_scope.

Definition strip_fd (f q : nat) : nat := match f with 0 => 2 * q | 1 => 2 * q + 1 | 2 => q | _ => 2 + q end%nat.
Definition strip_normal (f k : nat) : R := match f, k with 0%nat, 0%nat => -1 | 1%nat, 0%nat => 1 | 2%nat, 1%nat => -1 | 3%nat, 1%nat => 1 | _, _ => 0 end.
Definition sign (i : nat) : R := match i with 0%nat => -1 | _ => 1 end.
Definition strip_grad (j q k : nat) : R := match k with
  | 0%nat => if Nat.eqb (j / 2) (q / 2) then sign (j mod 2) else 0
  | _ => if Nat.eqb (j mod 2) (q mod 2) then sign (j / 2) else 0 end.
Definition strip (walls : bool) : space bool := {|
  sp_dim := 2; dofs_per_cell := 4; n_quadrature_points := 4; n_face_points := 2; faces_per_cell := 4;
  shape_value := fun i q => if Nat.eqb q i then 1 else 0;
  face_shape_value := fun f i q => if Nat.eqb i (strip_fd f q) then 1 else 0;
  shape_grad := fun _ j q k => strip_grad j q k;
  JxW := fun _ _ => 1 / 4; face_JxW := fun _ _ _ => 1 / 2; face_normal := fun _ f _ k => strip_normal f k;
  face_point := fun _ _ _ _ => 0;
  has_support_on_face := fun i f => (Nat.eqb (strip_fd f 0) i || Nat.eqb (strip_fd f 1) i)%bool;
  dof_index := fun (c : bool) i => if c then i else (4 + i)%nat;
  at_face := fun c f => match f with 0%nat => Beyond (negb c) 1 | 1%nat => Beyond (negb c) 0
                 | 2%nat => if walls then Outside 0 else Beyond c 3 | _ => if walls then Outside 1 else Beyond c 2 end |}.
Definition two : list bool := [true; false].

Ltac below i H := repeat (destruct i as [|i]; [|try lia]).
Lemma strip_good walls : good_mesh (strip walls) (fun i => i) strip_fd two.
Proof.
  constructor.
  - left. reflexivity.
  - cbn. lia.
  - constructor; cbn [strip dofs_per_cell n_quadrature_points n_face_points faces_per_cell shape_value face_shape_value has_support_on_face]; auto.
    + intros f q Hf Hq. do 4 (destruct f as [|f]; [do 2 (destruct q as [|q]; [cbn; lia|]); lia|]). lia.
    + intros f q q' Hf Hq Hq'. do 4 (destruct f as [|f]; [cbn [strip_fd]; lia|]). lia.
    + intros f i Hf Hi. rewrite orb_true_iff, !Nat.eqb_eq. split.
      * intros [H|H]; [exists 0%nat|exists 1%nat]; split; auto.
      * intros (q & Hq & H). destruct q as [|[|q]]; [left; exact H|right; exact H|lia].
  - repeat constructor; cbn; intuition discriminate.
  - intros c c' i j _ _ Hi Hj. cbn [strip dofs_per_cell dof_index] in *. destruct c, c'; intros E; split; auto; lia.
  - intros c f c' f' _ Hf E. cbn [strip faces_per_cell at_face n_face_points face_JxW face_normal sp_dim] in *.
    assert (I : forall b, In b two) by (intros []; cbn; auto).
    assert (X : (f = 0%nat /\ c' = negb c /\ f' = 1%nat) \/ (f = 1%nat /\ c' = negb c /\ f' = 0%nat) \/ (walls = false /\ f = 2%nat /\ c' = c /\ f' = 3%nat) \/ (walls = false /\ f = 3%nat /\ c' = c /\ f' = 2%nat)).
    { destruct f as [|[|[|[|f]]]]; [| | | |lia]; [left|right; left|destruct walls; [discriminate|]; right; right; left|destruct walls; [discriminate|]; right; right; right]; repeat split; congruence. }
    destruct X as [(-> & -> & ->)|[(-> & -> & ->)|[(-> & -> & -> & ->)|(-> & -> & -> & ->)]]]; (split; [apply I|]); (split; [lia|]); (split; [try rewrite negb_involutive; reflexivity|]);
      intros q Hq; (split; [reflexivity|]); intros k Hk; destruct k as [|[|k]]; cbn [strip_normal]; lra.
  - intros c q _ _. cbn. lra.
  - intros c _ k u v Hk. cbn [strip sp_dim] in Hk. unfold volume, slope. cbn [strip dofs_per_cell JxW shape_grad faces_per_cell n_face_points face_JxW face_normal sumf].
    destruct k as [|[|k]]; [| |lia]; unfold strip_grad, sign, strip_normal, strip_fd; cbn [Nat.div Nat.divmod Nat.modulo fst snd Nat.sub Nat.eqb Nat.mul Nat.add]; field.
  - intros c _ i k Hi Hk. cbn [strip dofs_per_cell sp_dim] in *. unfold slope. cbn [strip dofs_per_cell shape_grad sumf].
    destruct k as [|[|k]]; [| |lia]; do 4 (destruct i as [|i]; [unfold strip_grad, sign; cbn [Nat.div Nat.divmod Nat.modulo fst snd Nat.sub Nat.eqb]; ring|]); lia.
Qed.
Lemma strip_periodic : no_walls (strip false) two.
Proof. intros c f _ Hf. cbn [strip faces_per_cell at_face] in *. do 4 (destruct f as [|f]; [eexists; eexists; reflexivity|]). lia. Qed.
Lemma strip_supported walls velocity : velocity 0%nat <> None -> velocity 1%nat <> None -> supported (strip walls) velocity two.
Proof.
  intros H H1 c f b _ _ E. cbn [strip at_face] in E. destruct f as [|[|[|f]]], walls; try discriminate.
  - replace b with 0%nat by congruence. exact H.
  - replace b with 1%nat by congruence. exact H1.
Qed.
Lemma periodic_supported velocity : supported (strip false) velocity two.
Proof. intros c f b Hc Hf E. destruct (strip_periodic c f Hc Hf) as (c' & f' & E'). congruence. Qed.

(** ** Values *)
Notation S9 := (stencil_of Stencil_D2Q9 1).
Lemma strip_assembled walls central velocity s : velocity 0%nat <> None -> velocity 1%nat <> None -> reassemble (strip walls) S9 central velocity two empty_system = Ok s ->
  forall F c i a, (i < 4)%nat -> (1 <= a < 9)%nat -> rate s F a (dof_index (strip walls) c i) = node_rate (strip walls) (fun i => i) strip_fd S9 central velocity F c i a.
Proof.
  intros H0 H1 E F c i a Hi Ha. destruct (assembled (strip walls) (fun i => i) strip_fd S9 central velocity two (strip_good walls) (strip_supported walls velocity H0 H1)) as (x & Ex & R).
  - intros b Hb. destruct (moving_opposites Stencil_D2Q9 1 b Hb) as (b' & E1 & Hb' & _). exists b'. auto.
  - assert (P := cs2_pos Stencil_D2Q9 1). lra.
  - cbn. lia.
  - rewrite Ex in E. unfold empty_system in E. cbn [fst snd app] in E. assert (s = x) by (destruct x; cbn [fst snd] in E; congruence). subst x.
    apply R; [destruct c; cbn; auto|exact Hi|exact Ha].
Qed.
Definition e9z (a k : nat) : Z := nth k (nth a [[0; 0]; [1; 0]; [0; 1]; [-1; 0]; [0; -1]; [1; 1]; [-1; 1]; [-1; -1]; [1; -1]]%Z []) 0%Z.
Lemma e9_value a k : (a < 9)%nat -> (k < 2)%nat -> st_e S9 a k = IZR (e9z a k).
Proof.
  intros Ha Hk. cbn [stencil_of D2Q9 st_e]. unfold tbl, tblQ. do 9 (destruct a as [|a]; [do 2 (destruct k as [|k]; [cbn [nth StencilData.D2Q9_dir e9z]; unfold Q2R; cbn; lra|]); lia|]). lia.
Qed.
Lemma outward_value walls a c f q : (a < 9)%nat -> (f < 4)%nat -> outward (strip walls) S9 a c f q = match f with 0%nat => - IZR (e9z a 0) | 1%nat => IZR (e9z a 0) | 2%nat => - IZR (e9z a 1) | _ => IZR (e9z a 1) end.
Proof.
  intros Ha Hf. unfold outward. cbn [strip sp_dim sumf face_normal]. rewrite !e9_value by lia. do 4 (destruct f as [|f]; [cbn [strip_normal]; ring|]). lia.
Qed.
Ltac decide_lt := repeat match goal with |- context [Rlt_dec ?x 0] => destruct (Rlt_dec x 0); try lra end.
Ltac node := unfold node_rate, contribution, shift, own, far, coefficients, slope, volume; cbn [strip sp_dim dofs_per_cell faces_per_cell n_face_points sumf JxW face_JxW at_face face_point shape_grad dof_index];
  unfold strip_grad, strip_fd; cbn [Nat.div Nat.divmod Nat.modulo fst snd Nat.sub Nat.eqb Nat.mul Nat.add negb sign]; rewrite !e9_value by lia; rewrite !outward_value by lia; cbn [e9z nth].
Definition still : nat -> option (point -> point) := fun _ => Some (fun _ _ => 0).
Definition step_function (a j : nat) : R := if Nat.ltb j 4 then 1 else 0.
Lemma step_rate : node_rate (strip false) (fun i => i) strip_fd S9 false still step_function true 0 1 = -2.
Proof. node. unfold step_function. cbn [Nat.ltb Nat.leb]. decide_lt. cbn [fst snd]. field. Qed.
