(** Specification vocabulary for stencils, independent of how a stencil is
    represented: moments of the weighted velocity set and moments of the
    isotropic normal distribution they have to reproduce. *)
From Verif Require Import Prelude ModelStencils.
Open Scope R_scope.

(** e_{i,a}^k0 * e_{i,a+1}^k1 * ... for exponents [ks = k0 :: k1 :: ...]. *)
Fixpoint monomial (st : stencil) (i a : nat) (ks : list nat) : R :=
  match ks with
  | [] => 1
  | k :: ks' => (st_e st i a) ^ k * monomial st i (S a) ks'
  end.

(** sum_i w_i * e_i^ks : the moment of the velocity set with exponents [ks]. *)
Definition mom (st : stencil) (ks : list nat) : R :=
  sumf (st_Q st) (fun i => st_w st i * monomial st i 0 ks).

(** k-th moment of the one-dimensional standard normal distribution:
    1, 0, 1, 0, 3, 0, 15, ... *)
Fixpoint normal_moment (k : nat) : Z :=
  match k with
  | O => 1
  | S O => 0
  | S (S n) => Z.of_nat (S n) * normal_moment n
  end.

Definition sum_list (ks : list nat) : nat := fold_right Nat.add O ks.

(** Moment with exponents [ks] of the isotropic normal distribution with variance [cs2]. *)
Definition gauss (cs2 : R) (ks : list nat) : R :=
  IZR (fold_right Z.mul 1%Z (map normal_moment ks)) * cs2 ^ (Nat.div2 (sum_list ks)).

(** Euclidean length of direction [i]. *)
Definition dir_norm (st : stencil) (i : nat) : R :=
  sqrt (sumf (st_D st) (fun a => st_e st i a * st_e st i a)).

(** Accuracy claimed for each stencil: up to which total exponent the moments
    agree with the isotropic normal distribution ... *)
Definition moment_order (t : StencilType) : nat :=
  match t with
  | Stencil_D2Q25H => 9
  | Stencil_D2Q777 => 3
  | _ => 5
  end.

(** ... and how accurately, relative to the power of the speed of sound
    (0 = exactly; non-zero for the stencils written as decimal literals). *)
Definition moment_tol (t : StencilType) : R :=
  match t with
  | Stencil_D2Q9 | Stencil_D3Q19 | Stencil_D3Q15 | Stencil_D3Q27
  | Stencil_D3Q13 | Stencil_RD3Q27 | Stencil_D2Q25H => 0
  | Stencil_D3Q21 => 1 / 10^14
  | Stencil_D3V27 => 2 / 10^15
  | Stencil_D2Q19H | Stencil_D2Q19V => 1 / 10^15
  | Stencil_D3Q45 => 1 / 10^14
  | Stencil_D3Q77 => 2 / 10^14
  | Stencil_D2Q777 => 1 / 10^7
  end.

(** What getMaxParticleVelocityMagnitude reports compared with the longest
    direction: exactly its length, more than it, or less than it. *)
Inductive maxvel_kind := MaxVelExact | MaxVelAbove | MaxVelBelow.

Definition maxvel_class (t : StencilType) : maxvel_kind :=
  match t with
  | Stencil_D2Q9 | Stencil_D3Q15 | Stencil_D3Q19 | Stencil_RD3Q27 => MaxVelExact
  | Stencil_D3Q13 | Stencil_D3Q21 => MaxVelAbove
  | Stencil_D3Q27 | Stencil_D2Q19H | Stencil_D2Q19V | Stencil_D2Q777
  | Stencil_D2Q25H | Stencil_D3Q45 | Stencil_D3Q77 | Stencil_D3V27 => MaxVelBelow
  end.

Definition maxvel_spec (st : stencil) (k : maxvel_kind) : Prop :=
  match k with
  | MaxVelExact => (forall i, (i < st_Q st)%nat -> dir_norm st i <= st_maxvel st) /\
                   (exists i, (i < st_Q st)%nat /\ dir_norm st i = st_maxvel st)
  | MaxVelAbove => forall i, (i < st_Q st)%nat -> dir_norm st i < st_maxvel st
  | MaxVelBelow => exists i, (i < st_Q st)%nat /\ st_maxvel st < dir_norm st i
  end.

(** Product e_{i,a1} * e_{i,a2} * ... for a list of component indices. *)
Fixpoint eprod (st : stencil) (i : nat) (l : list nat) : R :=
  match l with
  | [] => 1
  | a :: r => st_e st i a * eprod st i r
  end.

(** Tensor moment sum_i w_i e_{i,a1} e_{i,a2} ... *)
Definition tmom (st : stencil) (l : list nat) : R :=
  sumf (st_Q st) (fun i => st_w st i * eprod st i l).

(** All ways to take one element out of a list. *)
Fixpoint selects (l : list nat) : list (nat * list nat) :=
  match l with
  | [] => []
  | x :: r => (x, r) :: map (fun p => (fst p, x :: snd p)) (selects r)
  end.

(** Number of perfect matchings of the indices into equal pairs, i.e. the
    isotropic tensors of Wick's formula: 1; 0; delta_ab; 0;
    delta_ab delta_cd + delta_ac delta_bd + delta_ad delta_bc; ... *)
Fixpoint wickn (n : nat) (l : list nat) : Z :=
  match l with
  | [] => 1
  | a :: r =>
      match n with
      | O => 0
      | S n' => fold_right Z.add 0%Z
                  (map (fun p => if Nat.eqb a (fst p) then wickn n' (snd p) else 0%Z) (selects r))
      end
  end.
Definition wick (l : list nat) : Z := wickn (length l) l.

(** The velocity set reproduces the moments of the isotropic normal
    distribution with variance cs^2 for all index tuples up to length [n]. *)
Definition isotropic (st : stencil) (n : nat) : Prop :=
  forall l, Forall (fun a => (a < st_D st)%nat) l -> (length l <= n)%nat ->
  tmom st l = IZR (wick l) * (st_cs2 st) ^ (Nat.div2 (length l)).

(** The stencils whose data are closed-form numbers. *)
Definition closed_form (t : StencilType) : bool :=
  match t with
  | Stencil_D2Q9 | Stencil_D3Q19 | Stencil_D3Q15 | Stencil_D3Q27
  | Stencil_D3Q13 | Stencil_RD3Q27 | Stencil_D2Q25H => true
  | _ => false
  end.
