(** Vocabulary: the lattice Boltzmann method on a periodic lattice, and finite element vectors that hold lattice fields. *)
From Verif Require Import Prelude ModelStencils ModelConfigNames ModelEquilibria ModelCollision ModelSemiLagrangian SpecSemiLagrangian.
Local Open Scope Z_scope.

Section Lattice.
  (** [D] dimensions, [p] lattice spacings per cell, [N i] cells in direction [i]. *)
  Variables (D p : nat) (N : nat -> Z).
  Definition period (i : nat) : Z := Z.of_nat p * N i.
  (** The same site of the periodic lattice. *)
  Definition same_site (x y : index) : Prop := forall i, (i < D)%nat -> exists k : Z, x i = y i + k * period i.
  Definition lattice_field {A : Type} (F : index -> A) : Prop := forall x y, same_site x y -> F x = F y.
  (** The site of support point [j] of cell [c]; [g j] counts lattice spacings from the corner of the cell. *)
  Definition site (g : nat -> nat -> nat) (c : index) (j : nat) : index := fun i => Z.of_nat p * c i + Z.of_nat (g j i).
  (** The vector [f] (numbered by degrees of freedom) holds the lattice field [F]. *)
  Definition holds {A : Type} (n : nat) (g : nat -> nat -> nat) (dofs : index -> nat -> nat) (f : nat -> A) (F : index -> A) : Prop :=
    lattice_field F /\ forall c j, in_grid D N c -> (j < n)%nat -> f (dofs c j) = F (site g c j).
  (** Sum over all sites. *)
  Fixpoint over_sites (d : nat) (F : index -> R) : R :=
    match d with
    | O => F (fun _ => 0)
    | S k => sumf (Z.to_nat (period k)) (fun x => over_sites k (fun y => F (move y k (Z.of_nat x))))
    end.
End Lattice.

(** Equidistant elements of order [p] whose degrees of freedom lie on the sites, and a time step in which population [a] moves by
    [m a] lattice spacings. *)
Local Open Scope R_scope.
Record lattice_mesh (D p : nat) (N : nat -> Z) (h : nat -> R) (e : nat -> point) (dt : R) (Q n : nat) (g : nat -> nat -> nat)
    (shape : nat -> point -> R) (dofs : index -> nat -> nat) (cells : list index) (m : nat -> index) : Prop := {
  lm_dim : (0 < D)%nat;
  lm_order : (0 < p)%nat;
  lm_resolved : INR p <= 10 ^ 10;
  lm_cells : forall i, (i < D)%nat -> (2 <= N i)%Z;
  lm_width : forall i, (i < D)%nat -> 0 < h i;
  lm_listed : forall c, In c cells -> in_grid D N c;
  lm_all : forall c, in_grid D N c -> exists c', In c' cells /\ (forall i, (i < D)%nat -> c' i = c i) /\ forall j, dofs c' j = dofs c j;
  (* the support points: all multiples of 1/p *)
  lm_points : forall j i, (j < n)%nat -> (i < D)%nat -> (g j i <= p)%nat;
  lm_every : forall w, (forall i, (i < D)%nat -> (w i <= p)%nat) -> exists j, (j < n)%nat /\ forall i, (i < D)%nat -> g j i = w i;
  lm_nodal : forall j k u, (j < n)%nat -> (k < n)%nat -> (forall i, (i < D)%nat -> u i = INR (g k i) / INR p) -> shape j u = delta j k;
  (* a number belongs to one site *)
  lm_numbers : forall c c' j j', In c cells -> In c' cells -> (j < n)%nat -> (j' < n)%nat -> dofs c j = dofs c' j' ->
     same_site D p N (site p g c j) (site p g c' j');
  (* the time step *)
  lm_step : forall a i, (a < Q)%nat -> (i < D)%nat -> dt * e a i = IZR (m a i) * (h i / INR p);
  lm_rest : forall i, m 0%nat i = 0%Z;
  lm_short : short_paths D h e dt Q }.

(** ** The lattice Boltzmann method *)
Record lattice := { lf : index -> nat -> R; lu : index -> nat -> R }.
(** Every population jumps to its neighbour. *)
Definition lb_stream (Q : nat) (m : nat -> index) (L : lattice) : lattice :=
  {| lf := fun x a => if Nat.ltb a Q then lf L (fun i => x i - m a i)%Z a else lf L x a; lu := lu L |}.
(** Every site collides on its own. *)
Definition lb_collide (k : T_collision) (q : T_equilibrium) (gd : genData) (L : lattice) : lattice :=
  let at_site x := collide_node k q gd false (lf L x) (lu L x) in
  {| lf := fun x => match at_site x with Ok o => no_f o | _ => lf L x end;
     lu := fun x => match at_site x with Ok o => no_u o | _ => lu L x end |}.
Fixpoint lb_run (k : T_collision) (q : T_equilibrium) (gd : genData) (Q : nat) (m : nat -> index) (steps : nat) (L : lattice) : lattice :=
  match steps with
  | O => lb_collide k q gd L
  | S t => lb_collide k q gd (lb_stream Q m (lb_run k q gd Q m t L))
  end.
(** Populations and velocities of the solver are those of the lattice. *)
Definition holds_fields (D p : nat) (N : nat -> Z) (n : nat) (g : nat -> nat -> nat) (dofs : index -> nat -> nat) (x : fields) (L : lattice) : Prop :=
  holds D p N n g dofs (fl_f x) (lf L) /\ holds D p N n g dofs (fl_u x) (lu L).
