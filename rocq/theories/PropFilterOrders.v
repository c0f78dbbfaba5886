(** C38, every order: with the quadratures and elements of the solver the hypotheses of C38 hold, and the filter does not
    increase the square integral of any cell. *)
From Verif Require Import Prelude BigSum ModelSemiLagrangian ModelElements SpecElements ModelFilter SpecFilter SpecFilterOrders ModelBoxes SpecBoxes ProofElements ProofLobatto ProofBoxesEx ProofFilter ProofFilter2 ProofFilterOrders ProofFilterOrders2 PropFilter.
Local Open Scope R_scope.

(** Quadrature with p + 1 points per direction, any support points, polynomials orthogonal on the unit interval. *)
Theorem C38_resolved : forall dim p x w y leg, dim = 1%nat \/ dim = 2%nat \/ dim = 3%nat -> (1 <= p)%nat -> line_rule p x w -> (forall i j, (i < j <= p)%nat -> y i <> y j) ->
  orthogonal_basis p leg ->
  resolved dim p (tensor_rule dim p x w) leg (el_shape (tensor_element y p dim)) /\ mean_mode dim p (tensor_rule dim p x w) leg.
Proof. intros dim p x w y leg Hd Hp HR Hy HL. split; [exact (every_order dim p x w y leg Hd Hp HR HL Hy)|exact (every_mean dim p x w y leg Hd Hp HR HL)]. Qed.
Print Assumptions C38_resolved.
(** Rules and polynomials exist for every order. *)
Example C38_resolved_ex : forall p, (1 <= p)%nat -> exists x w leg, gauss_lobatto p x w /\ line_rule p x w /\ orthogonal_basis p leg.
Proof.
  intros p Hp. destruct (lobatto_exists p Hp) as (x & w & H). destruct (legendre_exist p) as [leg L]. exists x, w, leg.
  split; [exact H|]. split; [exact (lobatto_line p x w H)|exact L].
Qed.

(** One and two dimensions, every order: the coefficients of every mode are multiplied by the factor of its degree (the
    coefficients exist: C38_coefficients). *)
Theorem C38_orders : forall dim p x w y leg inv alpha s Nc by_sum cells z c g, dim = 1%nat \/ dim = 2%nat -> (1 <= p)%nat ->
  gauss_lobatto p x w -> (forall i j, (i < j <= p)%nat -> y i <> y j) -> orthogonal_basis p leg -> inverts inv ->
  NoDup (concat cells) -> In c cells -> length c = Nat.pow (p + 1) dim ->
  let q := tensor_rule dim p x w in let shape := el_shape (tensor_element y p dim) in
  coefficients (Nat.pow (p + 1) dim) q shape (basis leg dim p) (fun k => z (nth k c 0%nat)) g ->
  coefficients (Nat.pow (p + 1) dim) q shape (basis leg dim p)
    (fun k => applyFilter (exp_cell leg shape (qn q) (qpoint q) (qweight q) inv alpha s Nc by_sum dim p) cells z (nth k c 0%nat))
    (fun i => damping alpha s Nc (highest by_sum dim p) (counted by_sum (degrees_of dim p i)) * g i).
Proof.
  intros dim p x w y leg inv alpha s Nc by_sum cells z c g Hd Hp HG Hy HL Hi Hn Hc Hl q shape H.
  apply C38_modes; try assumption. exact (every_order dim p x w y leg ltac:(unfold dim123; tauto) Hp (lobatto_line p x w HG) HL Hy).
Qed.
Print Assumptions C38_orders.
Theorem C38_coefficients : forall dim p x w y leg f, dim = 1%nat \/ dim = 2%nat \/ dim = 3%nat -> (1 <= p)%nat -> line_rule p x w -> (forall i j, (i < j <= p)%nat -> y i <> y j) ->
  orthogonal_basis p leg ->
  exists g, coefficients (Nat.pow (p + 1) dim) (tensor_rule dim p x w) (el_shape (tensor_element y p dim)) (basis leg dim p) f g.
Proof.
  intros dim p x w y leg f Hd Hp HR Hy HL. eexists.
  exact (proj2 (coefficients_iff leg _ _ true_inverse dim p Hd true_inverse_inverts (every_order dim p x w y leg Hd Hp HR HL Hy) f _) (fun k _ => eq_refl)).
Qed.
Print Assumptions C38_coefficients.

(** The square integral of a cell does not grow: all dimensions, with the degrees of the code. *)
Theorem C38_square : forall dim p x w y leg inv alpha s Nc by_sum cells z c, dim = 1%nat \/ dim = 2%nat \/ dim = 3%nat -> (1 <= p)%nat ->
  line_rule p x w -> (forall i j, (i < j <= p)%nat -> y i <> y j) -> orthogonal_basis p leg -> inverts inv ->
  NoDup (concat cells) -> In c cells -> length c = Nat.pow (p + 1) dim -> 0 <= alpha ->
  let q := tensor_rule dim p x w in let shape := el_shape (tensor_element y p dim) in
  square_integral q (expansion (Nat.pow (p + 1) dim) shape (fun k =>
    applyFilter (exp_cell leg shape (qn q) (qpoint q) (qweight q) inv alpha s Nc by_sum dim p) cells z (nth k c 0%nat)))
  <= square_integral q (expansion (Nat.pow (p + 1) dim) shape (fun k => z (nth k c 0%nat))).
Proof.
  intros dim p x w y leg inv alpha s Nc by_sum cells z c Hd Hp HR Hy HL Hi Hn Hc Hl Ha q shape.
  exact (filter_square dim p x w y leg Hd Hp HR HL Hy inv alpha s Nc by_sum cells z c Hi Hn Hc Hl Ha).
Qed.
Print Assumptions C38_square.
Example C38_square_ex : line_rule 2 (fun i => INR i / 2) (fun i => if Nat.eqb i 1 then 2 / 3 else 1 / 6) /\ inverts true_inverse /\ length [4;5;6;7;8;9;10;11;12]%nat = Nat.pow (2 + 1) 2.
Proof. split; [exact (lobatto_line _ _ _ simpson)|]. split; [exact true_inverse_inverts|reflexivity]. Qed.
