(** C38: spectral filters. *)
From Verif Require Import Prelude BigSum ModelFilter SpecFilter ProofFilter ProofFilter2 ProofFilter3.
Local Open Scope R_scope.

(** In one and two dimensions the filter damps every mode of every cell by its degree, if the
    cells do not share degrees of freedom (discontinuous elements). *)
Theorem C38_modes : forall leg shape q inv dim p alpha s Nc by_sum cells x c g,
  dim = 1%nat \/ dim = 2%nat -> inverts inv -> resolved dim p q leg shape ->
  NoDup (concat cells) -> In c cells -> length c = Nat.pow (p + 1) dim ->
  coefficients (Nat.pow (p + 1) dim) q shape (basis leg dim p) (fun k => x (nth k c 0%nat)) g ->
  coefficients (Nat.pow (p + 1) dim) q shape (basis leg dim p)
    (fun k => applyFilter (exp_cell leg shape (qn q) (qpoint q) (qweight q) inv alpha s Nc by_sum dim p) cells x (nth k c 0%nat))
    (fun i => damping alpha s Nc (highest by_sum dim p) (counted by_sum (degrees_of dim p i)) * g i).
Proof.
  intros leg shape q inv dim p alpha s Nc by_sum cells x c g Hd Hi Hr Hn Hc Hl H.
  assert (Hd' : dim123 dim) by (unfold dim123; tauto).
  apply (coefficients_ext leg shape q inv dim p Hd' Hi Hr _ _ _ _ (fun _ _ => eq_refl) (fun k _ => f_equal (fun d => damping alpha s Nc (highest by_sum dim p) d * g k) (code_degree_12 by_sum dim p k Hd))).
  exact (mesh_modes leg shape q inv dim p alpha s Nc by_sum Hd' Hi Hr cells x c Hn Hc Hl g H).
Qed.
Print Assumptions C38_modes.

(** In three dimensions the degree of the second direction is overlooked and the degree of the
    third one counts twice. *)
Theorem C38_modes_3d_partial : forall leg shape q inv p alpha s Nc by_sum cells x c g,
  inverts inv -> resolved 3 p q leg shape ->
  NoDup (concat cells) -> In c cells -> length c = Nat.pow (p + 1) 3 ->
  coefficients (Nat.pow (p + 1) 3) q shape (basis leg 3 p) (fun k => x (nth k c 0%nat)) g ->
  coefficients (Nat.pow (p + 1) 3) q shape (basis leg 3 p)
    (fun k => applyFilter (exp_cell leg shape (qn q) (qpoint q) (qweight q) inv alpha s Nc by_sum 3 p) cells x (nth k c 0%nat))
    (fun i => damping alpha s Nc (highest by_sum 3 p) (counted by_sum (overlooked (degrees_of 3 p i))) * g i).
Proof.
  intros leg shape q inv p alpha s Nc by_sum cells x c g Hi Hr Hn Hc Hl H.
  assert (Hd' : dim123 3) by (unfold dim123; tauto).
  apply (coefficients_ext leg shape q inv 3 p Hd' Hi Hr _ _ _ _ (fun _ _ => eq_refl) (fun k _ => f_equal (fun d => damping alpha s Nc (highest by_sum 3 p) d * g k) (code_degree_3 by_sum p k))).
  exact (mesh_modes leg shape q inv 3 p alpha s Nc by_sum Hd' Hi Hr cells x c Hn Hc Hl g H).
Qed.
Print Assumptions C38_modes_3d_partial.

(** Hence the claim fails in three dimensions: with the largest degree counted, a mode above the
    cut-off is not damped; ... *)
Theorem C38_3d_max_refuted : exists inv x g, inverts inv /\ resolved 3 1 (trapezoid 3) linear_legendre (linear_shape 3) /\
  coefficients 8 (trapezoid 3) (linear_shape 3) (basis linear_legendre 3 1) x g /\
  ~ coefficients 8 (trapezoid 3) (linear_shape 3) (basis linear_legendre 3 1)
      (applyFilter (exp_cell linear_legendre (linear_shape 3) (qn (trapezoid 3)) (qpoint (trapezoid 3)) (qweight (trapezoid 3))
                      inv 1 1 1 false 3 1) [[0;1;2;3;4;5;6;7]%nat] x)
      (fun i => damping 1 1 1 (highest false 3 1) (counted false (degrees_of 3 1 i)) * g i).
Proof.
  destruct wrong_max as (x & g & A & B). exists true_inverse, x, g.
  exact (conj true_inverse_inverts (conj resolved_3 (conj A B))).
Qed.
Print Assumptions C38_3d_max_refuted.

(** ... with the sum counted, a mode below the cut-off is damped. *)
Theorem C38_3d_sum_refuted : exists inv x g, inverts inv /\ resolved 3 1 (trapezoid 3) linear_legendre (linear_shape 3) /\
  coefficients 8 (trapezoid 3) (linear_shape 3) (basis linear_legendre 3 1) x g /\
  ~ coefficients 8 (trapezoid 3) (linear_shape 3) (basis linear_legendre 3 1)
      (applyFilter (exp_cell linear_legendre (linear_shape 3) (qn (trapezoid 3)) (qpoint (trapezoid 3)) (qweight (trapezoid 3))
                      inv 1 1 2 true 3 1) [[0;1;2;3;4;5;6;7]%nat] x)
      (fun i => damping 1 1 2 (highest true 3 1) (counted true (degrees_of 3 1 i)) * g i).
Proof.
  destruct wrong_sum as (x & g & A & B). exists true_inverse, x, g.
  exact (conj true_inverse_inverts (conj resolved_3 (conj A B))).
Qed.
Print Assumptions C38_3d_sum_refuted.

(** The factors. *)
Theorem C38_factors : forall alpha s Nc D, 0 <= alpha ->
  (forall d, 0 < damping alpha s Nc D d <= 1) /\
  (forall d, (d < Nc)%nat -> damping alpha s Nc D d = 1) /\
  (forall d d', 0 <= s -> (d <= d' <= D)%nat -> damping alpha s Nc D d' <= damping alpha s Nc D d) /\
  ((Nc <= D)%nat -> damping alpha s Nc D D = exp (- alpha)).
Proof.
  intros alpha s Nc D Ha. split; [intros; apply damping_range; assumption|]. split; [intros; apply damping_below; assumption|].
  split; [intros; apply damping_mono; assumption|apply damping_last].
Qed.
Print Assumptions C38_factors.

(** The mean of every cell is kept, in all dimensions, if the cut-off is at least one. *)
Theorem C38_mean : forall leg shape q inv dim p alpha s Nc by_sum cells x c,
  dim = 1%nat \/ dim = 2%nat \/ dim = 3%nat -> inverts inv -> resolved dim p q leg shape ->
  NoDup (concat cells) -> In c cells -> length c = Nat.pow (p + 1) dim ->
  mean_mode dim p q leg -> (1 <= Nc)%nat ->
  integral q (expansion (Nat.pow (p + 1) dim) shape (fun k =>
    applyFilter (exp_cell leg shape (qn q) (qpoint q) (qweight q) inv alpha s Nc by_sum dim p) cells x (nth k c 0%nat)))
  = integral q (expansion (Nat.pow (p + 1) dim) shape (fun k => x (nth k c 0%nat))).
Proof.
  intros leg shape q inv dim p alpha s Nc by_sum cells x c Hd Hi Hr Hn Hc Hl M HN.
  exact (mesh_mean leg shape q inv dim p alpha s Nc by_sum Hd Hi Hr cells x c Hn Hc Hl M HN).
Qed.
Print Assumptions C38_mean.

(** Values outside the filtered cells are kept. *)
Theorem C38_elsewhere : forall cf cells x d, ~ In d (concat cells) -> applyFilter cf cells x d = x d.
Proof. exact apply_other. Qed.
Print Assumptions C38_elsewhere.

(** Continuous elements share degrees of freedom between cells; then the mean of a cell is not
    kept. *)
Theorem C38_shared_refuted : exists inv cells x c, inverts inv /\
  resolved 2 1 (trapezoid 2) linear_legendre (linear_shape 2) /\ mean_mode 2 1 (trapezoid 2) linear_legendre /\
  In c cells /\ (forall c, In c cells -> NoDup c /\ length c = 4%nat) /\
  integral (trapezoid 2) (expansion 4 (linear_shape 2) (fun k =>
    applyFilter (exp_cell linear_legendre (linear_shape 2) (qn (trapezoid 2)) (qpoint (trapezoid 2)) (qweight (trapezoid 2))
                   inv 1 1 1 false 2 1) cells x (nth k c 0%nat)))
  <> integral (trapezoid 2) (expansion 4 (linear_shape 2) (fun k => x (nth k c 0%nat))).
Proof.
  destruct shared_mean as (cells & x & c & H). exists true_inverse, cells, x, c.
  exact (conj true_inverse_inverts (conj resolved_2 (conj mean_2 H))).
Qed.
Print Assumptions C38_shared_refuted.

(** The second filter: defined, damps by the total degree in one and two dimensions, keeps means. *)
Theorem C38_new_modes : forall leg shape q inv dim p alpha s f g,
  dim = 1%nat \/ dim = 2%nat -> (1 <= p)%nat -> 0 < s -> inverts inv -> resolved dim p q leg shape ->
  coefficients (Nat.pow (p + 1) dim) q shape (basis leg dim p) f g ->
  exists h, new_cell leg shape (qn q) (qpoint q) (qweight q) inv alpha s dim p f = Some h /\
  coefficients (Nat.pow (p + 1) dim) q shape (basis leg dim p) h
    (fun i => damping_new alpha s (dim * p) (total_degree (degrees_of dim p i)) * g i).
Proof.
  intros leg shape q inv dim p alpha s f g Hd Hp Hs Hi Hr H.
  assert (Hd' : dim123 dim) by (unfold dim123; tauto).
  destruct (new_modes leg shape q inv dim p alpha s Hd' Hp Hs Hi Hr f g H) as (h & E & C). exists h. split; [exact E|].
  refine (coefficients_ext leg shape q inv dim p Hd' Hi Hr _ _ _ _ (fun _ _ => eq_refl) _ C).
  intros k _. rewrite new_degree_12 by assumption. reflexivity.
Qed.
Print Assumptions C38_new_modes.

Theorem C38_new_mean : forall leg shape q inv dim p alpha s f,
  dim = 1%nat \/ dim = 2%nat \/ dim = 3%nat -> (1 <= p)%nat -> 0 < s -> inverts inv -> resolved dim p q leg shape ->
  mean_mode dim p q leg ->
  exists h, new_cell leg shape (qn q) (qpoint q) (qweight q) inv alpha s dim p f = Some h /\
  integral q (expansion (Nat.pow (p + 1) dim) shape h) = integral q (expansion (Nat.pow (p + 1) dim) shape f).
Proof.
  intros leg shape q inv dim p alpha s f Hd Hp Hs Hi Hr M. exact (new_mean leg shape q inv dim p alpha s Hd Hp Hs Hi Hr f M).
Qed.
Print Assumptions C38_new_mean.

Theorem C38_new_3d_refuted : exists inv f g h, inverts inv /\ resolved 3 1 (trapezoid 3) linear_legendre (linear_shape 3) /\
  coefficients 8 (trapezoid 3) (linear_shape 3) (basis linear_legendre 3 1) f g /\
  new_cell linear_legendre (linear_shape 3) (qn (trapezoid 3)) (qpoint (trapezoid 3)) (qweight (trapezoid 3))
    inv 1 1 3 1 f = Some h /\
  ~ coefficients 8 (trapezoid 3) (linear_shape 3) (basis linear_legendre 3 1) h
      (fun i => damping_new 1 1 3 (total_degree (degrees_of 3 1 i)) * g i).
Proof.
  destruct wrong_new as (f & g & h & H). exists true_inverse, f, g, h.
  exact (conj true_inverse_inverts (conj resolved_3 H)).
Qed.
Print Assumptions C38_new_3d_refuted.

(** The hypotheses are met by bilinear and trilinear elements on a mesh of two cells. *)
Example inversion : inverts true_inverse. Proof. exact true_inverse_inverts. Qed.
Example bilinear : resolved 2 1 (trapezoid 2) linear_legendre (linear_shape 2) /\ mean_mode 2 1 (trapezoid 2) linear_legendre.
Proof. exact (conj resolved_2 mean_2). Qed.
Example trilinear : resolved 3 1 (trapezoid 3) linear_legendre (linear_shape 3) /\ mean_mode 3 1 (trapezoid 3) linear_legendre.
Proof. exact (conj resolved_3 mean_3). Qed.
Example two_cells : NoDup (concat [[0;1;2;3];[4;5;6;7]]%nat) /\ In [4;5;6;7]%nat [[0;1;2;3];[4;5;6;7]]%nat.
Proof. split; [repeat constructor; cbn; lia|cbn; tauto]. Qed.
(** The values (0,1,0,1) of a bilinear cell are really changed. *)
Example really_damped :
  exp_cell linear_legendre (linear_shape 2) (qn (trapezoid 2)) (qpoint (trapezoid 2)) (qweight (trapezoid 2))
    true_inverse 1 1 1 false 2 1 (fun k => if Nat.even k then 0 else 1) 0%nat = (1 - exp (-1)) / 2.
Proof.
  change (exp_linear 2 1 1 1 false (fun k => if Nat.even k then 0 else 1) 0%nat = (1 - exp (-1)) / 2).
  rewrite filtered_2 by lia. cbn [Nat.even]. lra.
Qed.
