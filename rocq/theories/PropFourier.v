(** C155: Fourier transform of a written field. *)
From Verif Require Import Prelude ModelFourier SpecFourier ProofFourier.
Local Open Scope R_scope.

(** In one, two and three dimensions, for every size and every input with enough lines: one line of output per wave
    vector, with the Fourier coefficient of the field at that wave vector. *)
Theorem C155_coefficients : forall N0 N1 N2 dim input, (0 < N0)%nat -> (0 < N1)%nat -> (0 < N2)%nat ->
  usual_call dim N1 N2 -> (N0 * N1 * N2 <= length input)%nat ->
  exists ls, fft_main dim N0 N1 N2 input = Ok ls /\ length ls = (N0 * N1 * N2)%nat /\
    (forall kx ky kz, (kx < N0)%nat -> (ky < N1)%nat -> (kz < N2)%nat -> exists l, In l ls /\ label l = (kx, ky, kz)) /\
    forall kx ky kz, (kx < N0)%nat -> (ky < N1)%nat -> (kz < N2)%nat -> forall l, In l ls -> label l = (kx, ky, kz) ->
      l = (kx, ky, kz, coefficient_re N0 N1 N2 (field_of N1 N2 input) kx ky kz, coefficient_im N0 N1 N2 (field_of N1 N2 input) kx ky kz).
Proof.
  intros N0 N1 N2 dim input H0 H1 H2 Hd Hl. destruct (main_ok N0 N1 N2 H0 H1 H2 dim input Hd Hl) as (ls & E & L & V).
  exists ls. split; [exact E|]. split; [exact L|]. split; [|exact V]. intros kx ky kz. exact (main_complete N0 N1 N2 H0 H1 H2 dim input ls kx ky kz E).
Qed.
Print Assumptions C155_coefficients.
Example C155_coefficients_ex : exists ls, fft_main 2 2 3 1 [1; 2; 3; 4; 5; 6] = Ok ls /\ length ls = 6%nat.
Proof.
  destruct (C155_coefficients 2 3 1 2 [1; 2; 3; 4; 5; 6]) as (ls & E & L & _); try lia; [right; left; auto|cbn; lia|].
  exists ls. split; [exact E|exact L].
Qed.

(** Nothing is lost: the waves with these coefficients add up to the field, for every field. *)
Theorem C155_recovers : forall N0 N1 N2 f a b c, (a < N0)%nat -> (b < N1)%nat -> (c < N2)%nat ->
  back_transform N0 N1 N2 (coefficient_re N0 N1 N2 f) (coefficient_im N0 N1 N2 f) a b c = f a b c.
Proof. intros N0 N1 N2 f a b c Ha Hb Hc. apply back_works; lia. Qed.
Print Assumptions C155_recovers.
Example C155_recovers_ex : back_transform 2 2 2 (coefficient_re 2 2 2 (fun a b c => INR (a + 2 * b + 4 * c))) (coefficient_im 2 2 2 (fun a b c => INR (a + 2 * b + 4 * c))) 1 0 1 = INR 5.
Proof. exact (C155_recovers 2 2 2 (fun a b c => INR (a + 2 * b + 4 * c)) 1 0 1 ltac:(lia) ltac:(lia) ltac:(lia)). Qed.

(** Labels beyond half the number of points are negative wave numbers: opposite waves have conjugate coefficients. *)
Theorem C155_opposite : forall N0 N1 N2 f kx ky kz, (0 < N0)%nat -> (0 < N1)%nat -> (0 < N2)%nat -> (kx <= N0)%nat -> (ky <= N1)%nat -> (kz <= N2)%nat ->
  coefficient_re N0 N1 N2 f (N0 - kx) (N1 - ky) (N2 - kz) = coefficient_re N0 N1 N2 f kx ky kz /\
  coefficient_im N0 N1 N2 f (N0 - kx) (N1 - ky) (N2 - kz) = - coefficient_im N0 N1 N2 f kx ky kz.
Proof. intros N0 N1 N2 f kx ky kz H0 H1 H2. exact (conjugate N0 N1 N2 H0 H1 H2 f kx ky kz). Qed.
Print Assumptions C155_opposite.
Example C155_opposite_ex : coefficient_re 4 4 4 (fun a b c => INR (a * b + c)) 3 2 1 = coefficient_re 4 4 4 (fun a b c => INR (a * b + c)) 1 2 3.
Proof. exact (proj1 (C155_opposite 4 4 4 (fun a b c => INR (a * b + c)) 1 2 3 ltac:(lia) ltac:(lia) ltac:(lia) ltac:(lia) ltac:(lia) ltac:(lia))). Qed.

(** Refuted: every call is answered or refused.  Files with too few lines and sizes beyond the dimension in one dimension
    are accepted and undefined memory is written; in two dimensions the sizes are checked. *)
Theorem C155_defined_refuted :
  (forall dim N0 N1 N2 input, usual_call dim N1 N2 -> (length input < N0 * N1 * N2)%nat -> fft_main dim N0 N1 N2 input = UB) /\
  (forall N0 N1 N2 input, (0 < N0)%nat -> (1 < N1 * N2)%nat -> fft_main 1 N0 N1 N2 input = UB) /\
  (forall N0 N1 N2 input, N2 <> 1%nat -> fft_main 2 N0 N1 N2 input = Throw) /\
  exists dim N0 N1 N2 input, usual_call dim N1 N2 /\ fft_main dim N0 N1 N2 input = UB.
Proof.
  assert (S : forall dim N0 N1 N2 input, usual_call dim N1 N2 -> (length input < N0 * N1 * N2)%nat -> fft_main dim N0 N1 N2 input = UB).
  { intros dim N0 N1 N2 input Hd. apply short_ub. destruct Hd as [->|[[_ ->]|(-> & _)]]; [left; lia|right; reflexivity|left; lia]. }
  split; [exact S|]. split; [exact line_ub|]. split.
  - intros N0 N1 N2 input H. unfold fft_main. apply Nat.eqb_neq in H. rewrite H. reflexivity.
  - exists 3%nat, 2%nat, 2%nat, 2%nat, [1; 2; 3]. split; [left; reflexivity|]. apply S; [left; reflexivity|cbn; lia].
Qed.
Print Assumptions C155_defined_refuted.
Example C155_defined_refuted_ex : fft_main 1 4 2 1 [1; 2; 3; 4; 5; 6; 7; 8] = UB.
Proof. apply (proj1 (proj2 C155_defined_refuted)); lia. Qed.
