(** Post-processing: Fourier transform of a field written line by line.  Reals for doubles. *)
From Verif Require Import Prelude.
Local Open Scope R_scope.

(** FFTW (not part of the repository), fftw_plan_dft with FFTW_FORWARD in two and three dimensions (n[2] = 1 in two): entry
    [k] of the row-major output for row-major real input [f]. *)
Definition fftw_index (N1 N2 a b c : nat) : nat := ((a * N1 + b) * N2 + c)%nat.
Definition fftw_phase (N0 N1 N2 i k : nat) : R :=
  2 * PI * (INR (i / (N1 * N2)) * INR (k / (N1 * N2)) / INR N0 + INR ((i / N2) mod N1) * INR ((k / N2) mod N1) / INR N1 + INR (i mod N2) * INR (k mod N2) / INR N2).
Definition fftw_re (N0 N1 N2 : nat) (f : nat -> R) (k : nat) : R := sumf (N0 * N1 * N2) (fun i => f i * cos (fftw_phase N0 N1 N2 i k)).
Definition fftw_im (N0 N1 N2 : nat) (f : nat -> R) (k : nat) : R := sumf (N0 * N1 * N2) (fun i => - (f i * sin (fftw_phase N0 N1 N2 i k))).

(** postprocessing/FFT.cpp:20-81: main.  [input]: the lines of the file as numbers (lines that are no numbers throw and are
    not considered).  The arrays are not initialised: an entry that is neither read nor computed is undefined.  With
    dim = 1 only the first n[0] entries are computed; dim = 0 and dim > 3 are outside the documented use and [UB] here
    (dim > 3 reads past the array of sizes).  One line of output: kx, ky, kz, Re, Im. *)
Definition fft_line := (nat * nat * nat * R * R)%type.
Definition fft_main (dim N0 N1 N2 : nat) (input : list R) : outcome (list fft_line) :=
  if (Nat.eqb dim 2 && negb (Nat.eqb N2 1))%bool then Throw
  else
    let array_size := (N0 * N1 * N2)%nat in
    let transformed := match dim with 1 => N0 | 2 => N0 * N1 | 3 => N0 * N1 * N2 | _ => 0 end%nat in
    if Nat.ltb transformed array_size then UB
    else if Nat.ltb (length input) array_size then UB
    else
      let f i := nth i input 0 in
      Ok (map (fun i => ((i / N2 / N1)%nat, ((i / N2) mod N1)%nat, (i mod N2)%nat, fftw_re N0 N1 N2 f i, fftw_im N0 N1 N2 f i)) (seq 0 array_size)).
