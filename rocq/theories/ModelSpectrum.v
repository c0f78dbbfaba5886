(** Spectra and pseudospectra of streaming matrices.  Reals for doubles, pairs for complex numbers. *)
From Verif Require Import Prelude.
Local Open Scope R_scope.

Definition cnum := (R * R)%type.
Definition cabs (z : cnum) : R := sqrt (fst z * fst z + snd z * snd z).
Definition fullmatrix := nat -> nat -> R.

Section Tool.
  (** LAPACK (dealii::LAPACKFullMatrix::compute_eigenvalues) and the C library: [rand seed k] is the k-th number after
      srand(seed), between 0 and [RAND_MAX]. *)
  Variable lapack : nat -> fullmatrix -> list cnum.
  Variable rand : Z -> nat -> Z.
  Variable RAND_MAX : Z.

  (** analysis/matrix-analysis/matrixAnalysis.cpp:96-112: perturbation of the matrix; [now] is std::time(0), in seconds. *)
  Definition rnd (now : Z) (perturbation : R) (k : nat) : R := 2 * perturbation * (IZR (rand now k) / IZR RAND_MAX - 1 / 2).
  Definition perturbed (now : Z) (n : nat) (perturbation : R) (M : fullmatrix) : fullmatrix :=
    if Req_EM_T perturbation 0 then M else fun i j => M i j + rnd now perturbation (i * n + j).

  (** matrixAnalysis.cpp:114-127. *)
  Fixpoint largest (m : R) (l : list cnum) : R :=
    match l with [] => m | z :: l' => largest (if Rlt_dec m (cabs z) then cabs z else m) l' end.

  (** matrixAnalysis.cpp:65-87,94-127: computeSpectrum of the square matrix of size [n]: eigenvalues and return value. *)
  Definition computeSpectrum (now : Z) (n : nat) (M : fullmatrix) (perturbation : R) : list cnum * R :=
    let e := lapack n (perturbed now n perturbation M) in (e, largest 0 e).

  Definition rescale (scale : bool) (dt : R) (l : list cnum) : list cnum := if scale then map (fun z => (fst z * dt, snd z * dt)) l else l.

  (** matrixAnalysis.cpp:33-61: writeSpectrum: lines of the file.  The header says "eigenvalues of system matrix dt*A". *)
  Definition writeSpectrum (now : Z) (n : nat) (A : fullmatrix) (dt : R) (scale : bool) : list cnum := rescale scale dt (fst (computeSpectrum now n A 0)).

  (** matrixAnalysis.cpp:135-175: writePseudospectrum; [clock i]: time in seconds at the start of cycle i. *)
  Definition writePseudospectrum (clock : nat -> Z) (n : nat) (A : fullmatrix) (dt : R) (scale : bool) (cycles : nat) (perturbation : R) : list cnum :=
    rescale scale dt (concat (map (fun i => fst (computeSpectrum (clock i) n A perturbation)) (seq 0 cycles))).
End Tool.
