(** Numbers written as decimal text and read back.

    The standard streams print a floating point number with a given number of significant
    digits; reading the text gives the decimal number.  Simplified: exact ties are rounded
    up, and the decimal is not rounded to the nearest double when it is read. *)
From Verif Require Import Prelude.
Open Scope R_scope.

(** The exponent of the scientific notation: 10^e <= |x| < 10^(e+1). *)
Definition decimal_exponent (x : R) : Z := Int_part (ln (Rabs x) / ln 10).

(** [s << std::setprecision(n) << x], read back.  The default precision of the streams
    is 6 (used by Checkpoint.cpp:84, SolverConfiguration.h:2483-2489); deal.II's
    ParameterHandler::set(const std::string &, const double) uses 16. *)
Definition print_digits (n : Z) (x : R) : R :=
  if Req_EM_T x 0 then 0
  else let p := powerRZ 10 (n - 1 - decimal_exponent x) in IZR (Int_part (x * p + 1/2)) / p.
