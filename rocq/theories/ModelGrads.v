(** Model of boundaries/GradsFunction.h. *)
From Verif Require Import Prelude ModelStencils.
Local Open Scope R_scope.

(** GradsFunction<dim> (GradsFunction.h:26-50); [size] is f.size().  vectorToTensor (Math.h:146-154) asserts that the
    directions have dim components.  The vector f is a function of the direction; a failed assertion is Throw. *)
Definition grads_function (dim size : nat) (st : stencil) (rho : R) (j : nat -> R) (P : nat -> nat -> R) : outcome (nat -> R) :=
  let cs2 := st_cs2 st in
  if negb (Nat.eqb size (st_Q st)) then Throw
  else if Rlt_dec 0 rho then
    if negb (Nat.eqb (st_D st) dim) then Throw
    else Ok (fun alpha =>
      let p_part := sumf dim (fun i => sumf dim (fun k =>
        let factor1 := P i k in
        let factor2 := st_e st alpha i * st_e st alpha k in
        (if Nat.eqb i k then factor1 - rho * cs2 else factor1) * (if Nat.eqb i k then factor2 - cs2 else factor2)))
        * (1 / (2 * cs2 * cs2)) in
      st_w st alpha * (rho + dot dim j (st_e st alpha) / cs2 + p_part))
  else Throw.
