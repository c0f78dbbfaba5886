(** Decimal numbers. *)
From Verif Require Import Prelude.
Open Scope R_scope.

(** [x] can be written with at most [n] significant decimal digits. *)
Definition decimal (n : Z) (x : R) : Prop :=
  exists m k : Z, (Z.abs m < 10 ^ n)%Z /\ x = IZR m * powerRZ 10 k.

(** [x] is a double (53 bit significand, no limit on the exponent). *)
Definition double (x : R) : Prop :=
  exists m k : Z, (Z.abs m < 2 ^ 53)%Z /\ x = IZR m * powerRZ 2 k.
