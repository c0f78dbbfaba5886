(** Specification of lines in the plane. *)
From Verif Require Import Prelude ModelLines.
Local Open Scope R_scope.

(** Two segments are parallel: their directions are proportional. *)
Definition parallel (b1 e1 b2 e2 : pt) : Prop :=
  (fst e1 - fst b1) * (snd e2 - snd b2) = (snd e1 - snd b1) * (fst e2 - fst b2).
(** The angle between two vectors is below [deg] degrees (cosine theorem). *)
Definition angle_below (v w : pt) (deg : R) : Prop := cos (deg * PI / 180) * (norm2 v * norm2 w) < dot2 v w.

(** The points lie on the segment from [A] to [B], which are among them. *)
Definition on_segment (A B : pt) (vs : list pt) : Prop :=
  In A vs /\ In B vs /\ forall v, In v vs -> exists t, 0 <= t <= 1 /\ fst v = fst A + t * (fst B - fst A) /\ snd v = snd A + t * (snd B - snd A).
(** They lie on some straight line. *)
Definition straight (vs : list pt) : Prop :=
  forall a b c, In a vs -> In b vs -> In c vs -> (fst b - fst a) * (snd c - snd a) = (snd b - snd a) * (fst c - fst a).
(** Different points have keys 1000 x + y that differ by more than 1e-6. *)
Definition separated (vs : list pt) : Prop :=
  forall v w, In v vs -> In w vs -> v = w \/ 1/1000000 < Rabs (1000 * fst v + snd v - (1000 * fst w + snd w)).
Definition scale (c : R) (v : pt) : pt := (c * fst v, c * snd v).
(** No two of the four end points coincide. *)
Definition all_distinct (b1 e1 b2 e2 : pt) : Prop := b1 <> e1 /\ b2 <> e2 /\ b1 <> b2 /\ e1 <> e2 /\ b1 <> e2 /\ b2 <> e1.
(** The cosine of the angle between the segments exceeds 0.99, whatever their orientation. *)
Definition almost_parallel (b1 e1 b2 e2 : pt) : Prop :=
  99/100 * (distance b1 e1 * distance b2 e2) < Rabs (dot2 (sub e1 b1) (sub e2 b2)).
