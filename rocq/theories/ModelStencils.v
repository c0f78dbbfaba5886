(** Model of /repo/src/library/natrium/stencils (Stencil.h and the 14 stencil
    classes).  [double] is modelled by [R]; decimal literals are exact. *)
From Coq Require Import QArith Qreals.
From Verif Require Import Prelude StencilData.
Open Scope R_scope.

(** stencils/Stencil.h:56-170: the data a stencil object exposes through its
    getters.  [st_opp i = None] models running off the end of
    getIndexOfOppositeDirection without a return statement. *)
Record stencil := mkStencil {
  st_D : nat;                      (* getD *)
  st_Q : nat;                      (* getQ *)
  st_e : nat -> nat -> R;          (* getDirection(i)(a) *)
  st_w : nat -> R;                 (* getWeight(i) *)
  st_opp : nat -> option nat;      (* getIndexOfOppositeDirection *)
  st_cs : R;                       (* getSpeedOfSound *)
  st_cs2 : R;                      (* getSpeedOfSoundSquare *)
  st_maxvel : R                    (* getMaxParticleVelocityMagnitude *)
}.

(** stencils/Stencil.h:22-49 enum StencilType. *)
Inductive StencilType :=
| Stencil_D2Q9 | Stencil_D3Q19 | Stencil_D3Q15 | Stencil_D3Q27
| Stencil_D2Q19H | Stencil_D2Q19V | Stencil_D2Q777 | Stencil_D2Q25H
| Stencil_D3Q13 | Stencil_D3Q21 | Stencil_RD3Q27 | Stencil_D3Q45
| Stencil_D3Q77 | Stencil_D3V27.

(** Table lookups. *)
Definition tblQ (t : list (list Q)) (i a : nat) : Q := nth a (nth i t []) 0%Q.
Definition tbl (t : list (list Q)) (i a : nat) : R := Q2R (tblQ t i a).
Definition wtbl (t : list Q) (i : nat) : R := Q2R (nth i t 0%Q).
Definition tblR (t : list (list R)) (i a : nat) : R := nth a (nth i t []) 0.

(** [switch] with [default: return 0]. *)
Definition opp_default0 (t : list nat) (i : nat) : option nat := Some (nth i t 0%nat).
(** [switch] without default (D2Q777.h). *)
Definition opp_nodefault (t : list nat) (i : nat) : option nat := nth_error t i.

(** stencils/D2Q9.cpp:29-60, D2Q9.h:62-106. *)
Definition D2Q9 (s : R) : stencil :=
  {| st_D := 2; st_Q := 9;
     st_e := fun i a => s * tbl D2Q9_dir i a; st_w := wtbl D2Q9_wt;
     st_opp := opp_default0 D2Q9_opp;
     st_cs := s / sqrt 3; st_cs2 := s * s / 3; st_maxvel := s * sqrt 2 |}.

(** stencils/D3Q15.cpp, D3Q15.h:82-147. *)
Definition D3Q15 (s : R) : stencil :=
  {| st_D := 3; st_Q := 15;
     st_e := fun i a => s * tbl D3Q15_dir i a; st_w := wtbl D3Q15_wt;
     st_opp := opp_default0 D3Q15_opp;
     st_cs := s / sqrt 3; st_cs2 := s * s / 3; st_maxvel := s * sqrt 3 |}.

(** stencils/D3Q19.cpp, D3Q19.h:83-160. *)
Definition D3Q19 (s : R) : stencil :=
  {| st_D := 3; st_Q := 19;
     st_e := fun i a => s * tbl D3Q19_dir i a; st_w := wtbl D3Q19_wt;
     st_opp := opp_default0 D3Q19_opp;
     st_cs := s / sqrt 3; st_cs2 := s * s / 3; st_maxvel := s * sqrt 2 |}.

(** stencils/D3Q27.cpp, D3Q27.h:92-193. *)
Definition D3Q27 (s : R) : stencil :=
  {| st_D := 3; st_Q := 27;
     st_e := fun i a => s * tbl D3Q27_dir i a; st_w := wtbl D3Q27_wt;
     st_opp := opp_default0 D3Q27_opp;
     st_cs := s / sqrt 3; st_cs2 := s * s / 3; st_maxvel := s * sqrt 2 |}.

(** stencils/RD3Q27.cpp, RD3Q27.h:92-193.  ([halfScaling = scaling / 2].) *)
Definition RD3Q27 (s : R) : stencil :=
  {| st_D := 3; st_Q := 27;
     st_e := fun i a => s * tbl RD3Q27_dir i a; st_w := wtbl RD3Q27_wt;
     st_opp := opp_default0 RD3Q27_opp;
     st_cs := s / sqrt 5; st_cs2 := s * s / 5; st_maxvel := s * sqrt 2 |}.

(** The stencils whose rows are [scaling * literal / sqrt(3)]:
    stencils/D2Q19H.cpp (components 0 and 1 of the literal rows swapped),
    D2Q19V.cpp, D2Q777.cpp, D3Q45.cpp, D3Q77.cpp, D3V27.cpp and their headers. *)
Definition D2Q19H (s : R) : stencil :=
  {| st_D := 2; st_Q := 19;
     st_e := fun i a => s * tbl D2Q19H_dir i (1 - a)%nat / sqrt 3;
     st_w := wtbl D2Q19H_wt;
     st_opp := opp_default0 D2Q19H_opp;
     st_cs := s / sqrt 3; st_cs2 := s * s / 3; st_maxvel := sqrt 2 * s |}.

Definition D2Q19V (s : R) : stencil :=
  {| st_D := 2; st_Q := 19;
     st_e := fun i a => s * tbl D2Q19V_dir i a / sqrt 3; st_w := wtbl D2Q19V_wt;
     st_opp := opp_default0 D2Q19V_opp;
     st_cs := s / sqrt 3; st_cs2 := s * s / 3; st_maxvel := sqrt 2 * s |}.

Definition D2Q777 (s : R) : stencil :=
  {| st_D := 2; st_Q := 777;
     st_e := fun i a => s * tbl D2Q777_dir i a / sqrt 3; st_w := wtbl D2Q777_wt;
     st_opp := opp_nodefault D2Q777_opp;
     st_cs := s / sqrt 3; st_cs2 := s * s / 3; st_maxvel := sqrt 2 * s |}.

Definition D3Q45 (s : R) : stencil :=
  {| st_D := 3; st_Q := 45;
     st_e := fun i a => s * tbl D3Q45_dir i a / sqrt 3; st_w := wtbl D3Q45_wt;
     st_opp := opp_default0 D3Q45_opp;
     st_cs := s / sqrt 3; st_cs2 := s * s / 3; st_maxvel := sqrt 2 * s |}.

Definition D3Q77 (s : R) : stencil :=
  {| st_D := 3; st_Q := 77;
     st_e := fun i a => s * tbl D3Q77_dir i a / sqrt 3; st_w := wtbl D3Q77_wt;
     st_opp := opp_default0 D3Q77_opp;
     st_cs := s / sqrt 3; st_cs2 := s * s / 3; st_maxvel := sqrt 2 * s |}.

Definition D3V27 (s : R) : stencil :=
  {| st_D := 3; st_Q := 27;
     st_e := fun i a => s * tbl D3V27_dir i a / sqrt 3; st_w := wtbl D3V27_wt;
     st_opp := opp_default0 D3V27_opp;
     st_cs := s / sqrt 3; st_cs2 := s * s / 3; st_maxvel := s * sqrt 2 |}.

(** stencils/D3Q13.cpp:46-79 (makeWeights, makeDirections), D3Q13.h:86-145. *)
Definition D3Q13_rows (s0 : R) : list (list R) :=
  let s := s0 * (1 / sqrt 3) in
  let p := s * sqrt ((5 + sqrt 5) / 2) in   (* phi_plus *)
  let m := s * sqrt ((5 - sqrt 5) / 2) in   (* phi_minu *)
  [[0; 0; 0];
   [0; m; p]; [0; -m; -p]; [0; -m; p]; [0; m; -p];
   [m; p; 0]; [-m; -p; 0]; [-m; p; 0]; [m; -p; 0];
   [p; 0; m]; [-p; 0; -m]; [-p; 0; m]; [p; 0; -m]].

Definition D3Q13 (s : R) : stencil :=
  {| st_D := 3; st_Q := 13;
     st_e := tblR (D3Q13_rows s);
     st_w := fun i => match i with O => 4/10 | _ => 5/100 end;
     st_opp := opp_default0 D3Q13_opp;
     st_cs := s / sqrt 3; st_cs2 := s * s / 3; st_maxvel := s * sqrt 2 |}.

(** stencils/D3Q21.cpp (makeWeights, makeDirections), D3Q21.h:61-144. *)
Definition D3Q21_rows (s0 : R) : list (list R) :=
  let s1 := s0 / (774596669241483 / 1000000000000000) in
  let s := s1 * (1 / sqrt 3) in
  let phi := s * (1 + sqrt 5) / 2 in
  let inphi := s * 1 / ((1 + sqrt 5) / 2) in
  [[0; 0; 0];
   [s; s; s]; [-s; -s; -s]; [-s; s; s]; [s; -s; -s];
   [s; -s; s]; [-s; s; -s]; [s; s; -s]; [-s; -s; s];
   [0; phi; inphi]; [0; -phi; -inphi]; [0; -phi; inphi]; [0; phi; -inphi];
   [inphi; 0; phi]; [-inphi; 0; -phi]; [-inphi; 0; phi]; [inphi; 0; -phi];
   [phi; inphi; 0]; [-phi; -inphi; 0]; [-phi; inphi; 0]; [phi; -inphi; 0]].

Definition D3Q21 (s : R) : stencil :=
  {| st_D := 3; st_Q := 21;
     st_e := tblR (D3Q21_rows s);
     st_w := fun i => match i with O => 2/5 | _ => 3/100 end;
     st_opp := opp_default0 D3Q21_opp;
     st_cs := s / sqrt 3; st_cs2 := s * s / 3; st_maxvel := s * sqrt 2 |}.

(** stencils/D2Q25H.cpp (makeWeights, makeDirections), D2Q25H.h:60-155. *)
Definition D2Q25H_rows (s : R) : list (list R) :=
  let m := s * sqrt (5 - sqrt 10) / sqrt 3 in   (* c_m *)
  let n := sqrt (5 + sqrt 10) * s / sqrt 3 in   (* c_n *)
  [[0; 0]; [m; 0]; [0; m]; [-m; 0]; [0; -m];
   [m; m]; [-m; m]; [-m; -m]; [m; -m];
   [n; 0]; [0; n]; [-n; 0]; [0; -n];
   [n; n]; [-n; n]; [-n; -n]; [n; -n];
   [m; n]; [m; -n]; [-m; -n]; [-m; n];
   [n; m]; [n; -m]; [-n; -m]; [-n; m]].

Definition D2Q25H_wts : list R :=
  let r := (sqrt 5 - sqrt 2) / sqrt 3 in
  let w0 := (-3 - 3*r*r*r*r + 54*r*r) / (75*r*r) in
  let wm := (9*r*r*r*r - 6 - 27*r*r) / (300*r*r*(r*r-1)) in
  let wn := (9 - 6*r*r*r*r - 27*r*r) / (300*(1-r*r)) in
  let w0n := w0*wn in let w0m := w0*wm in
  let wmm := wm*wm in let wmn := wm*wn in let wnn := wn*wn in
  [w0*w0; w0m; w0m; w0m; w0m; wmm; wmm; wmm; wmm; w0n; w0n; w0n; w0n;
   wnn; wnn; wnn; wnn; wmn; wmn; wmn; wmn; wmn; wmn; wmn; wmn].

Definition D2Q25H (s : R) : stencil :=
  {| st_D := 2; st_Q := 25;
     st_e := tblR (D2Q25H_rows s);
     st_w := fun i => nth i D2Q25H_wts 0;
     st_opp := opp_default0 D2Q25H_opp;
     st_cs := s / sqrt 3; st_cs2 := s * s / 3; st_maxvel := sqrt 2 * s |}.

(** The shipped stencils, by name, with their constructor argument. *)
Definition stencil_of (t : StencilType) (scaling : R) : stencil :=
  match t with
  | Stencil_D2Q9 => D2Q9 scaling
  | Stencil_D3Q19 => D3Q19 scaling
  | Stencil_D3Q15 => D3Q15 scaling
  | Stencil_D3Q27 => D3Q27 scaling
  | Stencil_D2Q19H => D2Q19H scaling
  | Stencil_D2Q19V => D2Q19V scaling
  | Stencil_D2Q777 => D2Q777 scaling
  | Stencil_D2Q25H => D2Q25H scaling
  | Stencil_D3Q13 => D3Q13 scaling
  | Stencil_D3Q21 => D3Q21 scaling
  | Stencil_RD3Q27 => RD3Q27 scaling
  | Stencil_D3Q45 => D3Q45 scaling
  | Stencil_D3Q77 => D3Q77 scaling
  | Stencil_D3V27 => D3V27 scaling
  end.
