(** Model of solver/DistributionFunctions.{h,cpp}: owned and ghosted populations on several processes.
    A distributed vector is a function from (global) degrees of freedom to values; a ghosted vector
    has a copy on every process.  Assigning an owned vector to a ghosted one communicates
    (DistributionFunctions.h:279-285). *)
From Verif Require Import Prelude.
Local Open Scope R_scope.

(** Distribution of the degrees of freedom among the processes. *)
Record layout := mkLayout {
  owner : nat -> nat;                  (* process that owns a degree of freedom *)
  relevant : nat -> nat -> bool;       (* process, degree of freedom: locally relevant *)
  dofs_in : nat -> bool }.             (* the degrees of freedom that exist *)

Definition vector := nat -> R.
Definition ghosted_vector := nat -> nat -> R.

(** DistributionFunctions.h:48-67. *)
Record distributions := mkDist {
  m_Q : nat; m_f0 : vector; m_fStream : nat -> vector;
  m_f0Ghosted : ghosted_vector; m_fStreamGhosted : nat -> ghosted_vector;
  m_dg : bool; m_layout : layout }.

(** Assignment ghosted = owned (collective): every process gets the values at its relevant dofs. *)
Definition communicate (L : layout) (old : ghosted_vector) (x : vector) : ghosted_vector :=
  fun p i => if relevant L p i then x i else old p i.

(** DistributionFunctions.h:276-288 updateGhosted. *)
Definition updateGhosted (s : distributions) : distributions :=
  if m_dg s then s else
  mkDist (m_Q s) (m_f0 s) (m_fStream s)
    (communicate (m_layout s) (m_f0Ghosted s) (m_f0 s))
    (fun b => communicate (m_layout s) (m_fStreamGhosted s b) (m_fStream s b)) (m_dg s) (m_layout s).

(** DistributionFunctions.cpp:38-56 at (as a value). *)
Definition component (s : distributions) (i : nat) : vector :=
  match i with O => m_f0 s | S b => m_fStream s b end.
(** Reading entry [j] of at(i) on process [p]: the assertions of at(i); entries of other processes cannot be read. *)
Definition read (s : distributions) (p i j : nat) : outcome R :=
  if Nat.ltb i (m_Q s) then
    if (dofs_in (m_layout s) j && Nat.eqb (owner (m_layout s) j) p)%bool then Ok (component s i j) else Throw
  else Throw.
(** DistributionFunctions.cpp:58-92 atGhosted. *)
Definition readGhosted (s : distributions) (p i j : nat) : outcome R :=
  if Nat.ltb i (m_Q s) then
    if m_dg s then read s p i j else
    if (dofs_in (m_layout s) j && relevant (m_layout s) p j)%bool
    then Ok (match i with O => m_f0Ghosted s p j | S b => m_fStreamGhosted s b p j end) else Throw
  else Throw.

(** DistributionFunctions.cpp:94-116 and 117-136 reinit; vectors are filled with zeros.  Q = 0 asks
    for 2^64 - 1 blocks. *)
Definition reinit (s : distributions) (Q : nat) (L : layout) (dg : bool) : outcome distributions :=
  match Q with
  | O => Throw
  | S _ => Ok (updateGhosted (mkDist Q (fun _ => 0) (fun _ _ => 0) (fun _ _ => 0) (fun _ _ _ => 0) dg L))
  end.
(** The reinit without ghost elements leaves the ghosted vectors as they are. *)
Definition reinit_dg (s : distributions) (Q : nat) (L : layout) : outcome distributions :=
  match Q with
  | O => Throw
  | S _ => Ok (mkDist Q (fun _ => 0) (fun _ _ => 0) (m_f0Ghosted s) (m_fStreamGhosted s) true L)
  end.
(** DistributionFunctions.h:133-135 setF0. *)
Definition setF0 (s : distributions) (x : vector) : distributions :=
  mkDist (m_Q s) x (m_fStream s) (m_f0Ghosted s) (m_fStreamGhosted s) (m_dg s) (m_layout s).
(** DistributionFunctions.h:214-219 setFStream. *)
Definition setFStream (s : distributions) (x : nat -> vector) : distributions :=
  mkDist (m_Q s) (m_f0 s) x (m_f0Ghosted s)
    (if m_dg s then m_fStreamGhosted s else fun b => communicate (m_layout s) (m_fStreamGhosted s b) (x b)) (m_dg s) (m_layout s).
(** Change of the owned data. *)
Definition with_components (s : distributions) (g : nat -> vector) : distributions :=
  mkDist (m_Q s) (g 0%nat) (fun b => g (S b)) (m_f0Ghosted s) (m_fStreamGhosted s) (m_dg s) (m_layout s).
(** DistributionFunctions.cpp:138-147 compress: no entries are pending in this model. *)
Definition compress (s : distributions) : distributions := updateGhosted s.
(** DistributionFunctions.cpp:148-153 operator=; both objects have the same layout (simplification). *)
Definition assign (s other : distributions) : outcome distributions :=
  if Nat.eqb (m_Q other) (m_Q s) then Ok (updateGhosted (with_components s (component other))) else Throw.
(** DistributionFunctions.cpp:190-209 scaleF over the index set [ix] (of all processes together). *)
Definition scaleF (s : distributions) (scale : R) (ix : nat -> bool) : distributions :=
  updateGhosted (with_components s (fun i j => if (Nat.ltb i (m_Q s) && ix j)%bool then scale * component s i j else component s i j)).
(** DistributionFunctions.cpp:211-257 transferFromOtherScaling with the matrix [T] of line 241;
    [close] is the test of lines 219-222 (sounds of speed differ by less than 1e-5). *)
Definition transfer (s : distributions) (close : bool) (T : nat -> nat -> R) (ix : nat -> bool) : distributions :=
  if close then s else
  updateGhosted (with_components s (fun i j =>
    if (Nat.ltb i (m_Q s) && ix j)%bool then sumf (m_Q s) (fun k => T i k * component s k j) else component s i j)).
(** Assignment through the reference returned by at(i) (by the owner of entry [j]). *)
Definition write (s : distributions) (i j : nat) (v : R) : outcome distributions :=
  if Nat.ltb i (m_Q s) then
    Ok (with_components s (fun i' j' => if (Nat.eqb i' i && Nat.eqb j' j)%bool then v else component s i' j'))
  else Throw.

(** Public operations that change the object. *)
Inductive operation :=
| Reinit (Q : nat) (L : layout) (dg : bool)
| ReinitDG (Q : nat) (L : layout)
| SetF0 (x : vector)
| SetFStream (x : nat -> vector)
| Compress
| Assign (other : distributions)
| ScaleF (scale : R) (ix : nat -> bool)
| Transfer (close : bool) (T : nat -> nat -> R) (ix : nat -> bool)
| UpdateGhosted
| Write (i j : nat) (v : R).
Definition perform (s : distributions) (o : operation) : outcome distributions :=
  match o with
  | Reinit Q L dg => reinit s Q L dg
  | ReinitDG Q L => reinit_dg s Q L
  | SetF0 x => Ok (setF0 s x)
  | SetFStream x => Ok (setFStream s x)
  | Compress => Ok (compress s)
  | Assign other => assign s other
  | ScaleF c ix => Ok (scaleF s c ix)
  | Transfer cl T ix => Ok (transfer s cl T ix)
  | UpdateGhosted => Ok (updateGhosted s)
  | Write i j v => write s i j v
  end.
Fixpoint perform_all (s : distributions) (os : list operation) : outcome distributions :=
  match os with
  | [] => Ok s
  | o :: r => obind (perform s o) (fun s' => perform_all s' r)
  end.
(** DistributionFunctions.h:75-79: the constructor. *)
Definition empty_distributions (dg : bool) (L : layout) : distributions :=
  mkDist 0 (fun _ => 0) (fun _ _ => 0) (fun _ _ => 0) (fun _ _ _ => 0) dg L.

(** DistributionFunctions.cpp:156-188 equals, on [procs] processes and degrees of freedom below [n]:
    every process runs over its own entries of the first object; the minimum over the processes.
    ([i], [j] only range over what is needed: component index below Q, entries owned by [p].) *)
Definition owned (s : distributions) (p j : nat) : bool := (dofs_in (m_layout s) j && Nat.eqb (owner (m_layout s) j) p)%bool.
Definition equals_on (s other : distributions) (threshold : R) (n p : nat) : bool :=
  if negb (Nat.eqb (m_Q s) (m_Q other)) then false
  else forallb (fun i => forallb (fun j =>
         if owned s p j then
           if owned other p j then if Rlt_dec threshold (Rabs (component s i j - component other i j)) then false else true
           else false
         else true) (List.seq 0 n)) (List.seq 0 (m_Q s)).
Definition equals (s other : distributions) (threshold : R) (n procs : nat) : bool :=
  forallb (equals_on s other threshold n) (List.seq 0 procs).
