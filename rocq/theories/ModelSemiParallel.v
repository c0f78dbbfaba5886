(** Matrix with distributed columns.  Reals for doubles; assertions (also those of deal.II) are checked. *)
From Verif Require Import Prelude.
Local Open Scope R_scope.

(** Vectors of the four instantiations: numeric_vector has one part, the parts of a block_vector are its blocks, those of
    a distributed_vector the ranges owned by the processes (distributed_block_vector not modelled). *)
Inductive vkind := Plain | Blocks | Distributed.
Definition pvec := list (list R).
Definition shape (v : pvec) : list nat := map (@length R) v.
Definition vsize (v : pvec) : nat := length (concat v).

(** v = 0: keeps the structure. *)
Definition zeroed (v : pvec) : pvec := map (map (fun _ => 0)) v.

(** dst.add(a, v): the structures have to agree (deal.II assertion). *)
Definition axpy (a : R) (u v : pvec) : pvec := map (fun p => map (fun q => fst q + a * snd q) (combine (fst p) (snd p))) (combine u v).
Definition add (a : R) (v dst : pvec) : outcome pvec := if list_eq_dec Nat.eq_dec (shape dst) (shape v) then Ok (axpy a dst v) else Throw.

(** Process that owns entry [i]: number of the part. *)
Fixpoint part_of (i : nat) (v : pvec) : option nat :=
  match v with [] => None | p :: l => if Nat.ltb i (length p) then Some 0%nat else option_map S (part_of (i - length p) l) end.
Fixpoint replace (i : nat) (x : R) (p : list R) : list R :=
  match p, i with [], _ => [] | _ :: l, 0%nat => x :: l | y :: l, S i' => y :: replace i' x l end.
Fixpoint replace_part (i : nat) (x : R) (v : pvec) : pvec :=
  match v with [] => [] | p :: l => if Nat.ltb i (length p) then replace i x p :: l else p :: replace_part (i - length p) x l end.

(** Access v(i) on process [me]: entries of other processes are not available. *)
Definition available (k : vkind) (me i : nat) (v : pvec) : bool :=
  match k, part_of i v with _, None => false | Distributed, Some p => Nat.eqb p me | _, Some _ => true end.

(** utilities/SemiParallelMatrix.cpp:12-39: reinitVector on a new vector.  dealii::BlockVector::reinit(n, true) is the
    overload with number of blocks and size of every block: n blocks of size one. *)
Definition reinitVector (k : vkind) (src : pvec) : pvec :=
  if Nat.eqb (vsize src) 0 then []
  else match k with Blocks => repeat [0] (vsize src) | Plain | Distributed => zeroed src end.

(** m_M (SemiParallelMatrix.h:41): the columns. *)
Definition spmatrix := list pvec.

(** SemiParallelMatrix.cpp:52-61: reinit. *)
Definition sp_reinit (k : vkind) (prototype : pvec) (n : nat) : spmatrix := repeat (zeroed (reinitVector k prototype)) n.

(** SemiParallelMatrix.cpp:63-66: set. *)
Fixpoint set_nth (j : nat) (v : pvec) (M : spmatrix) : spmatrix :=
  match M, j with [], _ => [] | _ :: l, 0%nat => v :: l | c :: l, S j' => c :: set_nth j' v l end.
Definition sp_set (k : vkind) (me i j : nat) (x : R) (M : spmatrix) : outcome spmatrix :=
  match nth_error M j with
  | None => Throw
  | Some c => if available k me i c then Ok (set_nth j (replace_part i x c) M) else Throw
  end.

(** SemiParallelMatrix.cpp:68-71: operator(). *)
Definition sp_get (k : vkind) (me i j : nat) (M : spmatrix) : outcome R :=
  match nth_error M j with
  | None => Throw
  | Some c => if available k me i c then Ok (nth i (concat c) 0) else Throw
  end.

(** SemiParallelMatrix.cpp:73-83: vmult. *)
Fixpoint vmult_loop (M : spmatrix) (src : list R) (dst : pvec) : outcome pvec :=
  match M, src with
  | c :: M', a :: src' => match add a c dst with Ok d => vmult_loop M' src' d | Throw => Throw | UB => UB end
  | _, _ => Ok dst
  end.
Definition sp_vmult (M : spmatrix) (dst : pvec) (src : list R) : outcome pvec :=
  if Nat.eqb (length src) (length M) then vmult_loop M src (zeroed dst) else Throw.

(** SemiParallelMatrix.cpp:85-89,96-100: getColumn, setColumn. *)
Definition sp_getColumn (j : nat) (M : spmatrix) : outcome pvec := match nth_error M j with Some c => Ok c | None => Throw end.
Definition sp_setColumn (j : nat) (v : pvec) (M : spmatrix) : outcome spmatrix := if Nat.ltb j (length M) then Ok (set_nth j v M) else Throw.
