(** Types used by the generated ConfigData.v: deal.II's patterns (base/patterns.h), the text
    of an entry, and descriptions of the setters and getters of SolverConfiguration. *)
From Coq Require Import String List Reals ZArith.
Import ListNotations.
Open Scope R_scope.

(** The text stored for an entry, by what the program makes of it: an integer, a decimal
    number, true/false, a list of decimals, any other string. *)
Inductive text :=
| TInt (z : Z) | TDec (x : R) | TBool (b : bool) | TStr (s : string) | TList (l : list R).

(** dealii::Patterns::Double(min,max), Integer(min,max), Bool, Selection, DirectoryName, List
    of Double.  Without an upper bound Integer has the largest int. *)
Inductive pattern :=
| PDouble (lo hi : option R) | PInteger (lo hi : Z) | PBool | PSelection (l : list string)
| PAny | PList (lo hi : R).
Definition int_max : Z := 2147483647.

(** A declared entry: subsections, key, pattern, present text. *)
Record entry_decl := Decl { d_path : list string; d_key : string; d_pattern : pattern; d_text : text }.

(** Arguments and results of setters and getters.  Enumerators by their number. *)
Inductive cval :=
| VEnum (n : nat) | VDouble (x : R) | VInt (z : Z) | VBool (b : bool) | VString (s : string) | VCoords (l : list R).

(** [SetEnum cases]: [switch] on the argument with [default: leave; throw].  The others:
    set(key, argument) for an argument of type double, long int, bool, std::string. *)
Inductive set_kind :=
| SetEnum (cases : list (nat * string)) | SetDouble | SetInt | SetBool | SetString.

(** Subsections entered; key; is the set call inside try/catch with the leave_subsection
    calls in the catch block?; kind. *)
Record setter_desc := Setter { s_path : list string; s_key : string; s_guarded : bool; s_kind : set_kind }.

(** [GetEnum chain]: get(key), leave, [if ("text" == value) return ...] chain with a final
    throw; [None] is a condition that is always true.  [GetSize]: size_t from
    get_integer; [GetSizeTruncated]: size_t from get_double; all but GetEnum are inside
    try/catch with the leave_subsection calls in the catch block. *)
Inductive get_kind :=
| GetEnum (chain : list (option string * nat)) | GetDouble | GetSize | GetSizeTruncated | GetBool | GetString.
Record getter_desc := Getter { g_path : list string; g_key : string; g_kind : get_kind }.
