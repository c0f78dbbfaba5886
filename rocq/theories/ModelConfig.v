(** Model of /repo/src/library/natrium/solver/SolverConfiguration.{h,cpp} on top of deal.II's
    ParameterHandler (base/parameter_handler.h): subsections, entries with patterns.

    Simplified: creating missing subsections (enter_subsection) is left out, as subsections
    without entries are never read; parameter files are not parsed; no actions are attached to
    entries. *)
From Coq Require Import String.
From Verif Require Import Prelude ModelText ConfigTypes ConfigData.
Open Scope R_scope.

(** The ParameterHandler part of a SolverConfiguration: the current subsection path and the
    entries with their present texts. *)
Record handler := { h_path : list string; h_entries : list entry_decl }.

(** Member functions change the handler even if they throw. *)
Definition M (A : Type) : Type := handler -> outcome A * handler.
Definition ret {A} (a : A) : M A := fun h => (Ok a, h).
Definition throw {A} : M A := fun h => (Throw, h).
Definition undefined {A} : M A := fun h => (UB, h).
Definition bind {A B} (c : M A) (k : A -> M B) : M B :=
  fun h => match c h with
           | (Ok a, h') => k a h'
           | (Throw, h') => (Throw, h')
           | (UB, h') => (UB, h')
           end.
Definition seq {A B} (c : M A) (d : M B) : M B := bind c (fun _ => d).
(** try { c } catch (std::exception&) { d } *)
Definition try_catch {A} (c : M A) (d : M A) : M A :=
  fun h => match c h with (Throw, h') => d h' | r => r end.

(** ** ParameterHandler *)

Fixpoint path_eqb (p q : list string) : bool :=
  match p, q with
  | [], [] => true
  | x :: p', y :: q' => (String.eqb x y && path_eqb p' q')%bool
  | _, _ => false
  end.
Definition is_entry (p : list string) (k : string) (d : entry_decl) : bool :=
  (path_eqb p (d_path d) && String.eqb k (d_key d))%bool.

Definition within (lo hi : option R) (x : R) : bool :=
  ((match lo with Some l => if Rle_dec l x then true else false | None => true end) &&
   (match hi with Some u => if Rle_dec x u then true else false | None => true end))%bool.

(** Patterns::...::match *)
Definition matches (p : pattern) (t : text) : bool :=
  match p, t with
  | PDouble lo hi, TDec x => within lo hi x
  | PDouble lo hi, TInt z => within lo hi (IZR z)
  | PInteger lo hi, TInt z => (Z.leb lo z && Z.leb z hi)%bool
  | PBool, TBool _ => true
  | PSelection l, TStr s => existsb (String.eqb s) l
  | PAny, TStr _ => true
  | PList lo hi, TList l => forallb (within (Some lo) (Some hi)) l
  | _, _ => false
  end.

(** ParameterHandler::enter_subsection, leave_subsection (pop_back of an empty vector is
    undefined; an assertion in debug mode). *)
Definition enter_subsection (s : string) : M unit :=
  fun h => (Ok tt, {| h_path := h_path h ++ [s]; h_entries := h_entries h |}).
Definition leave_subsection : M unit :=
  fun h => match h_path h with
           | [] => (UB, h)
           | _ => (Ok tt, {| h_path := removelast (h_path h); h_entries := h_entries h |})
           end.

(** ParameterHandler::set(key, text): throws for an undeclared entry and for a value that
    does not match the pattern. *)
Definition set_text (p : list string) (k : string) (t : text) (d : entry_decl) : entry_decl :=
  if is_entry p k d then Decl (d_path d) (d_key d) (d_pattern d) t else d.
Definition hset (k : string) (t : text) : M unit :=
  fun h => match find (is_entry (h_path h) k) (h_entries h) with
           | None => (Throw, h)
           | Some d => if matches (d_pattern d) t
                       then (Ok tt, {| h_path := h_path h; h_entries := map (set_text (h_path h) k t) (h_entries h) |})
                       else (Throw, h)
           end.

(** ParameterHandler::get *)
Definition hget (k : string) : M text :=
  fun h => match find (is_entry (h_path h) k) (h_entries h) with
           | None => (Throw, h)
           | Some d => (Ok (d_text d), h)
           end.

(** ** Setters and getters *)

Fixpoint enters (p : list string) : M unit :=
  match p with [] => ret tt | s :: p' => seq (enter_subsection s) (enters p') end.
Fixpoint leaves (p : list string) : M unit :=
  match p with [] => ret tt | _ :: p' => seq leave_subsection (leaves p') end.

(** The argument converted to text: deal.II's set(key, double) prints 16 digits, set(key,
    long int) and set(key, bool) are exact. *)
Definition to_text (v : cval) : text :=
  match v with
  | VDouble x => TDec (print_digits 16 x)
  | VInt z => TInt z
  | VBool b => TBool b
  | VString s => TStr s
  | VCoords l => TList (map (print_digits 6) l)
  | VEnum _ => TStr ""
  end.

Definition lookup_case (n : nat) (cases : list (nat * string)) : option string :=
  option_map snd (find (fun c => Nat.eqb n (fst c)) cases).

(** The body between the enter_subsection and leave_subsection calls; only argument types
    accepted by the C++ compiler are run. *)
Definition set_body (d : setter_desc) (v : cval) : M unit :=
  let plain := hset (s_key d) (to_text v) in
  let guarded := if s_guarded d then try_catch plain (seq (leaves (s_path d)) throw) else plain in
  match s_kind d, v with
  | SetEnum cases, VEnum n =>
      match lookup_case n cases with
      | Some s => hset (s_key d) (TStr s)
      | None => seq (leaves (s_path d)) throw
      end
  | SetDouble, VDouble _ | SetInt, VInt _ | SetBool, VBool _ | SetString, VString _ => guarded
  | _, _ => undefined
  end.
Definition run_setter (d : setter_desc) (v : cval) : M unit :=
  seq (enters (s_path d)) (seq (set_body d v) (leaves (s_path d))).

(** [size_t] from a long int. *)
Definition to_size (z : Z) : Z := (z mod 2 ^ 64)%Z.

(** ParameterHandler::get_double, get_integer, get_bool on a text. *)
Definition number (t : text) : M R :=
  match t with TDec x => ret x | TInt z => ret (IZR z) | _ => throw end.

Definition chain_matches (s : string) (c : option string * nat) : bool :=
  match fst c with Some t => String.eqb t s | None => true end.
Definition read_enum (chain : list (option string * nat)) (t : text) : M cval :=
  match t with
  | TStr s => match find (chain_matches s) chain with
              | Some c => ret (VEnum (snd c))
              | None => throw
              end
  | _ => throw
  end.

(** Conversion of the text by the getters (double to size_t truncates; undefined for
    negative values). *)
Definition convert (k : get_kind) (t : text) : M cval :=
  match k with
  | GetEnum _ => undefined
  | GetDouble => bind (number t) (fun x => ret (VDouble x))
  | GetSize => match t with TInt z => ret (VInt (to_size z)) | _ => throw end
  | GetSizeTruncated => bind (number t) (fun x => if Rlt_dec x 0 then undefined else ret (VInt (Int_part x)))
  | GetBool => match t with TBool b => ret (VBool b) | _ => throw end
  | GetString => match t with TStr s => ret (VString s) | _ => throw end
  end.
Definition run_getter (d : getter_desc) : M cval :=
  seq (enters (g_path d))
    (match g_kind d with
     | GetEnum chain =>
         bind (hget (g_key d)) (fun t => seq (leaves (g_path d)) (read_enum chain t))
     | k =>
         bind (try_catch (bind (hget (g_key d)) (convert k)) (seq (leaves (g_path d)) throw))
           (fun v => seq (leaves (g_path d)) (ret v))
     end).

Definition set (o : option_id) (v : cval) : M unit := run_setter (setter_of o) v.
Definition get (o : option_id) : M cval := run_getter (getter_of o).
Definition get_read_only (o : read_only_id) : M cval := run_getter (read_only_getter_of o).

Local Open Scope string_scope.

(** SolverConfiguration.h:2187-2199 *)
Definition setPrandtlNumber (x : R) : M unit :=
  seq (enters ["General"])
   (seq (try_catch (seq (hset "Prandtl" (to_text (VDouble x))) (hset "Prandtl number set" (TBool true)))
          (seq (leaves ["General"]) throw))
        (leaves ["General"])).

(** SolverConfiguration.h:2231-2242 *)
Definition setSutherlandLaw : M unit :=
  seq (enters ["General"])
   (seq (try_catch (hset "Sutherland law set" (TBool true)) (seq (leaves ["General"]) throw)) (leaves ["General"])).

(** SolverConfiguration.h:1975-1990: no try/catch. *)
Definition setEmbeddedDealIntegratorParameters (coarsen_param refine_param min_delta max_delta refine_tol coarsen_tol : R) : M unit :=
  let p := ["Advection"; "Embedded Parameters"] in
  seq (enters p)
   (seq (hset "Coarsen parameter" (to_text (VDouble coarsen_param)))
   (seq (hset "Refinement parameter" (to_text (VDouble refine_param)))
   (seq (hset "Minimum CFL" (to_text (VDouble min_delta)))
   (seq (hset "Maximum CFL" (to_text (VDouble max_delta)))
   (seq (hset "Refinement tolerance" (to_text (VDouble refine_tol)))
   (seq (hset "Coarsen tolerance" (to_text (VDouble coarsen_tol)))
        (leaves p))))))).

(** SolverConfiguration.h:2477-2500: for an empty vector [n - 1] wraps around and
    [at(0)] throws. *)
Definition setWallNormalCoordinates (l : list R) : M unit :=
  let p := ["Output"; "Turbulence Statistics"] in
  seq (enters p)
   (seq (try_catch (match l with [] => throw | _ => hset "Wall normal coordinates" (to_text (VCoords l)) end)
          (seq (leaves p) throw))
        (leaves p)).

(** SolverConfiguration.h:2447-2475 *)
Definition getWallNormalCoordinates : M cval :=
  let p := ["Output"; "Turbulence Statistics"] in
  seq (enters p)
   (bind (try_catch (bind (hget "Wall normal coordinates") (fun t => match t with TList l => ret (VCoords l) | _ => throw end))
           (seq (leaves p) throw))
      (fun v => seq (leaves p) (ret v))).

(** SolverConfiguration.cpp:15-295: the default constructor. *)
Definition default_configuration : handler := {| h_path := []; h_entries := declared |}.

(** A parameter file: values with their subsections and keys, in order. *)
Definition parameter_file : Type := list (list string * string * text).

(** SolverConfiguration.cpp:315-321 (readFromXMLFile) with
    ParameterHandler::parse_input_from_xml: the values are stored one after the other; an
    undeclared entry or a value that does not match the pattern is an exception, values
    stored before stay. *)
Definition store_value (w : list string * string * text) : M unit :=
  fun h => match find (is_entry (fst (fst w)) (snd (fst w))) (h_entries h) with
           | None => (Throw, h)
           | Some d => if matches (d_pattern d) (snd w)
                       then (Ok tt, {| h_path := h_path h; h_entries := map (set_text (fst (fst w)) (snd (fst w)) (snd w)) (h_entries h) |})
                       else (Throw, h)
           end.
Fixpoint readFromXMLFile (file : parameter_file) : M unit :=
  match file with [] => ret tt | w :: file' => seq (store_value w) (readFromXMLFile file') end.

(** ParameterHandler::print_parameters (used as in SolverConfiguration_test.cpp:38). *)
Definition print_parameters (h : handler) : parameter_file := map (fun d => (d_path d, d_key d, d_text d)) (h_entries h).

(** SolverConfiguration.cpp:297-300: the constructor from an XML file.  Line 298 declares the
    entries of a temporary object; this object has none. *)
Definition xml_configuration (file : parameter_file) : outcome handler :=
  match readFromXMLFile file {| h_path := []; h_entries := [] |} with
  | (Ok _, h) => Ok h
  | (Throw, _) => Throw
  | (UB, _) => UB
  end.
