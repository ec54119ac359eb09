(** Go values passed as query arguments (type any), the errors of the library,
    and outcomes of calls.  The value model covers what the library can observe
    of an argument: its dynamic type, == / hashing as a map key
    (context_args.go:58), its reflect.Kind (util/args.go, util/interpolate.go). *)
From Coq Require Import Strings.String Strings.Ascii NArith ZArith List Bool.
From Verif Require Import GoStr GoNum.
Import ListNotations.
Open Scope string_scope.

(** Errors.  [EInvalidIndex] is sqlf.ErrInvalidIndex (errors.go:8) wrapped with
    the offending index (properties.go:16); [EMsg] is errors.New, or fmt.Errorf
    that wraps nothing; [EWrap] is fmt.Errorf("...: %w", e); [EAfter] is
    fmt.Errorf("%w: ...", e), util/scan.go:85. *)
Inductive err :=
| EInvalidIndex (i : Z)
| EMsg (msg : string)
| EWrap (msg : string) (e : err)
| EAfter (e : err) (msg : string).

(** errors.Is(err, ErrInvalidIndex) *)
Fixpoint is_invalid_index (e : err) : bool :=
  match e with
  | EInvalidIndex _ => true
  | EMsg _ => false
  | EWrap _ e' => is_invalid_index e'
  | EAfter e' _ => is_invalid_index e'
  end.

(** err.Error() *)
Fixpoint err_text (e : err) : string :=
  match e with
  | EInvalidIndex i => "invalid index: " ++ itoa i
  | EMsg m => m
  | EWrap m e' => m ++ ": " ++ err_text e'
  | EAfter e' m => err_text e' ++ ": " ++ m
  end.

(** Result of a Go call: normal return, returned error, panic, or (model only)
    fuel exhausted. *)
Inductive outcome (A : Type) :=
| ROk (a : A) | RErr (e : err) | RPanic (e : err) | RFuel.
Arguments ROk {A}. Arguments RErr {A}. Arguments RPanic {A}. Arguments RFuel {A}.

(** A time.Time: the nanoseconds since January 1 of the year 1 00:00 UTC, the
    location (the identity of the *time.Location), and the monotonic clock reading. *)
Record gotime := GoTime { t_ns : Z; t_loc : N; t_mono : option Z }.
(** time.Time.IsZero *)
Definition is_zero_time (t : gotime) : bool := Z.eqb (t_ns t) 0.
(** == on time.Time compares the fields of the struct. *)
Definition time_eq (t u : gotime) : bool :=
  Z.eqb (t_ns t) (t_ns u) && N.eqb (t_loc t) (t_loc u) &&
  match t_mono t, t_mono u with None, None => true | Some a, Some b => Z.eqb a b | _, _ => false end.

(** A Go value stored in an interface.  [ty] is the name of its dynamic type. *)
Inductive value :=
| VNil
| VBool (ty : string) (b : bool)
| VInt (ty : string) (z : Z)                 (* every integer kind but uintptr *)
| VFloat (ty : string) (f : f64)
| VStr (ty : string) (s : string)
| VPtr (ty : string) (addr : N) (target : option value)   (* None: nil pointer *)
| VStruct (ty : string) (fields : list value)
| VArray (ty : string) (elems : list value)
| VSlice (ty : string) (elems : option (list value))      (* None: nil slice *)
| VOpaque (ty : string) (hashable : bool) (id : N)        (* chan, map, func, uintptr, complex, ... *)
| VTime (t : gotime)                                      (* time.Time *)
| VValuer (ty : string) (repr : value) (out : value + err + err)
    (* implements driver.Valuer: Value() returns a value or an error, or panics *)
| VStringer (ty : string) (repr : value) (out : string + err).
    (* implements fmt.Stringer: String() returns or panics *)

(** Can the value be hashed, i.e. used as a map[any]int key without a run-time
    panic (context_args.go:58)? *)
Fixpoint hashable (v : value) : bool :=
  match v with
  | VSlice _ _ => false
  | VOpaque _ h _ => h
  | VStruct _ l | VArray _ l =>
    (fix all (l : list value) : bool :=
       match l with [] => true | x :: l' => hashable x && all l' end) l
  | VValuer _ r _ | VStringer _ r _ => hashable r
  | _ => true
  end.

(** Go's == on interface values (the equality of map keys). *)
Fixpoint go_eq (v w : value) {struct v} : bool :=
  match v, w with
  | VNil, VNil => true
  | VBool t a, VBool u b => String.eqb t u && Bool.eqb a b
  | VInt t a, VInt u b => String.eqb t u && Z.eqb a b
  | VFloat t a, VFloat u b => String.eqb t u && float_eq a b
  | VStr t a, VStr u b => String.eqb t u && String.eqb a b
  | VPtr t a _, VPtr u b _ => String.eqb t u && N.eqb a b
  | VStruct t l, VStruct u m | VArray t l, VArray u m =>
    String.eqb t u &&
    (fix all2 (l m : list value) {struct l} : bool :=
       match l, m with
       | [], [] => true
       | x :: l', y :: m' => go_eq x y && all2 l' m'
       | _, _ => false
       end) l m
  | VOpaque t h a, VOpaque u k b => String.eqb t u && h && k && N.eqb a b
  | VTime a, VTime b => time_eq a b
  | VValuer t a _, VValuer u b _ => String.eqb t u && go_eq a b
  | VStringer t a _, VStringer u b _ => String.eqb t u && go_eq a b
  | _, _ => false
  end.
