(** Model of package util (/repo/util). *)
From Coq Require Import Strings.String Strings.Ascii NArith ZArith List Bool.
From Coq Require Import Floats.SpecFloat.
From Verif Require Import GoStr GoNum Syntax Value.
Import ListNotations.
Open Scope string_scope.

(** The run-time panics of Go that the code can run into. *)
Definition nil_deref : err := EMsg "runtime error: invalid memory address or nil pointer dereference".
Definition index_range : err := EMsg "runtime error: index out of range".

(* ------------------------------------------------------------------ *)
(** * util/args.go *)

(** The pointer types handled by explicit cases, util/args.go:47-66. *)
Definition listed_ptr_types : list string :=
  ["*[]bool"; "*[]float64"; "*[]float32"; "*[]int64"; "*[]int32"; "*[]int";
   "*[]uint64"; "*[]uint32"; "*[]uint"; "*[]string"].

(** reflect.Kind based flattening of a (non pointer) value,
    util/args.go:89-106; [None] = not a slice or array.  Named types that
    implement Valuer/Stringer keep the kind of their representation. *)
Fixpoint elems_of (v : value) : option (list value) :=
  match v with
  | VSlice _ None => Some []
  | VSlice _ (Some l) => Some l
  | VArray _ l => Some l
  | VValuer _ r _ | VStringer _ r _ => elems_of r
  | _ => None
  end.

(** The representation of a value of a type with methods: a pointer with a
    Value method is still a pointer. *)
Fixpoint repr_of (v : value) : value :=
  match v with
  | VValuer _ r _ | VStringer _ r _ => repr_of r
  | _ => v
  end.
(** argsFrom + Ttoa + convertArrayReflect, util/args.go:23-107.  The listed
    slice types and the reflect path give the same elements, so they share one
    case; the listed pointer types dereference without a nil check. *)
Definition args_from (v : value) : outcome (list value) :=
  match v with
  | VPtr ty _ None =>
    if existsb (String.eqb ty) listed_ptr_types then RPanic nil_deref else ROk [v]
  | _ =>
    match elems_of (match repr_of v with VPtr _ _ (Some w) => w | r => r end) with
    | Some l => ROk l
    | None => ROk [v]
    end
  end.

(** ArgsFlatted, util/args.go:15-21 *)
Fixpoint args_flatted (l : list value) : outcome (list value) :=
  match l with
  | [] => ROk []
  | v :: l' =>
    match args_from v with
    | ROk a => match args_flatted l' with ROk b => ROk (a ++ b)%list | o => o end
    | o => o
    end
  end.

(* ------------------------------------------------------------------ *)
(** * util/interpolate.go *)

(** quoteStringValue, util/interpolate.go:120-126 *)
Definition quote_string_value (s : string) : string := "'" ++ double_quotes s ++ "'".

(** fmt.Sprintf("%f", x): six fractional digits, correctly rounded, ties to
    even (Go standard library). *)
Definition round_div_even (n d : Z) : Z :=
  let q := (n / d)%Z in
  let r := (n mod d)%Z in
  match (2 * r ?= d)%Z with
  | Lt => q
  | Gt => (q + 1)%Z
  | Eq => if Z.even q then q else (q + 1)%Z
  end.
Definition pad6 (s : string) : string :=
  str_take (6 - String.length s) "000000" ++ s.
Definition fmt_f (f : f64) : string :=
  let dec (neg : bool) (micros : Z) :=
    (if neg then "-" else "") ++ itoa (micros / 1000000) ++ "." ++ pad6 (itoa (micros mod 1000000)) in
  match f with
  | S754_nan => "NaN"
  | S754_infinity s => if s then "-Inf" else "+Inf"
  | S754_zero s => dec s 0%Z
  | S754_finite s m e =>
    let n := (Zpos m * 1000000)%Z in
    dec s (if (0 <=? e)%Z then (n * 2 ^ e)%Z else round_div_even n (2 ^ (- e)))
  end.

(** fmt's %T *)
Definition type_name (v : value) : string :=
  match v with
  | VNil => "<nil>"
  | VTime _ => "time.Time"
  | VBool ty _ | VInt ty _ | VFloat ty _ | VStr ty _ | VPtr ty _ _ | VStruct ty _ | VArray ty _
  | VSlice ty _ | VOpaque ty _ _ | VValuer ty _ _ | VStringer ty _ _ => ty
  end.

(** The default branch of encodeValue: dispatch on reflect.Kind,
    util/interpolate.go:97-115. *)
Definition encode_kind (v : value) : outcome string :=
  match v with
  | VBool _ b => ROk (if b then "TRUE" else "FALSE")
  | VInt _ z => ROk (itoa z)
  | VFloat _ f => ROk (fmt_f f)
  | VStr _ s => ROk (quote_string_value s)
  | _ => RErr (EMsg ("unsupported type " ++ type_name v))
  end.

(** encodeValue, util/interpolate.go:69-118.  [fmt_time] is
    time.Time.Round(Microsecond).Format(opts.TimeFormat), see Time.v.  What a Valuer's Value() and a Stringer's String() do is given
    with the value. *)
Fixpoint encode_value (fmt_time : gotime -> string) (v : value) : outcome string :=
  match v with
  | VNil => ROk "NULL"
  | VValuer _ _ (inl (inl w)) => encode_value fmt_time w
  | VValuer _ _ (inl (inr e)) => RErr e
  | VValuer _ _ (inr e) => RPanic e
  | VTime t => ROk (if is_zero_time t then "'0000-00-00'" else "'" ++ fmt_time t ++ "'")
  | VStringer _ _ (inl s) => ROk (quote_string_value s)
  | VStringer _ _ (inr e) => RPanic e
  | _ => encode_kind v
  end.

(** args[i-1] with Go's bounds check. *)
Definition nth_value (args : list value) (i : Z) : option value :=
  if (1 <=? i)%Z && (i <=? Z.of_nat (List.length args))%Z
  then nth_error args (Z.to_nat (i - 1)) else None.

(** The expression loop of Interpolate, util/interpolate.go:52-65.  There is no
    bounds check at line 57: an index outside args panics. *)
Fixpoint interpolate_exprs (fmt_time : gotime -> string) (args : list value) (es : list expr)
  : outcome string :=
  match es with
  | [] => ROk ""
  | e :: es' =>
    let piece :=
      match e with
      | EPlain t _ => ROk t
      | EBind _ i _ =>
        match nth_value args i with
        | Some v => encode_value fmt_time v
        | None => RPanic index_range
        end
      | ECall _ _ p | EFunc _ p => RErr (EMsg (pos_text p ++ ": unsupported declaration"))
      end in
    match piece with
    | ROk s => match interpolate_exprs fmt_time args es' with ROk r => ROk (s ++ r) | o => o end
    | o => o
    end
  end.

(** Interpolate, util/interpolate.go:45-67 *)
Definition interpolate (fmt_time : gotime -> string) (query : string) (args : list value)
  : outcome string :=
  match parse query with
  | POk es => interpolate_exprs fmt_time args es
  | PErr o m => RErr (EMsg (syntax_text o m))
  | PPanic => RPanic index_range
  | PFuel => RFuel
  end.
