(** Specification vocabulary for package util. *)
From Coq Require Import Strings.String Strings.Ascii NArith ZArith List Bool Floats.SpecFloat.
From Verif Require Import GoStr GoNum Syntax Value Util Scan Spec_syntax Spec_eval.
Import ListNotations.
Open Scope string_scope.

(* ------------------------------------------------------------------ *)
(** * Flattening *)

(** [v] is a slice or array with these elements (whatever methods its type has). *)
Inductive elements : value -> list value -> Prop :=
| el_slice ty l : elements (VSlice ty (Some l)) l
| el_nil ty : elements (VSlice ty None) []
| el_array ty l : elements (VArray ty l) l
| el_valuer ty r o l : elements r l -> elements (VValuer ty r o) l
| el_stringer ty r s l : elements r l -> elements (VStringer ty r s) l.
(** Pointer types that are dereferenced without looking. *)
Definition blind_pointer (v : value) : Prop :=
  exists ty a, v = VPtr ty a None /\
    In ty ["*[]bool"; "*[]float64"; "*[]float32"; "*[]int64"; "*[]int32"; "*[]int";
           "*[]uint64"; "*[]uint32"; "*[]uint"; "*[]string"].
(** [v] is a pointer to [w] (whatever methods its type has). *)
Inductive pointer_to : value -> value -> Prop :=
| pt_ptr ty a w : pointer_to (VPtr ty a (Some w)) w
| pt_valuer ty r o w : pointer_to r w -> pointer_to (VValuer ty r o) w
| pt_stringer ty r o w : pointer_to r w -> pointer_to (VStringer ty r o) w.
(** What one argument contributes. *)
Inductive flattened : value -> list value -> Prop :=
| fl_seq v l : elements v l -> flattened v l
| fl_ptr v w l : pointer_to v w -> elements w l -> flattened v l
| fl_self v : (forall l, ~ elements v l) -> (forall w l, pointer_to v w -> ~ elements w l) ->
    ~ blind_pointer v -> flattened v [v].

(* ------------------------------------------------------------------ *)
(** * Literals *)

(** M is n/d rounded to an integer, ties to even. *)
Definition rounded (n d M : Z) : Prop :=
  (2 * Z.abs (M * d - n) < d \/ (2 * Z.abs (M * d - n) = d /\ Z.even M = true))%Z.
(** M millionths in decimal notation with six fractional digits. *)
Definition millionths (neg : bool) (M : Z) (s : string) : Prop :=
  exists a b, s = (if neg then "-" else "") ++ itoa a ++ "." ++ b /\ (0 <= a)%Z /\
    String.length b = 6 /\ all is_digit b = true /\
    exists k, parse_uint64 b = Some k /\ (M = a * 1000000 + Z.of_N k)%Z.
Inductive float_text : f64 -> string -> Prop :=
| ft_nan : float_text S754_nan "NaN"
| ft_inf : float_text (S754_infinity false) "+Inf"
| ft_minus_inf : float_text (S754_infinity true) "-Inf"
| ft_zero b s : millionths b 0 s -> float_text (S754_zero b) s
| ft_finite b m e M s : millionths b M s ->
    rounded (Zpos m * 1000000 * 2 ^ (Z.max e 0)) (2 ^ (Z.max (- e) 0)) M ->
    float_text (S754_finite b m e) s.

Definition quoted (s : string) : string := "'" ++ doubled s ++ "'".

(** The literal of an argument; [ft] formats times. *)
Inductive literal (ft : gotime -> string) : value -> string -> Prop :=
| lt_nil : literal ft VNil "NULL"
| lt_valuer ty r w s : literal ft w s -> literal ft (VValuer ty r (inl (inl w))) s
| lt_time0 t : t_ns t = 0%Z -> literal ft (VTime t) "'0000-00-00'"
| lt_time t : t_ns t <> 0%Z -> literal ft (VTime t) ("'" ++ ft t ++ "'")
| lt_stringer ty r s : literal ft (VStringer ty r (inl s)) (quoted s)
| lt_true ty : literal ft (VBool ty true) "TRUE"
| lt_false ty : literal ft (VBool ty false) "FALSE"
| lt_int ty z : literal ft (VInt ty z) (itoa z)
| lt_float ty f s : float_text f s -> literal ft (VFloat ty f) s
| lt_str ty s : literal ft (VStr ty s) (quoted s).

(** A Value or String method called for the literal of [v] panics with [e]. *)
Inductive method_panics : value -> err -> Prop :=
| mp_valuer ty r e : method_panics (VValuer ty r (inr e)) e
| mp_value ty r w e : method_panics w e -> method_panics (VValuer ty r (inl (inl w))) e
| mp_stringer ty r e : method_panics (VStringer ty r (inr e)) e.

(** No NUL byte in the texts of a value. *)
Fixpoint clean (v : value) : bool :=
  match v with
  | VStr _ s | VStringer _ _ (inl s) => no_nul s
  | VValuer _ _ (inl (inl w)) => clean w
  | _ => true
  end.

(* ------------------------------------------------------------------ *)
(** * Interpolation *)

(** What a parsed expression becomes. *)
Inductive replaced (ft : gotime -> string) (args : list value) : aexpr -> string -> Prop :=
| rp_text t : replaced ft args (APlain t) t
| rp_bind sty k v s : (1 <= k)%Z -> nth_error args (Z.to_nat (k - 1)) = Some v -> literal ft v s ->
    replaced ft args (ABind sty k) s.
(** The replacement of an expression panics. *)
Inductive panics (args : list value) : aexpr -> err -> Prop :=
| pc_outside sty k : outside k (List.length args) -> panics args (ABind sty k) index_range
| pc_method sty k v e : (1 <= k)%Z -> nth_error args (Z.to_nat (k - 1)) = Some v -> method_panics v e ->
    panics args (ABind sty k) e.
(** What template parts become; [k] bind variables precede. *)
Inductive filled (ft : gotime -> string) (args : list value) : Z -> list part -> string -> Prop :=
| fd_nil k : filled ft args k [] ""
| fd_inert k p l s : is_inert p = true -> filled ft args k l s -> filled ft args k (p :: l) (print1 p ++ s)
| fd_quest k l v x s : nth_error args (Z.to_nat k) = Some v -> literal ft v x -> filled ft args (k + 1) l s ->
    filled ft args k (Quest :: l) (x ++ s)
| fd_dollar k n l v x s : nth_error args (N.to_nat n - 1) = Some v -> literal ft v x -> filled ft args (k + 1) l s ->
    filled ft args k (Dollar n :: l) (x ++ s).

(* ------------------------------------------------------------------ *)
(** * Scanning *)

(** A row decoded from its first [nfields] columns. *)
Definition decoded {T} (cols : list string + err) (nfields : nat) (assign : list value -> T + err)
  (row : list value) (x : T) : Prop :=
  exists cs, cols = inl cs /\ nfields <= List.length cs /\ assign (firstn nfields row) = inl x.
(** What Count asks. *)
Definition counted (q : string) : string := "SELECT COUNT(1) FROM (" ++ q ++ ") list".
