(** Specification vocabulary for the primitives the other specifications use:
    text functions of the Go library, equality and hashing of values, errors,
    and the arguments of preprocessing functions. *)
From Coq Require Import Strings.String Strings.Ascii NArith ZArith List Bool.
From Coq Require Import Floats.SpecFloat.
From Verif Require Import GoStr GoNum Syntax Value Model.
Import ListNotations.
Open Scope string_scope.

(* ------------------------------------------------------------------ *)
(** * Texts *)

Definition bytes (l : list N) : string := fold_right (fun n s => String (ascii_of_N n) s) "" l.
(** The UTF-8 encodings of the white space characters of Unicode. *)
Definition whites : list string := map bytes
  [[9]; [10]; [11]; [12]; [13]; [32]; [194; 133]; [194; 160]; [225; 154; 128];
   [226; 128; 128]; [226; 128; 129]; [226; 128; 130]; [226; 128; 131]; [226; 128; 132]; [226; 128; 133];
   [226; 128; 134]; [226; 128; 135]; [226; 128; 136]; [226; 128; 137]; [226; 128; 138];
   [226; 128; 168]; [226; 128; 169]; [226; 128; 175]; [226; 129; 159]; [227; 128; 128]]%N.
Inductive blank : string -> Prop :=
| bl_nil : blank ""
| bl_more w s : In w whites -> blank s -> blank (w ++ s).
(** [t] is [s] without the white space around it. *)
Definition trimmed (s t : string) : Prop :=
  (exists a b, s = a ++ t ++ b /\ blank a /\ blank b) /\
  forall w u, In w whites -> t <> w ++ u /\ t <> u ++ w.

(** The strings with the separator between them. *)
Inductive joined (sep : string) : list string -> string -> Prop :=
| jn_none : joined sep [] ""
| jn_one x : joined sep [x] x
| jn_more x y l t : joined sep (y :: l) t -> joined sep (x :: y :: l) (x ++ sep ++ t).

(** Decimal notation. *)
Definition digit (d : N) : string := String (ascii_of_N (48 + d)) "".
Inductive decimal : N -> string -> Prop :=
| de_digit d : (d < 10)%N -> decimal d (digit d)
| de_more n s d : (0 < n)%N -> (d < 10)%N -> decimal n s -> decimal (10 * n + d) (s ++ digit d).

(** One quote for two; two quotes for one. *)
Inductive quotes_halved : string -> string -> Prop :=
| qh_nil : quotes_halved "" ""
| qh_pair s t : quotes_halved s t -> quotes_halved ("''" ++ s) ("'" ++ t)
| qh_last : quotes_halved "'" "'"
| qh_single a s t : a <> "'"%char -> quotes_halved (String a s) t -> quotes_halved ("'" ++ String a s) ("'" ++ t)
| qh_other a s t : a <> "'"%char -> quotes_halved s t -> quotes_halved (String a s) (String a t).
Inductive quotes_doubled : string -> string -> Prop :=
| qd_nil : quotes_doubled "" ""
| qd_quote s t : quotes_doubled s t -> quotes_doubled ("'" ++ s) ("''" ++ t)
| qd_other a s t : a <> "'"%char -> quotes_doubled s t -> quotes_doubled (String a s) (String a t).

(* ------------------------------------------------------------------ *)
(** * Values and errors *)

(** Go's == on floats: NaN differs from everything, 0 = -0. *)
Definition same_float (a b : f64) : Prop :=
  (a = b /\ a <> S754_nan) \/ exists s s', a = S754_zero s /\ b = S754_zero s'.
(** Go's == on values of type any: the dynamic types are identical and the
    values are equal; pointers by address.  Values of uncomparable types are
    never equal. *)
Inductive same : value -> value -> Prop :=
| sm_nil : same VNil VNil
| sm_bool t b : same (VBool t b) (VBool t b)
| sm_int t z : same (VInt t z) (VInt t z)
| sm_float t a b : same_float a b -> same (VFloat t a) (VFloat t b)
| sm_str t s : same (VStr t s) (VStr t s)
| sm_ptr t a x y : same (VPtr t a x) (VPtr t a y)
| sm_struct t l m : Forall2 same l m -> same (VStruct t l) (VStruct t m)
| sm_array t l m : Forall2 same l m -> same (VArray t l) (VArray t m)
| sm_opaque t i : same (VOpaque t true i) (VOpaque t true i)
| sm_time t : same (VTime t) (VTime t)
| sm_valuer t a b x y : same a b -> same (VValuer t a x) (VValuer t b y)
| sm_stringer t a b x y : same a b -> same (VStringer t a x) (VStringer t b y).
(** Values that cannot be map keys. *)
Inductive unhashable : value -> Prop :=
| uh_slice t l : unhashable (VSlice t l)
| uh_opaque t i : unhashable (VOpaque t false i)
| uh_struct t l v : In v l -> unhashable v -> unhashable (VStruct t l)
| uh_array t l v : In v l -> unhashable v -> unhashable (VArray t l)
| uh_valuer t v x : unhashable v -> unhashable (VValuer t v x)
| uh_stringer t v x : unhashable v -> unhashable (VStringer t v x).

(** errors.Is(err, ErrInvalidIndex) *)
Inductive by_index : err -> Prop :=
| bi_here i : by_index (EInvalidIndex i)
| bi_wrapped m e : by_index e -> by_index (EWrap m e)
| bi_after m e : by_index e -> by_index (EAfter e m).

(* ------------------------------------------------------------------ *)
(** * Arguments of preprocessing functions *)

(** The parameters after the leading context, and whether the last takes any
    number of arguments. *)
Definition params (f : func) : list gotype :=
  match f with
  | FnArg | FnFragment => [GNum]
  | FnJoin => [GStr false; GStr false; GNum]
  | FnCustom s _ =>
    match fs_ins s with
    | [GCtx] => if fs_variadic s then [GCtx] else []
    | GCtx :: l => l
    | l => l
    end
  end.
Definition open_ended (f : func) : bool :=
  match f with FnArg | FnFragment => false | FnJoin => true | FnCustom s _ => fs_variadic s end.
Definition takes (f : func) (n : nat) : Prop :=
  if open_ended f then List.length (params f) <= n + 1 else n = List.length (params f).
(** The type of the argument number [i], from 0. *)
Definition param (f : func) (i : nat) : option gotype :=
  if open_ended f && (List.length (params f) <=? i)%nat then nth_error (params f) (List.length (params f) - 1)
  else nth_error (params f) i.

(** The kinds of literals a parameter takes; strings and booleans are not
    converted to defined types. *)
Inductive fits : gotype -> lit -> Prop :=
| ft_num f : fits GNum (LNum f)
| ft_int z : fits GNum (LInt z)
| ft_str d s : fits (GStr d) (LStr s)
| ft_bool d b : fits (GBool d) (LBool b).
Definition number (a : lit) : Prop := match a with LNum _ | LInt _ => True | _ => False end.
Definition defined_type (t : gotype) : Prop := t = GStr true \/ t = GBool true.
(** Every argument fits; the first that does not is number [i]. *)
Definition all_fit (f : func) (args : list lit) : Prop :=
  forall i a, nth_error args i = Some a -> exists t, param f i = Some t /\ fits t a.
Definition first_misfit (f : func) (args : list lit) (i : nat) : Prop :=
  (exists a t, nth_error args i = Some a /\ param f i = Some t /\ ~ fits t a) /\
  forall j a, j < i -> nth_error args j = Some a -> exists t, param f j = Some t /\ fits t a.
Definition some_defined (f : func) (n : nat) : Prop := exists i t, i < n /\ param f i = Some t /\ defined_type t.
(** In Go an open-ended function has at least the open-ended parameter. *)
Definition proper (f : func) : Prop := open_ended f = true -> params f <> [].
(** What the caller of a function sees: failures are wrapped, panics become
    errors. *)
Definition caught {A} (name : string) (r : outcome string * A) : outcome string * A :=
  match r with
  | (RErr er, s) | (RPanic er, s) => (RErr (EWrap ("error calling #" ++ name) er), s)
  | _ => r
  end.

(** Functions that can be registered: names of ASCII letters and underscores
    (what other letters are allowed is not said here), parameters numbers,
    strings and booleans after an optional context, results nothing, a string,
    or a string and an error. *)
Definition plain_param (t : gotype) : Prop := t = GNum \/ (exists d, t = GStr d) \/ exists d, t = GBool d.
Definition results_ok (f : func) : Prop :=
  match f with FnCustom s _ => fs_outs s = [] \/ fs_outs s = [GStr false] \/ fs_outs s = [GStr false; GError] | _ => True end.
Definition name_char (a : ascii) : Prop :=
  (65 <= N_of_ascii a <= 90)%N \/ (97 <= N_of_ascii a <= 122)%N \/ a = "_"%char.
Fixpoint chars (s : string) : list ascii := match s with "" => [] | String a s' => a :: chars s' end.
Definition registrable (nf : string * func) : Prop :=
  fst nf <> "" /\ Forall name_char (chars (fst nf)) /\ results_ok (snd nf) /\ Forall plain_param (params (snd nf)).
