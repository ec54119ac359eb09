(** strconv.ParseFloat(s, 64) and Go's float64 -> int conversion.

    Go standard library / language semantics (trusted base), not repository
    code.  float64 values are Coq's [spec_float] (IEEE-754, no axioms). *)
From Coq Require Import Strings.String Strings.Ascii NArith ZArith List Bool.
From Coq Require Import Floats.SpecFloat.
From Verif Require Import GoStr.
Import ListNotations.
Open Scope string_scope.

Definition f64 := spec_float.
Definition prec64 : Z := 53.
Definition emax64 : Z := 1024.

(** Round m * 2^e to the nearest float64, ties to even. *)
Definition round_bin (neg : bool) (m e : Z) : f64 :=
  match m with
  | Zpos p => binary_round prec64 emax64 neg p e
  | _ => S754_zero neg
  end.

(** Round the quotient m / d to the nearest float64, ties to even. *)
Definition round_quot (neg : bool) (m d : Z) : f64 :=
  match m with
  | Zpos _ =>
    let '(q, e, l) := SFdiv_core_binary prec64 emax64 m 0 d 0 in
    binary_round_aux prec64 emax64 neg q e l
  | _ => S754_zero neg
  end.

(** ErrRange is reported when a finite numeral overflows. *)
Definition check_range (f : f64) : option f64 :=
  match f with S754_infinity _ => None | _ => Some f end.

Definition lower_ascii (a : ascii) : ascii :=
  if in_range (code a) 65 90 then ascii_of_N (code a + 32) else a.
Fixpoint lower_str (s : string) : string :=
  match s with EmptyString => "" | String a s' => String (lower_ascii a) (lower_str s') end.

Definition hex_val (a : ascii) : option N :=
  let b := code (lower_ascii a) in
  if is_digit a then Some (digit_val a)
  else if in_range b 97 102 then Some (b - 87)%N else None.

(** Mantissa loop of readFloat: digits, at most one '.', underscores skipped.
    Result: mantissa, number of fractional digits, saw a digit, rest. *)
Fixpoint read_mant (hex : bool) (s : string) (m : N) (frac : Z) (dot digits : bool)
  : N * Z * bool * string :=
  match s with
  | EmptyString => (m, frac, digits, s)
  | String a s' =>
    if Ascii.eqb a "_" then read_mant hex s' m frac dot digits
    else if Ascii.eqb a "." then
      if dot then (m, frac, digits, s) else read_mant hex s' m frac true digits
    else
      match (if hex then hex_val a else if is_digit a then Some (digit_val a) else None) with
      | Some d =>
        read_mant hex s' (m * (if hex then 16 else 10) + d)%N
                  (if dot then (frac + 1)%Z else frac) dot true
      | None => (m, frac, digits, s)
      end
  end.

(** Exponent digits of readFloat; the value saturates once it reaches 10000. *)
Fixpoint read_exp (s : string) (e : Z) : option Z :=
  match s with
  | EmptyString => Some e
  | String a s' =>
    if Ascii.eqb a "_" then read_exp s' e
    else if is_digit a
    then read_exp s' (if (e <? 10000)%Z then (e * 10 + Z.of_N (digit_val a))%Z else e)
    else None
  end.

(** strconv.underscoreOK on the text after the optional sign and base prefix. *)
Inductive us_saw := UsBegin | UsDigit | UsUnderscore | UsOther.
Fixpoint underscore_ok (hex : bool) (s : string) (saw : us_saw) : bool :=
  match s with
  | EmptyString => match saw with UsUnderscore => false | _ => true end
  | String a s' =>
    if is_digit a || (hex && match hex_val a with Some _ => true | None => false end)
    then underscore_ok hex s' UsDigit
    else if Ascii.eqb a "_"
    then match saw with UsDigit => underscore_ok hex s' UsUnderscore | _ => false end
    else match saw with UsUnderscore => false | _ => underscore_ok hex s' UsOther end
  end.

Fixpoint has_underscore (s : string) : bool :=
  match s with
  | EmptyString => false
  | String a s' => Ascii.eqb a "_" || has_underscore s'
  end.

(** Sign and exponent after the exponent character; must consume everything. *)
Definition read_exponent (s : string) : option Z :=
  match s with
  | EmptyString => None
  | String a s' =>
    let '(sgn, ds) :=
      if Ascii.eqb a "+" then (1%Z, s') else if Ascii.eqb a "-" then ((-1)%Z, s') else (1%Z, s) in
    match ds with
    | String d _ =>
      if is_digit d then match read_exp ds 0 with Some e => Some (sgn * e)%Z | None => None end
      else None
    | EmptyString => None
    end
  end.

(** The value mant * base^exp, rounded. *)
Definition finish_dec (neg : bool) (m : N) (e : Z) : option f64 :=
  if (0 <=? e)%Z
  then check_range (round_bin neg (Z.of_N m * 10 ^ e) 0)
  else check_range (round_quot neg (Z.of_N m) (10 ^ (- e))).

Definition parse_dec (neg : bool) (s : string) : option f64 :=
  let '(m, frac, digits, rest) := read_mant false s 0 0 false false in
  if negb digits then None
  else if has_underscore s && negb (underscore_ok false s UsBegin) then None
  else match rest with
       | EmptyString => finish_dec neg m (- frac)
       | String a rest' =>
         if Ascii.eqb (lower_ascii a) "e"
         then match read_exponent rest' with
              | Some e => finish_dec neg m (e - frac)
              | None => None
              end
         else None
       end.

(** [s] is the text after "0x". *)
Definition parse_hex (neg : bool) (s : string) : option f64 :=
  let '(m, frac, digits, rest) := read_mant true s 0 0 false false in
  if negb digits then None
  else if has_underscore s && negb (underscore_ok true s UsDigit) then None
  else match rest with
       | String a rest' =>
         if Ascii.eqb (lower_ascii a) "p"
         then match read_exponent rest' with
              | Some e => check_range (round_bin neg (Z.of_N m) (e - 4 * frac))
              | None => None
              end
         else None
       | EmptyString => None
       end.

Definition parse_unsigned (neg : bool) (s : string) : option f64 :=
  match s with
  | String "0" (String x (String y r)) =>
    if Ascii.eqb (lower_ascii x) "x" then parse_hex neg (String y r) else parse_dec neg s
  | _ => parse_dec neg s
  end.

(** strconv.ParseFloat(s, 64): [None] stands for err != nil. *)
Definition parse_float (s : string) : option f64 :=
  let '(sgn, neg, body) :=
    match s with
    | String "+" b => (true, false, b)
    | String "-" b => (true, true, b)
    | _ => (false, false, s)
    end in
  let low := lower_str body in
  if String.eqb low "inf" || String.eqb low "infinity" then Some (S754_infinity neg)
  else if String.eqb low "nan" && negb sgn then Some S754_nan
  else parse_unsigned neg body.

(** int(f) for a float64 (amd64: out-of-range values and NaN give MinInt64). *)
Definition min_int64 : Z := (-9223372036854775808)%Z.
Definition max_int64 : Z := 9223372036854775807%Z.
Definition trunc_float (f : f64) : option Z :=
  match f with
  | S754_zero _ => Some 0%Z
  | S754_finite s m e =>
    let a := if (0 <=? e)%Z then (Zpos m * 2 ^ e)%Z else (Zpos m / 2 ^ (- e))%Z in
    Some (if s then (- a)%Z else a)
  | _ => None
  end.
Definition int_of_float (f : f64) : Z :=
  match trunc_float f with
  | Some z => if (min_int64 <=? z)%Z && (z <=? max_int64)%Z then z else min_int64
  | None => min_int64
  end.

(** Go's == on float64: NaN differs from itself, +0 equals -0. *)
Definition float_eq (a b : f64) : bool := SFeqb a b.
