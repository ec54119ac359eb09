(** Go runtime / standard-library string primitives used by qjebbs/go-sqlf.

    A Go string is a byte sequence; we use Coq's [string] (a sequence of 8-bit
    [ascii]).  Runes are [N] code points.  Nothing in this file is repository
    code: it models the Go standard library functions the repository calls
    (unicode/utf8, unicode, strings, strconv), and is part of the trusted base. *)
From Coq Require Import Strings.String Strings.Ascii NArith ZArith List Bool.
From Coq Require Import Numbers.DecimalString.
Import ListNotations.
Open Scope string_scope.

(** Byte value of a character. *)
Definition code (a : ascii) : N := N_of_ascii a.

Fixpoint str_take (n : nat) (s : string) : string :=
  match n, s with
  | S n', String a s' => String a (str_take n' s')
  | _, _ => ""
  end.

Fixpoint str_drop (n : nat) (s : string) : string :=
  match n, s with
  | S n', String _ s' => str_drop n' s'
  | _, _ => s
  end.

Definition is_empty (s : string) : bool :=
  match s with EmptyString => true | _ => false end.

Fixpoint str_rev_acc (s acc : string) : string :=
  match s with EmptyString => acc | String a s' => str_rev_acc s' (String a acc) end.
Definition str_rev (s : string) : string := str_rev_acc s "".

(** strings.Join *)
Fixpoint str_join (sep : string) (l : list string) : string :=
  match l with
  | [] => ""
  | [x] => x
  | x :: l' => x ++ sep ++ str_join sep l'
  end.

Definition in_range (b lo hi : N) : bool := (lo <=? b)%N && (b <=? hi)%N.

(** utf8.RuneError *)
Definition rune_error : N := 65533.

(** utf8.DecodeRuneInString: (rune, width in bytes); ("" -> (RuneError, 0)),
    invalid encodings -> (RuneError, 1). *)
Definition decode_rune (s : string) : N * nat :=
  match s with
  | EmptyString => (rune_error, 0)
  | String a0 s0 =>
    let b0 := code a0 in
    if (b0 <? 128)%N then (b0, 1)
    else if in_range b0 194 223 then
      match s0 with
      | String a1 _ =>
        if in_range (code a1) 128 191
        then (((b0 - 192) * 64 + (code a1 - 128))%N, 2) else (rune_error, 1)
      | _ => (rune_error, 1)
      end
    else if in_range b0 224 239 then
      let lo := if (b0 =? 224)%N then 160%N else 128%N in
      let hi := if (b0 =? 237)%N then 159%N else 191%N in
      match s0 with
      | String a1 (String a2 _) =>
        if in_range (code a1) lo hi && in_range (code a2) 128 191
        then (((b0 - 224) * 4096 + (code a1 - 128) * 64 + (code a2 - 128))%N, 3)
        else (rune_error, 1)
      | _ => (rune_error, 1)
      end
    else if in_range b0 240 244 then
      let lo := if (b0 =? 240)%N then 144%N else 128%N in
      let hi := if (b0 =? 244)%N then 143%N else 191%N in
      match s0 with
      | String a1 (String a2 (String a3 _)) =>
        if in_range (code a1) lo hi && in_range (code a2) 128 191 && in_range (code a3) 128 191
        then (((b0 - 240) * 262144 + (code a1 - 128) * 4096
               + (code a2 - 128) * 64 + (code a3 - 128))%N, 4)
        else (rune_error, 1)
      | _ => (rune_error, 1)
      end
    else (rune_error, 1)
  end.

(** unicode.IsSpace *)
Definition is_space (r : N) : bool :=
  if (r <=? 255)%N then
    in_range r 9 13 || (r =? 32)%N || (r =? 133)%N || (r =? 160)%N
  else
    (r =? 5760)%N || in_range r 8192 8202 || (r =? 8232)%N || (r =? 8233)%N
    || (r =? 8239)%N || (r =? 8287)%N || (r =? 12288)%N.

(** strings.TrimLeftFunc(s, unicode.IsSpace); the fuel is the length of s. *)
Fixpoint trim_left_f (fuel : nat) (s : string) : string :=
  match fuel with
  | O => s
  | S n =>
    let (r, w) := decode_rune s in
    if negb (is_empty s) && is_space r then trim_left_f n (str_drop w s) else s
  end.
Definition trim_left (s : string) : string := trim_left_f (String.length s) s.

(** utf8.RuneStart *)
Definition rune_start (a : ascii) : bool := negb (in_range (code a) 128 191).

(** utf8.DecodeLastRuneInString on the reversed byte string [rs].  A
    non-ASCII last byte is completed by at most three earlier bytes, up to the
    nearest one that can start a rune; if the sequence does not decode to
    exactly these bytes the result is (RuneError, 1). *)
Definition decode_last_rune (rs : string) : N * nat :=
  match rs with
  | EmptyString => (rune_error, 0)
  | String a0 r0 =>
    if (code a0 <? 128)%N then (code a0, 1)
    else
      let check k bs :=
        let (r, w) := decode_rune bs in if Nat.eqb w k then (r, k) else (rune_error, 1) in
      match r0 with
      | EmptyString => (rune_error, 1)
      | String a1 r1 =>
        if rune_start a1 then check 2 (String a1 (String a0 ""))
        else match r1 with
        | EmptyString => (rune_error, 1)
        | String a2 r2 =>
          if rune_start a2 then check 3 (String a2 (String a1 (String a0 "")))
          else match r2 with
          | EmptyString => (rune_error, 1)
          | String a3 _ =>
            if rune_start a3
            then check 4 (String a3 (String a2 (String a1 (String a0 ""))))
            else (rune_error, 1)
          end
        end
      end
  end.

(** strings.TrimRightFunc(s, unicode.IsSpace), on the reversed string. *)
Fixpoint trim_rev_f (fuel : nat) (rs : string) : string :=
  match fuel with
  | O => rs
  | S n =>
    let (r, w) := decode_last_rune rs in
    if negb (is_empty rs) && is_space r then trim_rev_f n (str_drop w rs) else rs
  end.
Definition trim_right (s : string) : string :=
  str_rev (trim_rev_f (String.length s) (str_rev s)).

(** strings.TrimSpace *)
Definition trim_space (s : string) : string := trim_right (trim_left s).

Definition quote_char : ascii := "'"%char.

(** strings.ReplaceAll(s, "''", "'") *)
Fixpoint undouble_quotes (s : string) : string :=
  match s with
  | EmptyString => ""
  | String a s' =>
    match s' with
    | String b s'' =>
      if Ascii.eqb a quote_char && Ascii.eqb b quote_char
      then String quote_char (undouble_quotes s'')
      else String a (undouble_quotes s')
    | EmptyString => String a ""
    end
  end.

(** strings.ReplaceAll(s, "'", "''") *)
Fixpoint double_quotes (s : string) : string :=
  match s with
  | EmptyString => ""
  | String a s' =>
    if Ascii.eqb a quote_char
    then String quote_char (String quote_char (double_quotes s'))
    else String a (double_quotes s')
  end.

(** strconv.Itoa / fmt.Sprintf("%d", _) *)
Definition itoa (z : Z) : string := NilZero.string_of_int (Z.to_int z).
Definition itoa_nat (n : nat) : string := NilZero.string_of_uint (Nat.to_uint n).

Definition is_digit (a : ascii) : bool := in_range (code a) 48 57.
Definition digit_val (a : ascii) : N := (code a - 48)%N.

(** Value of a string of decimal digits (used by the ParseUint and ParseFloat
    models below); [None] on a non-digit. *)
Fixpoint digits_val (acc : N) (s : string) : option N :=
  match s with
  | EmptyString => Some acc
  | String a s' => if is_digit a then digits_val (acc * 10 + digit_val a) s' else None
  end.

(** strconv.ParseUint(s, 10, 64): error on an empty string, a non-digit, or a
    value above 2^64-1. *)
Definition parse_uint64 (s : string) : option N :=
  match s with
  | EmptyString => None
  | _ => match digits_val 0 s with
         | Some n => if (n <? 18446744073709551616)%N then Some n else None
         | None => None
         end
  end.

(** int(val) for a uint64 [val]: two's complement wrap-around. *)
Definition int_of_uint64 (n : N) : Z :=
  if (n <? 9223372036854775808)%N then Z.of_N n
  else (Z.of_N n - 18446744073709551616)%Z.
