(** strconv.Quote, the verb %q of package fmt for strings.  Like GoStr.v this is
    code of the Go standard library, not of the repository; it is used by
    func.go:92 and func_exec.go:11. *)
From Coq Require Import Strings.String Strings.Ascii NArith List Bool.
From Verif Require Import GoStr Printable.
Import ListNotations.
Open Scope string_scope.

(** strconv.IsPrint *)
Definition is_print (r : N) : bool := existsb (fun x => in_range r (fst x) (snd x)) print_ranges.

(** utf8.AppendRune for code points that are not surrogates. *)
Definition append_rune (r : N) : string :=
  let byte n := String (ascii_of_N n) "" in
  if (r <? 128)%N then byte r
  else if (r <? 2048)%N then byte (192 + r / 64)%N ++ byte (128 + r mod 64)%N
  else if (r <? 65536)%N then byte (224 + r / 4096)%N ++ byte (128 + r / 64 mod 64)%N ++ byte (128 + r mod 64)%N
  else byte (240 + r / 262144)%N ++ byte (128 + r / 4096 mod 64)%N ++ byte (128 + r / 64 mod 64)%N ++ byte (128 + r mod 64)%N.

(** lowerhex[n] *)
Definition hex_digit (n : N) : ascii := ascii_of_N (if (n <? 10)%N then 48 + n else 87 + n)%N.
(** The lowest [k] hexadecimal digits of [r]. *)
Fixpoint hex (k : nat) (r : N) : string :=
  match k with O => "" | S k' => hex k' (r / 16)%N ++ String (hex_digit (r mod 16)) "" end.

(** appendEscapedRune, for the double quote *)
Definition escaped_rune (r : N) : string :=
  if (r =? 34)%N || (r =? 92)%N then String "\" (String (ascii_of_N r) "")
  else if is_print r then append_rune r
  else if (r =? 7)%N then "\a" else if (r =? 8)%N then "\b" else if (r =? 12)%N then "\f"
  else if (r =? 10)%N then "\n" else if (r =? 13)%N then "\r" else if (r =? 9)%N then "\t" else if (r =? 11)%N then "\v"
  else if (r <? 32)%N || (r =? 127)%N then "\x" ++ hex 2 r
  else if (r <? 65536)%N then "\u" ++ hex 4 r
  else "\U" ++ hex 8 r.

(** appendQuotedWith, the loop; the fuel is the length of [s]. *)
Fixpoint quote_f (fuel : nat) (s : string) : string :=
  match fuel, s with
  | S n, String a _ =>
    let '(r, w) := if (code a <? 128)%N then (code a, 1) else decode_rune s in
    (if Nat.eqb w 1 && (r =? rune_error)%N then "\x" ++ hex 2 (code a) else escaped_rune r) ++ quote_f n (str_drop w s)
  | _, _ => ""
  end.
Definition quote (s : string) : string := String """" (quote_f (String.length s) s ++ """").
