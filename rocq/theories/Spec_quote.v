(** Quoted texts, as in Go source code. *)
From Coq Require Import Strings.String Strings.Ascii NArith List Bool.
From Verif Require Import Printable Spec_base Spec_utf8.
Import ListNotations.
Open Scope string_scope.

(** The printable characters are those of the table in Printable.v. *)
Definition printable (r : N) : Prop := exists lo hi, In (lo, hi) print_ranges /\ (lo <= r <= hi)%N.
(** [hexa k x r]: [x] is [r] in [k] hexadecimal digits. *)
Inductive hexa : nat -> string -> N -> Prop :=
| hx_none : hexa 0 "" 0
| hx_digit k x r d a : hexa k x r -> String.get d "0123456789abcdef" = Some a -> hexa (S k) (x ++ String a "") (r * 16 + N.of_nat d).
(** Characters with an escape of their own. *)
Definition escapes : list (N * ascii) :=
  [(34%N, """"%char); (92%N, "\"%char); (7%N, "a"%char); (8%N, "b"%char); (12%N, "f"%char); (10%N, "n"%char); (13%N, "r"%char); (9%N, "t"%char); (11%N, "v"%char)].
Definition starts_encoding (s : string) : Prop := exists r u, scalar r /\ s = utf8 r ++ u.
(** [quotation s t]: [t] is [s] with everything escaped that has to be. *)
Inductive quotation : string -> string -> Prop :=
| qt_end : quotation "" ""
| qt_self r s t : scalar r -> printable r -> r <> 34%N -> r <> 92%N -> quotation s t -> quotation (utf8 r ++ s) (utf8 r ++ t)
| qt_letter r a s t : In (r, a) escapes -> quotation s t -> quotation (bytes [r] ++ s) ("\" ++ String a t)
| qt_control r x s t : (r < 32 \/ r = 127)%N -> (forall a, ~ In (r, a) escapes) -> hexa 2 x r -> quotation s t ->
    quotation (bytes [r] ++ s) ("\x" ++ x ++ t)
| qt_invalid b x s t : (128 <= b < 256)%N -> ~ starts_encoding (bytes [b] ++ s) -> hexa 2 x b -> quotation s t ->
    quotation (bytes [b] ++ s) ("\x" ++ x ++ t)
| qt_short r x s t : scalar r -> (128 <= r < 65536)%N -> ~ printable r -> hexa 4 x r -> quotation s t -> quotation (utf8 r ++ s) ("\u" ++ x ++ t)
| qt_long r x s t : scalar r -> (65536 <= r)%N -> ~ printable r -> hexa 8 x r -> quotation s t -> quotation (utf8 r ++ s) ("\U" ++ x ++ t).
Definition quoted (s q : string) : Prop := exists t, quotation s t /\ q = """" ++ t ++ """".
