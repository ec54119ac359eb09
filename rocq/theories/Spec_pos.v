(** Specification vocabulary for source positions.  Independent of the scanner
    and the parser: a template is read character by character, starting at line
    1, column 1; a line break moves to column 1 of the next line. *)
From Coq Require Import Strings.String Strings.Ascii NArith List Bool.
From Verif Require Import GoStr GoNum Syntax Spec_syntax.
Import ListNotations.
Open Scope string_scope.

(** The characters of a text (UTF-8; a byte that is not part of a valid
    sequence counts as one character).  [skip]: bytes left of the character
    being read. *)
Fixpoint chars_from (skip : nat) (s : string) : list N :=
  match s with
  | "" => []
  | String _ s' =>
    match skip with
    | S k => chars_from k s'
    | O => let (r, w) := decode_rune s in r :: chars_from (w - 1) s'
    end
  end.
Definition chars (s : string) : list N := chars_from 0 s.

Definition line_break : N := 10.
Definition move (p : pos) (c : N) : pos :=
  if (c =? line_break)%N then mkPos (p_line p + 1) 1 else mkPos (p_line p) (p_col p + 1).

(** The place of what follows [before]. *)
Definition place (before : string) : pos := fold_left move (chars before) (mkPos 1 1).

(** What the library reports for something written between [before] and the end
    of the template [rest]: its place, except that a text beginning with a line
    break is said to be in column 0 of the next line. *)
Definition opens_line (rest : string) : bool :=
  match rest with String a _ => (code a =? line_break)%N | "" => false end.
Definition reported (before rest : string) : pos :=
  if opens_line rest then mkPos (p_line (place before) + 1) 0 else place before.

(** Pos of an expression (nodes.go:24-31). *)
Definition expr_pos (e : expr) : pos :=
  match e with EPlain _ p => p | EBind _ _ p => p | ECall _ _ p => p | EFunc _ p => p end.

(** Positions of consecutive texts. *)
Fixpoint reported_all (before : string) (srcs : list string) : list pos :=
  match srcs with
  | [] => []
  | t :: l => reported before (concat_all (t :: l)) :: reported_all (before ++ t) l
  end.
Fixpoint places (before : string) (srcs : list string) : list pos :=
  match srcs with
  | [] => []
  | t :: l => place before :: places (before ++ t) l
  end.

(** The text contains a line break. *)
Fixpoint has_break (s : string) : bool :=
  match s with "" => false | String a s' => (code a =? line_break)%N || has_break s' end.
