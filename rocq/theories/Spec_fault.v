(** The syntax errors of templates: where reading a template stops, and the
    message.  Independent of the scanner and parser. *)
From Coq Require Import Strings.String Strings.Ascii NArith ZArith List Bool.
From Verif Require Import GoStr GoNum Syntax Spec_syntax Spec_base Spec_grammar.
Import ListNotations.
Open Scope string_scope.

Definition is_char (c a : ascii) : bool := Ascii.eqb a c.

(** What the messages call the start of a text. *)
Definition kind (s : string) : string :=
  match s with
  | "" => "EOF"
  | String a _ => if Ascii.eqb a "#" then "#" else if plain_start s then "plain text" else "ref"
  end.
Definition too_large (function digits : string) : string :=
  "strconv." ++ function ++ ": parsing """ ++ digits ++ """: value out of range".

(** ** Arguments *)

(** Not a value: what is written is neither true, false, nil, null nor a number. *)
Definition no_value (w : string) : Prop := forall v, ~ word_value w v.
(** [misplaced s k]: a [k] stands where a comma or parenthesis must stand. *)
Inductive misplaced : string -> string -> Prop :=
| mp_end : misplaced "" "EOF"
| mp_quote s : misplaced ("'" ++ s) "literal"
| mp_value w v s : arg_word w -> word_value w v -> starts (fun a => negb (is_char "," a) && negb (is_char ")" a)) s = false -> misplaced (w ++ s) "literal"
| mp_word w s : arg_word w -> no_value w -> starts (fun a => negb (is_char "," a) && negb (is_char ")" a)) s = false -> misplaced (w ++ s) "name".
(** [args_stop s r m]: reading arguments from [s] on stops at the rest [r] with [m]. *)
Inductive args_stop : string -> string -> string -> Prop :=
| ar_end w : blank w -> args_stop w "" "unexpected token EOF, want args"
| ar_comma w s : blank w -> args_stop (w ++ "," ++ s) ("," ++ s) "unexpected token ,, want args"
| ar_word w x s : blank w -> arg_word x -> no_value x -> starts (fun a => negb (is_char "," a) && negb (is_char ")" a)) s = false ->
    args_stop (w ++ x ++ s) (x ++ s) "unexpected token name, want args"
| ar_unclosed w b : blank w -> body_ok "'" b = true -> args_stop (w ++ "'" ++ b) ("'" ++ b) ("bad argument: '" ++ b)
| ar_last w x v : blank w -> arg_word x -> word_value x v -> args_stop (w ++ x) "" "unexpected token EOF, want )"
| ar_quoted w b w2 s k : blank w -> body_ok "'" b = true -> blank w2 -> misplaced s k -> w2 <> "" \/ starts (is_char "'") s = false ->
    args_stop (w ++ "'" ++ b ++ "'" ++ w2 ++ s) s ("unexpected token " ++ k ++ ", want )")
| ar_more w a v s r m : blank w -> arg_text a v -> args_stop s r m -> args_stop (w ++ a ++ "," ++ s) r m.

(** ** Templates *)

(** [passes q s q' s']: the part [s] starts with is read; [s'] is after it.
    [q], [q']: a question mark has been read. *)
Inductive passes : bool -> string -> bool -> string -> Prop :=
| ps_char q a s : special a = false -> passes q (String a s) q s
| ps_doubled q a s : is_mark a = true -> passes q (String a (String a s)) q s
| ps_quoted q c b s : is_quote c = true -> body_ok c b = true -> passes q (String c (b ++ String c s)) q s
| ps_quest q s : starts (fun a => is_char "?" a || is_digit19 a) s = false -> passes q ("?" ++ s) true s
| ps_dollar ds n s : starts is_digit19 ds = true -> decimal n ds -> (n < 18446744073709551616)%N -> starts is_digit s = false -> passes false ("$" ++ ds ++ s) false s
| ps_call q nm t args s : wf_name nm = true -> args_text t args -> passes q ("#" ++ nm ++ "(" ++ t ++ s) q s
| ps_index q nm ds f s : wf_name nm = true -> ds <> "" -> all is_digit ds = true -> parse_float ds = Some f -> starts is_digit s = false ->
    passes q ("#" ++ nm ++ ds ++ s) q s
| ps_func q nm s : wf_name nm = true -> starts (fun a => is_letter a || is_digit a || is_char "(" a) s = false -> plain_start s = true -> passes q ("#" ++ nm ++ s) q s
| ps_func_hash q nm s : wf_name nm = true -> starts is_letter s = false -> passes q ("#" ++ nm ++ "#" ++ s) q s
| ps_func_mark q nm c s : wf_name nm = true -> is_mark c = true -> starts (fun a => is_char c a || is_digit19 a) s = false -> passes q ("#" ++ nm ++ String c s) q s.
(** [stops q s r m]: the part [s] starts with is wrong: the message [m] at the rest [r]. *)
Inductive stops : bool -> string -> string -> string -> Prop :=
| sp_mixed s : starts (is_char "$") s = false -> stops true ("$" ++ s) ("$" ++ s) "mixed bindvar styles"
| sp_dollar s : starts (fun a => is_char "$" a || is_digit19 a) s = false ->
    stops false ("$" ++ s) s ("syntax error: unexpected " ++ kind s ++ ", want literal")
| sp_large ds n s : starts is_digit19 ds = true -> decimal n ds -> (18446744073709551616 <= n)%N -> starts is_digit s = false ->
    stops false ("$" ++ ds ++ s) (ds ++ s) (too_large "ParseUint" ds)
| sp_quest q s : starts is_digit19 s = true -> stops q ("?" ++ s) s "unexpected token literal"
| sp_hash q s : starts is_letter s = false -> stops q ("#" ++ s) s ("syntax error: unexpected " ++ kind s ++ ", want name")
| sp_index q nm ds s : wf_name nm = true -> ds <> "" -> all is_digit ds = true -> parse_float ds = None -> starts is_digit s = false ->
    stops q ("#" ++ nm ++ ds ++ s) (ds ++ s) (too_large "ParseFloat" ds)
| sp_func_hash q nm s : wf_name nm = true -> starts is_letter s = true -> stops q ("#" ++ nm ++ "#" ++ s) s "unexpected token name"
| sp_func_mark q nm c s : wf_name nm = true -> is_mark c = true -> starts is_digit19 s = true -> stops q ("#" ++ nm ++ String c s) s "unexpected token literal"
| sp_args q nm s r m : wf_name nm = true -> args_stop s r m -> stops q ("#" ++ nm ++ "(" ++ s) r m.
Inductive misread : bool -> string -> string -> string -> Prop :=
| mr_here q s r m : stops q s r m -> misread q s r m
| mr_more q s q' s' r m : passes q s q' s' -> misread q' s' r m -> misread q s r m.

(** The text up to the first NUL character, which ends a template. *)
Definition read_part (s t : string) : Prop := no_nul t = true /\ (s = t \/ exists u, s = t ++ String nul u).
(** [syntax_fault s k m]: the syntax error of [s] is [m], after [k] bytes. *)
Definition syntax_fault (s : string) (k : nat) (m : string) : Prop :=
  exists b r, read_part s (b ++ r) /\ String.length b = k /\ misread false (b ++ r) r m.
