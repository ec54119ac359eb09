(** The grammar of templates: which texts are templates, and the expressions
    they stand for.  Independent of the scanner and parser. *)
From Coq Require Import Strings.String Strings.Ascii NArith ZArith List Bool.
From Verif Require Import GoStr GoNum Syntax Spec_syntax Spec_base.
Import ListNotations.
Open Scope string_scope.

(** ** Arguments of calls *)

(** An argument without quotes: up to the next comma or parenthesis. *)
Definition arg_word (w : string) : Prop :=
  w <> "" /\ all (fun a => negb (Ascii.eqb a ",") && negb (Ascii.eqb a ")")) w = true /\
  starts (fun a => Ascii.eqb a "'") w = false /\ (forall v u, In v whites -> w <> v ++ u).
Inductive word_value : string -> lit -> Prop :=
| wv_true : word_value "true" (LBool true)
| wv_false : word_value "false" (LBool false)
| wv_nil : word_value "nil" LNil
| wv_null : word_value "null" LNil
| wv_number w f : parse_float w = Some f -> word_value w (LNum f).
(** White space is allowed after a quoted argument, not after a word. *)
Inductive arg_text : string -> lit -> Prop :=
| at_word w v : arg_word w -> word_value w v -> arg_text w v
| at_quoted b s w : body_ok "'" b = true -> quotes_halved b s -> blank w -> arg_text ("'" ++ b ++ "'" ++ w) (LStr s).
(** From the opening parenthesis on; a comma before the closing one is allowed. *)
Inductive args_text : string -> list lit -> Prop :=
| as_none w : blank w -> args_text (w ++ ")") []
| as_last w a v : blank w -> arg_text a v -> args_text (w ++ a ++ ")") [v]
| as_more w a v t l : blank w -> arg_text a v -> args_text t l -> args_text (w ++ a ++ "," ++ t) (v :: l).

(** ** Templates *)

(** An unsigned number read as int. *)
Definition signed (n : N) : Z := if (n <? 9223372036854775808)%N then Z.of_N n else (Z.of_N n - 18446744073709551616)%Z.
(** [templ strict q k s es]: the text [s] stands for [es], when [k] bind variables
    are before it, a question mark among them if [q].  If [strict], no $n may
    follow a question mark. *)
Inductive templ (strict : bool) : bool -> Z -> string -> list aexpr -> Prop :=
| tp_end q k : templ strict q k "" []
| tp_char q k a s es : special a = false -> templ strict q k s es ->
    templ strict q k (String a s) (cons_text (String a "") es)
| tp_doubled q k a s es : is_mark a = true -> templ strict q k s es ->
    templ strict q k (String a (String a s)) (cons_text (String a (String a "")) es)
| tp_quoted q k c b s es : is_quote c = true -> body_ok c b = true -> templ strict q k s es ->
    templ strict q k (String c (b ++ String c s)) (cons_text (String c (b ++ String c "")) es)
| tp_unclosed q k c b : is_quote c = true -> body_ok c b = true ->
    templ strict q k (String c b) [APlain (String c b)]
| tp_quest q k s es : starts (fun a => Ascii.eqb a "?" || is_digit19 a) s = false -> templ strict true (k + 1) s es ->
    templ strict q k ("?" ++ s) (ABind style_question (k + 1) :: es)
| tp_dollar q k ds n s es : strict && q = false -> starts is_digit19 ds = true -> decimal n ds -> (n < 18446744073709551616)%N -> starts is_digit s = false ->
    templ strict q (k + 1) s es -> templ strict q k ("$" ++ ds ++ s) (ABind style_dollar (signed n) :: es)
| tp_call q k nm t args s es : wf_name nm = true -> args_text t args -> templ strict q k s es ->
    templ strict q k ("#" ++ nm ++ "(" ++ t ++ s) (ACall nm args :: es)
| tp_index q k nm ds f s es : wf_name nm = true -> ds <> "" -> all is_digit ds = true -> parse_float ds = Some f -> starts is_digit s = false ->
    templ strict q k s es -> templ strict q k ("#" ++ nm ++ ds ++ s) (ACall nm [LNum f] :: es)
| tp_func q k nm s es : wf_name nm = true -> starts (fun a => is_letter a || is_digit a || Ascii.eqb a "(") s = false -> plain_start s = true ->
    templ strict q k s es -> templ strict q k ("#" ++ nm ++ s) (AFunc nm :: es)
(** After a function value a single #, $ or ? is text. *)
| tp_func_hash q k nm s es : wf_name nm = true -> starts is_letter s = false ->
    templ strict q k s es -> templ strict q k ("#" ++ nm ++ "#" ++ s) (AFunc nm :: cons_text "#" es)
| tp_func_mark q k nm c s es : wf_name nm = true -> is_mark c = true -> starts (fun a => Ascii.eqb a c || is_digit19 a) s = false ->
    templ strict q k s es -> templ strict q k ("#" ++ nm ++ String c s) (AFunc nm :: cons_text (String c "") es).
Arguments tp_end {strict}.
Arguments tp_char {strict}.
Arguments tp_doubled {strict}.
Arguments tp_quoted {strict}.
Arguments tp_unclosed {strict}.
Arguments tp_quest {strict}.
Arguments tp_dollar {strict}.
Arguments tp_call {strict}.
Arguments tp_index {strict}.
Arguments tp_func {strict}.
Arguments tp_func_hash {strict}.
Arguments tp_func_mark {strict}.
Definition template (s : string) (es : list aexpr) : Prop := templ true false 0 s es.
(** The same without the rule about the two styles, and that rule. *)
Definition either_style (s : string) (es : list aexpr) : Prop := templ false false 0 s es.
Definition no_dollar_after_quest (es : list aexpr) : Prop :=
  forall a k b n, es = (a ++ ABind style_question k :: b)%list -> ~ In (ABind style_dollar n) b.
