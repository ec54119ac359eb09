(** Model of package syntax (/repo/syntax): lexer, scanner, parser. *)
From Coq Require Import Strings.String Strings.Ascii NArith ZArith List Bool.
From Verif Require Import GoStr GoNum.
Import ListNotations.
Open Scope string_scope.

(* ------------------------------------------------------------------ *)
(** * Tokens: syntax/token.go *)

(** TokenType, syntax/token.go:13-29 *)
Inductive toktype := TkEOF | TkRef | TkName | TkLiteral | TkPlain
                   | TkHash | TkLparen | TkRparen | TkComma.

(** litKind, syntax/token.go:31-38 *)
Inductive litkind := KNumber | KString | KBool | KNil.

(** Pos, syntax/pos.go:6-8 (uint modelled as N: no wrap-around, positions are
    bounded by the input length). *)
Record pos := mkPos { p_line : N; p_col : N }.

(** Pos.String, syntax/pos.go:19-27 *)
Definition pos_text (p : pos) : string :=
  if N.eqb (p_line p) 0 then "<unknown position>"
  else if N.eqb (p_col p) 0 then itoa (Z.of_N (p_line p))
  else itoa (Z.of_N (p_line p)) ++ ":" ++ itoa (Z.of_N (p_col p)).

(** token, syntax/token.go:3-11 *)
Record token := mkTok {
  t_typ : toktype; t_lit : string; t_bad : bool; t_kind : litkind;
  t_start : nat; t_end : nat; t_pos : pos }.

Definition toktype_eqb (a b : toktype) : bool :=
  match a, b with
  | TkEOF, TkEOF | TkRef, TkRef | TkName, TkName | TkLiteral, TkLiteral
  | TkPlain, TkPlain | TkHash, TkHash | TkLparen, TkLparen | TkRparen, TkRparen
  | TkComma, TkComma => true
  | _, _ => false
  end.
Definition litkind_eqb (a b : litkind) : bool :=
  match a, b with
  | KNumber, KNumber | KString, KString | KBool, KBool | KNil, KNil => true
  | _, _ => false
  end.

(* ------------------------------------------------------------------ *)
(** * Lexer: syntax/lexer.go *)

(** EOF rune, syntax/lexer.go:9.  It is rune 0: a NUL byte in the input reads
    as EOF, and the model keeps that. *)
Definition eof : N := 0.

(** lexerHelper, syntax/lexer.go:12-24.  Representation: instead of the whole
    input plus two offsets, [l_pre] is input[start.offset:current.offset] and
    [l_rest] is input[current.offset:]; the numeric offsets are kept too. *)
Record lexer := mkLex {
  l_pre : string; l_rest : string;
  l_soff : nat; l_spos : pos;
  l_off : nat; l_pos : pos;
  l_rune : N; l_width : nat }.

(** Next, syntax/lexer.go:43-60.  Note the order: the end test uses the offset
    *before* it is advanced, so reaching the end first yields the rune
    RuneError of width 0 (DecodeRuneInString of ""), and EOF only on the call
    after that. *)
Definition lex_next (l : lexer) : lexer :=
  match l_rest l with
  | EmptyString =>
    mkLex (l_pre l) (l_rest l) (l_soff l) (l_spos l) (l_off l) (l_pos l) eof 0
  | _ =>
    let rest := str_drop (l_width l) (l_rest l) in
    let (r, w) := decode_rune rest in
    let p := l_pos l in
    let p' := if (r =? 10)%N then mkPos (p_line p + 1) 0 else mkPos (p_line p) (p_col p + 1) in
    mkLex (l_pre l ++ str_take (l_width l) (l_rest l)) rest (l_soff l) (l_spos l)
          (l_off l + l_width l) p' r w
  end.

(** newLexerHelper, syntax/lexer.go:27-34 *)
Definition new_lexer (input : string) : lexer :=
  lex_next (mkLex "" input 0 (mkPos 0 0) 0 (mkPos 1 0) eof 0).

(** StartToken, syntax/lexer.go:38-40 *)
Definition start_token (l : lexer) : lexer :=
  mkLex "" (l_rest l) (l_off l) (l_pos l) (l_off l) (l_pos l) (l_rune l) (l_width l).

(** Peek, syntax/lexer.go:64-71 *)
Definition lex_peek (l : lexer) : N :=
  match str_drop (l_width l) (l_rest l) with
  | EmptyString => eof
  | s => fst (decode_rune s)
  end.

(** Advanced, syntax/lexer.go:97-99 (current.offset > start.offset).  IsEOF, IsWhitespace
    and IsHex (lexer.go:86-94, 114-116) are not called. *)
Definition advanced (l : lexer) : bool := negb (is_empty (l_pre l)).

(** Lower / IsLetter / IsDecimal, syntax/lexer.go:102-112 *)
Definition is_letter_rune (r : N) : bool :=
  in_range (N.lor 32 r) 97 122 || (r =? 95)%N.
Definition is_decimal_rune (r : N) : bool := in_range r 48 57.

(* ------------------------------------------------------------------ *)
(** * Scanner: syntax/scanner.go *)

(** emitToken, syntax/scanner.go:25-35 *)
Definition emit (l : lexer) (t : toktype) (k : litkind) (bad : bool) : token :=
  mkTok t (l_pre l) bad k (l_soff l) (l_off l) (l_spos l).

(** The scan functions, i.e. the values of scanFn. *)
Inductive scanstate :=
| ScPlain | ScRef | ScIndex | ScQuotedPlain | ScFunc | ScFuncName | ScFuncArgs | ScFuncArgQuoted.

(** Every loop of the scanner is bounded by explicit fuel; [None] means the
    fuel ran out (proved impossible in Lex_proofs.v). *)
Definition lex_fuel (l : lexer) : nat := S (S (S (String.length (l_rest l)))).

(** SkipWhitespace, syntax/lexer.go:74-84 *)
Fixpoint skip_ws (n : nat) (l : lexer) : option lexer :=
  match n with
  | O => None
  | S n' =>
    if negb (is_space (l_rune l)) then Some l
    else let l' := lex_next l in
         if (l_rune l' =? eof)%N then Some l' else skip_ws n' l'
  end.

Definition step_result : Type := lexer * list token * option scanstate.

Definition r_dollar : N := 36.  Definition r_quest : N := 63.
Definition r_hash : N := 35.    Definition r_squote : N := 39.
Definition r_dquote : N := 34.  Definition r_bquote : N := 96.
Definition r_lparen : N := 40.  Definition r_rparen : N := 41.
Definition r_comma : N := 44.

(** scanPlain, syntax/scanner.go:50-79: the for loop (after StartToken). *)
Fixpoint scan_plain_loop (n : nat) (l : lexer) : option step_result :=
  match n with
  | O => None
  | S n' =>
    let r := l_rune l in
    if (r =? eof)%N then
      if advanced l then Some (l, [emit l TkPlain KString false], Some ScPlain)
      else Some (l, [emit l TkEOF KString false], None)
    else if (r =? r_dollar)%N || (r =? r_quest)%N then
      if (lex_peek l =? r)%N then scan_plain_loop n' (lex_next (lex_next l))
      else Some (l, if advanced l then [emit l TkPlain KString false] else [], Some ScRef)
    else if (r =? r_hash)%N then
      Some (l, if advanced l then [emit l TkPlain KString false] else [], Some ScFunc)
    else if (r =? r_squote)%N || (r =? r_dquote)%N || (r =? r_bquote)%N then
      Some (l, [], Some ScQuotedPlain)
    else scan_plain_loop n' (lex_next l)
  end.
Definition scan_plain (l : lexer) : option step_result :=
  let l := start_token l in scan_plain_loop (lex_fuel l) l.

(** scanRef, syntax/scanner.go:81-86 *)
Definition scan_ref (l : lexer) : option step_result :=
  let l := lex_next (start_token l) in
  Some (l, [emit l TkRef KString false], Some ScIndex).

(** scanIndex, syntax/scanner.go:88-100: the digit loop. *)
Fixpoint digits_loop (n : nat) (l : lexer) : option lexer :=
  match n with
  | O => None
  | S n' => if (l_rune l =? eof)%N || negb (is_decimal_rune (l_rune l)) then Some l
            else digits_loop n' (lex_next l)
  end.
Definition scan_index (l : lexer) : option step_result :=
  if in_range (l_rune l) 49 57 then
    let l := start_token l in
    match digits_loop (lex_fuel l) l with
    | None => None
    | Some l => Some (l, [emit l TkLiteral KNumber false], Some ScPlain)
    end
  else Some (l, [], Some ScPlain).

(** The loop shared (textually) by scanQuotedPlain, syntax/scanner.go:102-118,
    and scanFuncArgQuoted, syntax/scanner.go:194-210.  The lexer is positioned
    on the rune *after* the last one examined.  Result: lexer and whether the
    closing quote was found. *)
Fixpoint quoted_loop (n : nat) (quoter : N) (l : lexer) : option (lexer * bool) :=
  match n with
  | O => None
  | S n' =>
    let r := l_rune l in
    if (r =? eof)%N then Some (l, false)
    else if (r =? quoter)%N then
      if (quoter =? r_squote)%N && (lex_peek l =? r_squote)%N
      then quoted_loop n' quoter (lex_next (lex_next l))
      else Some (lex_next l, true)
    else quoted_loop n' quoter (lex_next l)
  end.

Definition scan_quoted_plain (l : lexer) : option step_result :=
  let q := l_rune l in
  let l := lex_next l in
  match quoted_loop (lex_fuel l) q l with
  | None => None
  | Some (l, closed) => Some (l, [emit l TkPlain KString (negb closed)], Some ScPlain)
  end.

Definition scan_func_arg_quoted (l : lexer) : option step_result :=
  let q := l_rune l in
  let l := lex_next l in
  match quoted_loop (lex_fuel l) q l with
  | None => None
  | Some (l, closed) =>
    Some (l, [emit l TkLiteral KString (negb closed)],
          Some (if closed then ScFuncArgs else ScPlain))
  end.

(** scanFunc, syntax/scanner.go:120-125 *)
Definition scan_func (l : lexer) : option step_result :=
  let l := lex_next (start_token l) in
  Some (l, [emit l TkHash KString false], Some ScFuncName).

(** scanFuncName, syntax/scanner.go:127-150 *)
Fixpoint while_loop (n : nat) (p : N -> bool) (l : lexer) : option lexer :=
  match n with
  | O => None
  | S n' => if p (l_rune l) then while_loop n' p (lex_next l) else Some l
  end.
Definition scan_func_name (l : lexer) : option step_result :=
  let l := start_token l in
  match while_loop (lex_fuel l) is_letter_rune l with
  | None => None
  | Some l =>
    if negb (advanced l) then Some (l, [], Some ScPlain)
    else
      let name := emit l TkName KString false in
      let l := start_token l in
      match while_loop (lex_fuel l) is_decimal_rune l with
      | None => None
      | Some l =>
        if advanced l then Some (l, [name; emit l TkLiteral KNumber false], Some ScPlain)
        else if (l_rune l =? r_lparen)%N then
          let l := lex_next l in
          Some (l, [name; emit l TkLparen KString false], Some ScFuncArgs)
        else Some (l, [name], Some ScPlain)
      end
  end.

(** scanFuncArgs, syntax/scanner.go:152-192: the inner word loop (line 169). *)
Definition word_rune (r : N) : bool :=
  negb (r =? eof)%N && negb (r =? r_comma)%N && negb (r =? r_rparen)%N.

(** Classification of an unquoted argument, syntax/scanner.go:173-186. *)
Definition word_token (l : lexer) : token :=
  let s := l_pre l in
  if String.eqb s "true" || String.eqb s "false" then emit l TkLiteral KBool false
  else if String.eqb s "null" || String.eqb s "nil" then emit l TkLiteral KNil false
  else match parse_float s with
       | Some _ => emit l TkLiteral KNumber false
       | None => emit l TkName KString true
       end.

Definition scan_func_args (l : lexer) : option step_result :=
  match skip_ws (lex_fuel l) l with
  | None => None
  | Some l =>
    let l := start_token l in
    let r := l_rune l in
    if (r =? eof)%N then Some (l, [], Some ScPlain)
    else if (r =? r_comma)%N then
      let l := lex_next l in Some (l, [emit l TkComma KString false], Some ScFuncArgs)
    else if (r =? r_rparen)%N then
      let l := lex_next l in Some (l, [emit l TkRparen KString false], Some ScPlain)
    else if (r =? r_squote)%N then Some (l, [], Some ScFuncArgQuoted)
    else
      match while_loop (lex_fuel l) word_rune l with
      | None => None
      | Some l => Some (l, if advanced l then [word_token l] else [], Some ScFuncArgs)
      end
  end.

Definition scan_step (s : scanstate) (l : lexer) : option step_result :=
  match s with
  | ScPlain => scan_plain l
  | ScRef => scan_ref l
  | ScIndex => scan_index l
  | ScQuotedPlain => scan_quoted_plain l
  | ScFunc => scan_func l
  | ScFuncName => scan_func_name l
  | ScFuncArgs => scan_func_args l
  | ScFuncArgQuoted => scan_func_arg_quoted l
  end.

(** NextToken run to exhaustion, syntax/scanner.go:38-48: the stream of tokens
    the parser draws from.  Simplification: the Go scanner is driven lazily by
    the parser; since scanning does not depend on the parser the stream is the
    same. *)
Fixpoint scan_loop (n : nat) (s : scanstate) (l : lexer) : option (list token) :=
  match n with
  | O => None
  | S n' =>
    match scan_step s l with
    | None => None
    | Some (l', toks, None) => Some toks
    | Some (l', toks, Some s') =>
      match scan_loop n' s' l' with
      | None => None
      | Some more => Some (toks ++ more)%list
      end
    end
  end.

Definition scan_fuel (input : string) : nat := 4 * String.length input + 8.

(** newScanner, syntax/scanner.go:17-23, and the resulting token stream. *)
Definition scan_all (input : string) : option (list token) :=
  scan_loop (scan_fuel input) ScPlain (new_lexer input).

(* ------------------------------------------------------------------ *)
(** * AST: syntax/nodes.go *)

(** Literal arguments of a FuncCallExpr, syntax/nodes.go:51-55 (Args []any).
    [LInt] is the Go int stored by #join (func_builtin.go:70). *)
Inductive lit := LNum (f : f64) | LInt (z : Z) | LStr (s : string) | LBool (b : bool) | LNil.

(** BindVarStyle, syntax/nodes.go:41-48: Dollar = 0, Question = 1. *)
Definition style_dollar : Z := 0%Z.
Definition style_question : Z := 1%Z.

(** Expr and its implementations, syntax/nodes.go:33-67 *)
Inductive expr :=
| EPlain (text : string) (p : pos)
| EBind (style : Z) (index : Z) (p : pos)
| ECall (name : string) (args : list lit) (p : pos)
| EFunc (name : string) (p : pos).

(* ------------------------------------------------------------------ *)
(** * Parser: syntax/parser.go *)

(** Outcome of a parsing step.  [PPanic]: a Go run-time panic (slice bounds);
    [PFuel]: model fuel exhausted (proved impossible). *)
Inductive pres (A : Type) :=
| POk (a : A) | PErr (off : nat) (msg : string) | PPanic | PFuel.
Arguments POk {A}. Arguments PErr {A}. Arguments PPanic {A}. Arguments PFuel {A}.

(** parser, syntax/parser.go:20-28 (the Clause under construction is returned
    by the functions instead). *)
Record parser := mkParser {
  pr_toks : list token; pr_tok : token; pr_index : Z; pr_style : Z }.

(** NextToken as seen by the parser: at the end of the stream it returns false
    and leaves the current token alone, syntax/scanner.go:38-48. *)
Definition next_token (p : parser) : bool * parser :=
  match pr_toks p with
  | [] => (false, p)
  | t :: ts => (true, mkParser ts t (pr_index p) (pr_style p))
  end.

(** got, syntax/parser.go:39-45; want, syntax/parser.go:30-37, is this and an error *)
Definition got (p : parser) (t : toktype) : bool * parser :=
  let p' := snd (next_token p) in (toktype_eqb (t_typ (pr_tok p')) t, p').

(** syntaxError, syntax/parser.go:47-49.  The message of the error is
    [syntax_text] of both parts. *)
Definition syntax_error {A} (p : parser) (msg : string) : pres A := PErr (t_start (pr_tok p)) msg.
Definition syntax_text (off : nat) (msg : string) : string := itoa_nat off ++ ": syntax error: " ++ msg.

(** TokenType, syntax/token.go:14-29 *)
Definition tok_text (t : toktype) : string :=
  match t with
  | TkEOF => "EOF" | TkRef => "ref" | TkName => "name" | TkLiteral => "literal"
  | TkPlain => "plain text" | TkHash => "#" | TkLparen => "(" | TkRparen => ")" | TkComma => ","
  end.
(** The message of want, syntax/parser.go:33 *)
Definition want_text (p : parser) (t : toktype) : string :=
  "syntax error: unexpected " ++ tok_text (t_typ (pr_tok p)) ++ ", want " ++ tok_text t.
(** The message of a strconv.NumError for a number that is too large.  Number
    tokens have the syntax of numbers, so there is no other error. *)
Definition range_text (fn lit : string) : string :=
  "strconv." ++ fn ++ ": parsing """ ++ lit ++ """: value out of range".

(** bindVarExpr, syntax/parser.go:80-122.  The style check compares with 0,
    which is also the value of Dollar. *)
Definition bind_var_expr (p : parser) : pres (expr * parser) :=
  let ps := t_pos (pr_tok p) in
  let checked (t : Z) : pres parser :=
    let st := if (pr_style p =? 0)%Z then t else pr_style p in
    let p' := mkParser (pr_toks p) (pr_tok p) (pr_index p + 1)%Z st in
    if (st =? t)%Z then POk p' else syntax_error p' "mixed bindvar styles" in
  let fin (t : Z) (p : parser) : pres (expr * parser) :=
    if (t =? style_question)%Z then POk (EBind t (pr_index p) ps, p)
    else
      let (ok, p) := got p TkLiteral in
      if negb ok then syntax_error p (want_text p TkLiteral)
      else if negb (litkind_eqb (t_kind (pr_tok p)) KNumber) then
        syntax_error p ("unexpected '" ++ t_lit (pr_tok p) ++ "', want bindvar index")
      else match parse_uint64 (t_lit (pr_tok p)) with
           | None => syntax_error p (range_text "ParseUint" (t_lit (pr_tok p)))
           | Some v => POk (EBind t (int_of_uint64 v) ps, p)
           end in
  if String.eqb (t_lit (pr_tok p)) "$" then
    match checked style_dollar with POk p => fin style_dollar p | PErr o m => PErr o m
    | PPanic => PPanic | PFuel => PFuel end
  else if String.eqb (t_lit (pr_tok p)) "?" then
    match checked style_question with POk p => fin style_question p | PErr o m => PErr o m
    | PPanic => PPanic | PFuel => PFuel end
  else fin style_dollar p.

(** lit[1:len(lit)-1], syntax/parser.go:156; panics when len(lit) < 2. *)
Definition strip_quotes (s : string) : option string :=
  let n := String.length s in
  if Nat.ltb n 2 then None else Some (str_take (n - 2) (str_drop 1 s)).

(** One argument, syntax/parser.go:141-160 *)
Definition arg_value (p : parser) : pres lit :=
  let t := pr_tok p in
  if t_bad t then syntax_error p ("bad argument: " ++ t_lit t)
  else match t_kind t with
       | KNil => POk LNil
       | KBool => POk (LBool (String.eqb (t_lit t) "true"))
       | KNumber => match parse_float (t_lit t) with
                    | Some f => POk (LNum f)
                    | None => syntax_error p (range_text "ParseFloat" (t_lit (pr_tok p)))
                    end
       | KString => match strip_quotes (t_lit t) with
                    | Some s => POk (LStr (undouble_quotes s))
                    | None => PPanic
                    end
       end.

(** The argument loop, syntax/parser.go:134-167, from "(" to ")" . *)
Fixpoint args_loop (n : nat) (p : parser) (args : list lit) : pres (list lit * parser) :=
  match n with
  | O => PFuel
  | S n' =>
    let finish p := if toktype_eqb (t_typ (pr_tok p)) TkRparen then POk (args, p)
                    else syntax_error p ("unexpected token " ++ tok_text (t_typ (pr_tok p)) ++ ", want )") in
    let (ok, p) := got p TkLiteral in
    if negb ok then
      if negb (toktype_eqb (t_typ (pr_tok p)) TkRparen) then syntax_error p ("unexpected token " ++ tok_text (t_typ (pr_tok p)) ++ ", want args")
      else finish p
    else
      match arg_value p with
      | POk v =>
        let args := (args ++ [v])%list in
        let (comma, p) := got p TkComma in
        if comma then args_loop n' p args
        else if toktype_eqb (t_typ (pr_tok p)) TkRparen then POk (args, p)
        else syntax_error p ("unexpected token " ++ tok_text (t_typ (pr_tok p)) ++ ", want )")
      | PErr o m => PErr o m
      | PPanic => PPanic
      | PFuel => PFuel
      end
  end.

(** funcExpr, syntax/parser.go:124-208 *)
Definition func_expr (p : parser) : pres (list expr * parser) :=
  let ps := t_pos (pr_tok p) in
  let (ok, p) := got p TkName in
  if negb ok then syntax_error p (want_text p TkName)
  else
    let name := t_lit (pr_tok p) in
    let p := snd (next_token p) in
    match t_typ (pr_tok p) with
    | TkLparen =>
      match args_loop (S (List.length (pr_toks p))) p [] with
      | POk (args, p) => POk ([ECall name args ps], p)
      | PErr o m => PErr o m
      | PPanic => PPanic
      | PFuel => PFuel
      end
    | TkLiteral =>
      if negb (litkind_eqb (t_kind (pr_tok p)) KNumber) then syntax_error p ("unexpected '" ++ t_lit (pr_tok p) ++ "', want index")
      else match parse_float (t_lit (pr_tok p)) with
           | Some f => POk ([ECall name [LNum f] ps], p)
           | None => syntax_error p (range_text "ParseFloat" (t_lit (pr_tok p)))
           end
    | _ =>
      (* "EOF or _Plain" says the source; any other token lands here as well *)
      POk ([EFunc name ps; EPlain (t_lit (pr_tok p)) (t_pos (pr_tok p))], p)
    end.

(** (p *parser) Parse, syntax/parser.go:51-78 *)
Fixpoint parse_loop (n : nat) (p : parser) (acc : list expr) : pres (list expr) :=
  match n with
  | O => PFuel
  | S n' =>
    let (more, p) := next_token p in
    if negb more then POk acc
    else match t_typ (pr_tok p) with
         | TkEOF => parse_loop n' p acc
         | TkRef => match bind_var_expr p with
                    | POk (e, p) => parse_loop n' p (acc ++ [e])%list
                    | PErr o m => PErr o m
                    | PPanic => PPanic
                    | PFuel => PFuel
                    end
         | TkHash => match func_expr p with
                     | POk (es, p) => parse_loop n' p (acc ++ es)%list
                     | PErr o m => PErr o m
                     | PPanic => PPanic
                     | PFuel => PFuel
                     end
         | TkPlain => parse_loop n' p (acc ++ [EPlain (t_lit (pr_tok p)) (t_pos (pr_tok p))])%list
         | _ => syntax_error p ("unexpected token " ++ tok_text (t_typ (pr_tok p)))
         end
  end.

(** The (unused) token before the first NextToken: a nil pointer in Go. *)
Definition no_token : token := mkTok TkEOF "" false KString 0 0 (mkPos 0 0).

Definition parse_tokens (toks : list token) : pres (list expr) :=
  parse_loop (S (List.length toks)) (mkParser toks no_token 0 0) [].

(** Parse, syntax/parser.go:10-18 *)
Definition parse (input : string) : pres (list expr) :=
  match scan_all input with
  | None => PFuel
  | Some toks => parse_tokens toks
  end.
