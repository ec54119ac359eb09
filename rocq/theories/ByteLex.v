(** A byte-level reformulation of the scanner and parser of Syntax.v, used as a
    stepping stone in proofs (it is proved equal to the model in Lex_proofs.v;
    nothing here is trusted).  Positions are dropped and the input is cut at the
    first NUL byte. *)
From Coq Require Import Strings.String Strings.Ascii NArith ZArith List Bool.
From Verif Require Import GoStr GoNum Syntax Spec_syntax.
Import ListNotations.
Open Scope string_scope.

Fixpoint cut_nul (s : string) : string :=
  match s with
  | "" => ""
  | String a s' => if Ascii.eqb a nul then "" else String a (cut_nul s')
  end.

Fixpoint span (p : ascii -> bool) (s : string) : string * string :=
  match s with
  | "" => ("", "")
  | String a s' => if p a then let (t, r) := span p s' in (String a t, r) else ("", s)
  end.

Definition is_word (a : ascii) : bool := negb (Ascii.eqb a ",") && negb (Ascii.eqb a ")").

(** Plain text up to the next unescaped marker, # or quote. *)
Fixpoint bplain (s : string) : string * string :=
  match s with
  | "" => ("", "")
  | String a s' =>
    if is_mark a then
      match s' with
      | String b s'' =>
        if Ascii.eqb b a then let (t, r) := bplain s'' in (String a (String b t), r) else ("", s)
      | "" => ("", s)
      end
    else if Ascii.eqb a "#" || is_quote a then ("", s)
    else let (t, r) := bplain s' in (String a t, r)
  end.

(** After an opening quote [q]: body including the closing quote, rest, closed. *)
Fixpoint bquote (q : ascii) (s : string) : string * string * bool :=
  match s with
  | "" => ("", "", false)
  | String a s' =>
    if Ascii.eqb a q then
      match s' with
      | String b s'' =>
        if Ascii.eqb q "'" && Ascii.eqb b "'" then
          let '(t, r, c) := bquote q s'' in (String a (String b t), r, c)
        else (String a "", s', true)
      | "" => (String a "", "", true)
      end
    else let '(t, r, c) := bquote q s' in (String a t, r, c)
  end.

(** Tokens without positions. *)
Record atok := mkA { a_typ : toktype; a_lit : string; a_bad : bool; a_kind : litkind }.
Definition strip_tok (t : token) : atok := mkA (t_typ t) (t_lit t) (t_bad t) (t_kind t).

Definition a_plain (s : string) : list atok :=
  if is_empty s then [] else [mkA TkPlain s false KString].
Definition a_eof : atok := mkA TkEOF "" false KString.
Definition a_num (s : string) : atok := mkA TkLiteral s false KNumber.
Definition a_word (s : string) : atok :=
  if String.eqb s "true" || String.eqb s "false" then mkA TkLiteral s false KBool
  else if String.eqb s "null" || String.eqb s "nil" then mkA TkLiteral s false KNil
  else match parse_float s with
       | Some _ => mkA TkLiteral s false KNumber
       | None => mkA TkName s true KString
       end.

Inductive mode := MPlain | MArgs.

Fixpoint btoks (n : nat) (m : mode) (s : string) : list atok :=
  match n with
  | O => []
  | S n' =>
    match m with
    | MPlain =>
      let (t, r) := bplain s in
      match r with
      | "" => (a_plain t ++ [a_eof])%list
      | String c r' =>
        if Ascii.eqb c "#" then
          (a_plain t ++ mkA TkHash "#" false KString ::
            (let (nm, r1) := span is_letter r' in
             if is_empty nm then btoks n' MPlain r1
             else mkA TkName nm false KString ::
               (let (ds, r2) := span is_digit r1 in
                if is_empty ds then
                  match r2 with
                  | String p r3 =>
                    if Ascii.eqb p "(" then mkA TkLparen "(" false KString :: btoks n' MArgs r3
                    else btoks n' MPlain r2
                  | "" => btoks n' MPlain r2
                  end
                else a_num ds :: btoks n' MPlain r2)))%list
        else if is_mark c then
          (a_plain t ++ mkA TkRef (String c "") false KString ::
            (match r' with
             | String d _ =>
               if is_digit19 d then let (ds, r1) := span is_digit r' in a_num ds :: btoks n' MPlain r1
               else btoks n' MPlain r'
             | "" => btoks n' MPlain r'
             end))%list
        else
          let '(b, r1, closed) := bquote c r' in
          mkA TkPlain (t ++ String c b) (negb closed) KString :: btoks n' MPlain r1
      end
    | MArgs =>
      match trim_left s with
      | "" => [a_eof]
      | String c r =>
        if Ascii.eqb c "," then mkA TkComma "," false KString :: btoks n' MArgs r
        else if Ascii.eqb c ")" then mkA TkRparen ")" false KString :: btoks n' MPlain r
        else if Ascii.eqb c "'" then
          let '(b, r1, closed) := bquote c r in
          mkA TkLiteral (String c b) (negb closed) KString ::
            btoks n' (if closed then MArgs else MPlain) r1
        else
          let (w, r1) := span is_word (String c r) in
          a_word w :: btoks n' MArgs r1
      end
    end
  end.

Definition btokens (s : string) : list atok := btoks (S (String.length s)) MPlain s.

(* ------------------------------------------------------------------ *)
(** * Parser on such tokens *)

Definition a_value (t : atok) : option lit :=
  if a_bad t then None
  else match a_kind t with
       | KNil => Some LNil
       | KBool => Some (LBool (String.eqb (a_lit t) "true"))
       | KNumber => option_map LNum (parse_float (a_lit t))
       | KString => option_map (fun s => LStr (undouble_quotes s)) (strip_quotes (a_lit t))
       end.

(** Parser states: top level; after $; after #; after #name; expecting an
    argument or ")"; expecting "," or ")". *)
Inductive pmode :=
| PTop | PDollar | PHash | PName (nm : string)
| PArg (nm : string) (args : list lit) | PSep (nm : string) (args : list lit).

Definition ocons {A} (x : A) (o : option (list A)) : option (list A) := option_map (cons x) o.

Fixpoint ap (m : pmode) (idx st : Z) (ts : list atok) : option (list aexpr) :=
  match ts with
  | [] => match m with PTop => Some [] | _ => None end
  | t :: ts' =>
    match m with
    | PTop =>
      match a_typ t with
      | TkEOF => ap PTop idx st ts'
      | TkRef =>
        let style := if String.eqb (a_lit t) "?" then style_question else style_dollar in
        let st' := if (st =? 0)%Z then style else st in
        if (st' =? style)%Z then
          if (style =? style_question)%Z
          then ocons (ABind style (idx + 1)%Z) (ap PTop (idx + 1)%Z st' ts')
          else ap PDollar (idx + 1)%Z st' ts'
        else None
      | TkHash => ap PHash idx st ts'
      | TkPlain => ocons (APlain (a_lit t)) (ap PTop idx st ts')
      | _ => None
      end
    | PDollar =>
      match a_typ t, a_kind t with
      | TkLiteral, KNumber =>
        match parse_uint64 (a_lit t) with
        | Some v => ocons (ABind style_dollar (int_of_uint64 v)) (ap PTop idx st ts')
        | None => None
        end
      | _, _ => None
      end
    | PHash =>
      match a_typ t with
      | TkName => ap (PName (a_lit t)) idx st ts'
      | _ => None
      end
    | PName nm =>
      match a_typ t with
      | TkLparen => ap (PArg nm []) idx st ts'
      | TkLiteral =>
        match a_kind t with
        | KNumber =>
          match parse_float (a_lit t) with
          | Some f => ocons (ACall nm [LNum f]) (ap PTop idx st ts')
          | None => None
          end
        | _ => None
        end
      | _ => ocons (AFunc nm) (ocons (APlain (a_lit t)) (ap PTop idx st ts'))
      end
    | PArg nm args =>
      match a_typ t with
      | TkLiteral =>
        match a_value t with
        | Some v => ap (PSep nm (args ++ [v])%list) idx st ts'
        | None => None
        end
      | TkRparen => ocons (ACall nm args) (ap PTop idx st ts')
      | _ => None
      end
    | PSep nm args =>
      match a_typ t with
      | TkComma => ap (PArg nm args) idx st ts'
      | TkRparen => ocons (ACall nm args) (ap PTop idx st ts')
      | _ => None
      end
    end
  end.

(** Parse, at byte level; [None] is a syntax error. *)
Definition bparse (s : string) : option (list aexpr) := ap PTop 0 0 (btokens (cut_nul s)).
