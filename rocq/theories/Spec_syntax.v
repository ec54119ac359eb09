(** Specification vocabulary for the syntax properties: parsed expressions
    without positions, and a grammar of template parts with its printer.
    Independent of the scanner and parser functions of Syntax.v. *)
From Coq Require Import Strings.String Strings.Ascii NArith ZArith List Bool.
From Verif Require Import GoStr GoNum Syntax.
Import ListNotations.
Open Scope string_scope.

(** An expression without its position. *)
Inductive aexpr :=
| APlain (t : string) | ABind (style index : Z) | ACall (name : string) (args : list lit)
| AFunc (name : string).
Definition strip (e : expr) : aexpr :=
  match e with
  | EPlain t _ => APlain t | EBind s i _ => ABind s i
  | ECall n a _ => ACall n a | EFunc n _ => AFunc n
  end.

(** Adjacent texts merged, empty texts dropped (the build concatenates them). *)
Definition cons_text (t : string) (l : list aexpr) : list aexpr :=
  match l with
  | APlain u :: r => APlain (t ++ u) :: r
  | _ => if is_empty t then l else APlain t :: l
  end.
Fixpoint norm (l : list aexpr) : list aexpr :=
  match l with
  | [] => []
  | APlain t :: l' => cons_text t (norm l')
  | e :: l' => e :: norm l'
  end.

(** Character classes. *)
Definition nul : ascii := Ascii.zero.
Definition is_mark (a : ascii) : bool := Ascii.eqb a "$" || Ascii.eqb a "?".
Definition is_quote (a : ascii) : bool :=
  Ascii.eqb a "'" || Ascii.eqb a """" || Ascii.eqb a "`".
Definition special (a : ascii) : bool :=
  is_mark a || Ascii.eqb a "#" || is_quote a || Ascii.eqb a nul.
(** a-z, A-Z, _ *)
Definition is_letter (a : ascii) : bool :=
  in_range (code a) 97 122 || in_range (code a) 65 90 || Ascii.eqb a "_".
Definition is_digit19 (a : ascii) : bool := in_range (code a) 49 57.

Fixpoint all (p : ascii -> bool) (s : string) : bool :=
  match s with "" => true | String a s' => p a && all p s' end.
Definition starts (p : ascii -> bool) (s : string) : bool :=
  match s with "" => false | String a _ => p a end.
Definition plain_text (s : string) : bool := all (fun a => negb (special a)) s.
Definition no_nul (s : string) : bool := all (fun a => negb (Ascii.eqb a nul)) s.

(** Body of a quoted text: no closing quote, except doubled single quotes; no NUL. *)
Fixpoint body_ok (q : ascii) (b : string) : bool :=
  match b with
  | "" => true
  | String a b' =>
    if Ascii.eqb a q then
      Ascii.eqb q "'" && match b' with String c b'' => Ascii.eqb c q && body_ok q b'' | "" => false end
    else negb (Ascii.eqb a nul) && body_ok q b'
  end.

(** Decimal notation of a natural number. *)
Definition dec (n : N) : string := itoa (Z.of_N n).

(** Single quotes doubled. *)
Fixpoint doubled (s : string) : string :=
  match s with
  | "" => ""
  | String a s' => if Ascii.eqb a "'" then String a (String a (doubled s')) else String a (doubled s')
  end.

(** Literal arguments of calls. *)
Inductive sarg := SStr (s : string) | SNum (n : N) | SBool (b : bool) | SNil.
Definition print_arg (a : sarg) : string :=
  match a with
  | SStr s => "'" ++ doubled s ++ "'"
  | SNum n => dec n
  | SBool true => "true" | SBool false => "false"
  | SNil => "nil"
  end.
(** The float64 of an integer below 2^53 (exact). *)
Definition float_of_N (n : N) : f64 := round_bin false (Z.of_N n) 0.
Definition denote_arg (a : sarg) : lit :=
  match a with
  | SStr s => LStr s | SNum n => LNum (float_of_N n) | SBool b => LBool b | SNil => LNil
  end.
Definition wf_arg (a : sarg) : bool :=
  match a with
  | SStr s => no_nul s
  | SNum n => (n <? 9007199254740992)%N
  | _ => true
  end.

(** Template parts. *)
Inductive part :=
| Text (s : string)                         (* text without special characters *)
| Esc (dollar : bool)                       (* $$ or ?? *)
| Quoted (q : ascii) (body : string)        (* '...', "..." or `...` *)
| Quest                                     (* ? *)
| Dollar (n : N)                            (* $n *)
| Call (name : string) (args : list sarg)   (* #name(arg, ..., arg) *)
| Indexed (name : string) (n : N)           (* #nameN *)
| Func (name : string).                     (* #name *)

Definition sep_args (l : list sarg) : string := str_join ", " (map print_arg l).
Definition print1 (p : part) : string :=
  match p with
  | Text s => s
  | Esc d => if d then "$$" else "??"
  | Quoted q b => String q (b ++ String q "")
  | Quest => "?"
  | Dollar n => "$" ++ dec n
  | Call nm args => "#" ++ nm ++ "(" ++ sep_args args ++ ")"
  | Indexed nm n => "#" ++ nm ++ dec n
  | Func nm => "#" ++ nm
  end.
Fixpoint print (l : list part) : string :=
  match l with [] => "" | p :: l' => print1 p ++ print l' end.

Definition wf_name (nm : string) : bool := negb (is_empty nm) && all is_letter nm.
Definition wf1 (p : part) : bool :=
  match p with
  | Text s => plain_text s
  | Esc _ | Quest => true
  | Quoted q b => is_quote q && body_ok q b
  | Dollar n => (1 <=? n)%N && (n <? 9223372036854775808)%N
  | Call nm args => wf_name nm && forallb wf_arg args
  | Indexed nm n => wf_name nm && (n <? 9007199254740992)%N
  | Func nm => wf_name nm
  end.
(** [rest] starts with plain text (or is empty). *)
Definition plain_start (rest : string) : bool :=
  match rest with
  | "" => true
  | String a r => if is_mark a then starts (fun b => Ascii.eqb b a) r else negb (Ascii.eqb a "#")
  end.
(** What may follow a part without changing it. *)
Definition follow (p : part) (rest : string) : bool :=
  match p with
  | Quest => negb (starts (fun a => Ascii.eqb a "?" || is_digit19 a) rest)
  | Dollar _ | Indexed _ _ => negb (starts is_digit rest)
  | Func _ => negb (starts (fun a => is_letter a || is_digit a || Ascii.eqb a "(") rest) && plain_start rest
  | _ => true
  end.
(** Well-formed parts, with [x] after them. *)
Fixpoint wf_at (l : list part) (x : string) : bool :=
  match l with [] => true | p :: l' => wf1 p && follow p (print l' ++ x) && wf_at l' x end.
Definition wf (l : list part) : bool := wf_at l "".

(** The meaning of the parts; [k] bind variables precede. *)
Fixpoint denote (k : Z) (l : list part) : list aexpr :=
  match l with
  | [] => []
  | p :: l' =>
    match p with
    | Quest => ABind style_question (k + 1) :: denote (k + 1) l'
    | Dollar n => ABind style_dollar (Z.of_N n) :: denote (k + 1) l'
    | Call nm args => ACall nm (map denote_arg args) :: denote k l'
    | Indexed nm n => ACall nm [LNum (float_of_N n)] :: denote k l'
    | Func nm => AFunc nm :: denote k l'
    | _ => APlain (print1 p) :: denote k l'
    end
  end.

(** No $n after a ?. *)
Fixpoint style_ok (seen_quest : bool) (l : list part) : bool :=
  match l with
  | [] => true
  | Quest :: l' => style_ok true l'
  | Dollar _ :: l' => negb seen_quest && style_ok seen_quest l'
  | _ :: l' => style_ok seen_quest l'
  end.

(** The expressions of a template, texts merged; [None] for anything but success. *)
Definition parsed (s : string) : option (list aexpr) :=
  match parse s with POk es => Some (norm (map strip es)) | _ => None end.
Definition rejected (s : string) : Prop := exists offset msg, parse s = PErr offset msg.

(** Number of bind variables of the parts, whether ? occurs. *)
Definition is_bind (p : part) : bool := match p with Quest | Dollar _ => true | _ => false end.
Definition is_quest (p : part) : bool := match p with Quest => true | _ => false end.
Definition binds (l : list part) : Z := Z.of_nat (length (filter is_bind l)).
Definition is_func (p : part) : bool := match p with Func _ => true | _ => false end.

(** The texts of an expression: what may be written for it. *)
Definition white (w : string) : Prop := trim_left w = "".
Inductive arg_source : lit -> string -> Prop :=
| src_str b : body_ok "'" b = true -> arg_source (LStr (undouble_quotes b)) ("'" ++ b ++ "'")
| src_num w f : parse_float w = Some f -> arg_source (LNum f) w
| src_true : arg_source (LBool true) "true"
| src_false : arg_source (LBool false) "false"
| src_nil : arg_source LNil "nil"
| src_null : arg_source LNil "null".
Inductive args_source : list lit -> string -> Prop :=
| src_none w : white w -> args_source [] (w ++ ")")
| src_one v w1 a w2 : white w1 -> arg_source v a -> white w2 ->
    args_source [v] (w1 ++ a ++ w2 ++ ")")
| src_more v l w1 a w2 t : white w1 -> arg_source v a -> white w2 -> args_source l t ->
    args_source (v :: l) (w1 ++ a ++ w2 ++ "," ++ t).
Inductive source : aexpr -> string -> Prop :=
| src_text t : source (APlain t) t
| src_quest k : source (ABind style_question k) "?"
| src_dollar ds n : starts is_digit19 ds = true -> all is_digit ds = true ->
    parse_uint64 ds = Some n -> source (ABind style_dollar (int_of_uint64 n)) ("$" ++ ds)
| src_func nm : wf_name nm = true -> source (AFunc nm) ("#" ++ nm)
| src_index nm ds f : wf_name nm = true -> all is_digit ds = true -> parse_float ds = Some f ->
    source (ACall nm [LNum f]) ("#" ++ nm ++ ds)
| src_call nm args t : wf_name nm = true -> args_source args t ->
    source (ACall nm args) ("#" ++ nm ++ "(" ++ t).
Definition concat_all (l : list string) : string := fold_right append "" l.

(** The bind variables of a parse result, in order; the numbers k+1 ... k+n. *)
Definition abinds (es : list aexpr) : list aexpr :=
  filter (fun e => match e with ABind _ _ => true | _ => false end) es.
Fixpoint count_from (k : Z) (n : nat) : list Z :=
  match n with O => [] | S n' => (k + 1)%Z :: count_from (k + 1)%Z n' end.
Definition is_dollar (p : part) : bool := match p with Dollar _ => true | _ => false end.
Fixpoint dollars (l : list part) : list N :=
  match l with [] => [] | Dollar n :: l' => n :: dollars l' | _ :: l' => dollars l' end.
Definition quests (l : list part) : nat := length (filter is_quest l).
(** Parts that are not interpreted. *)
Definition is_inert (p : part) : bool := match p with Text _ | Esc _ | Quoted _ _ => true | _ => false end.
