(** A reader of SQL text, to say that interpolated values stay what they are.
    It is not a model of any code: it is a small lexer of the kind a database
    has, written one byte at a time, with words, numbers, strings in single
    quotes, quoted identifiers, comments of both kinds and single operator
    characters.  [bs] tells the dialects in which a backslash escapes the next
    byte of a string (MySQL) from those in which it does not (standard SQL). *)
From Coq Require Import Strings.String Strings.Ascii NArith ZArith List Bool Floats.SpecFloat.
From Verif Require Import GoStr GoNum Syntax Value Spec_syntax Spec_util.
Import ListNotations.
Open Scope string_scope.

Inductive token :=
| TWord (w : string)         (* keyword, identifier *)
| TNum (n : string)          (* number, as written *)
| TStr (s : string)          (* string literal, its content *)
| TQuoted (s : string)       (* identifier in double quotes, its content *)
| TOp (c : ascii)            (* any other character *)
| TComment (s : string)
| TOpen (s : string).        (* string, identifier or comment that is never closed *)

Inductive place :=
| Between | InWord (a : string) | InNum (a : string)
| InStr (a : string) | InEsc (a : string) | EndStr (a : string)
| InQuoted (a : string) | EndQuoted (a : string)
| AtDash | InLine (a : string) | AtSlash | InBlock (a : string) | AtStar (a : string).

Definition snoc (s : string) (c : ascii) : string := s ++ String c "".
Definition is_dquote (c : ascii) : bool := Ascii.eqb c """".
Definition is_blank (c : ascii) : bool := (code c <=? 32)%N.
Definition is_letter (c : ascii) : bool :=
  (in_range (code c) 65 90 || in_range (code c) 97 122 || (code c =? 95) || (128 <=? code c))%N.
Definition in_word (c : ascii) : bool := is_letter c || is_digit c || Ascii.eqb c "$".
Definition in_num (c : ascii) : bool := is_letter c || is_digit c || Ascii.eqb c ".".

(** What a character begins. *)
Definition begin (c : ascii) : place * list token :=
  if is_blank c then (Between, [])
  else if is_letter c then (InWord (String c ""), [])
  else if is_digit c then (InNum (String c ""), [])
  else if Ascii.eqb c "'" then (InStr "", [])
  else if is_dquote c then (InQuoted "", [])
  else if Ascii.eqb c "-" then (AtDash, [])
  else if Ascii.eqb c "/" then (AtSlash, [])
  else (Between, [TOp c]).
(** A token is complete and the character begins what follows. *)
Definition after (t : token) (c : ascii) : place * list token := (fst (begin c), t :: snd (begin c)).
Definition step (bs : bool) (p : place) (c : ascii) : place * list token :=
  match p with
  | Between => begin c
  | InWord a => if in_word c then (InWord (snoc a c), []) else after (TWord a) c
  | InNum a => if in_num c then (InNum (snoc a c), []) else after (TNum a) c
  | InStr a => if Ascii.eqb c "'" then (EndStr a, [])
      else if bs && Ascii.eqb c "\" then (InEsc a, []) else (InStr (snoc a c), [])
  | InEsc a => (InStr (snoc a c), [])
  | EndStr a => if Ascii.eqb c "'" then (InStr (snoc a c), []) else after (TStr a) c
  | InQuoted a => if is_dquote c then (EndQuoted a, []) else (InQuoted (snoc a c), [])
  | EndQuoted a => if is_dquote c then (InQuoted (snoc a c), []) else after (TQuoted a) c
  | AtDash => if Ascii.eqb c "-" then (InLine "", []) else after (TOp "-") c
  | InLine a => if (code c =? 10)%N then (Between, [TComment a]) else (InLine (snoc a c), [])
  | AtSlash => if Ascii.eqb c "*" then (InBlock "", []) else after (TOp "/") c
  | InBlock a => if Ascii.eqb c "*" then (AtStar a, []) else (InBlock (snoc a c), [])
  | AtStar a => if Ascii.eqb c "/" then (Between, [TComment a])
      else if Ascii.eqb c "*" then (AtStar (snoc a c), []) else (InBlock (snoc (snoc a "*") c), [])
  end.
Definition finish (p : place) : list token :=
  match p with
  | Between => []
  | InWord a => [TWord a]
  | InNum a => [TNum a]
  | InStr a | InEsc a | InQuoted a | InBlock a | AtStar a => [TOpen a]
  | EndStr a => [TStr a]
  | EndQuoted a => [TQuoted a]
  | AtDash => [TOp "-"]
  | InLine a => [TComment a]
  | AtSlash => [TOp "/"]
  end.
Fixpoint feed (bs : bool) (p : place) (s : string) : place * list token :=
  match s with
  | "" => (p, [])
  | String c s' => let (q, ts) := step bs p c in let (r, us) := feed bs q s' in (r, (ts ++ us)%list)
  end.
Definition tokens (bs : bool) (s : string) : list token :=
  let (p, ts) := feed bs Between s in (ts ++ finish p)%list.

(** The tokens a value stands for. *)
Definition signed (neg : bool) (t : token) : list token := if neg then [TOp "-"; t] else [t].
Inductive float_tokens : f64 -> list token -> Prop :=
| fk_text f (neg : bool) d : float_text f ((if neg then "-" else "") ++ d) -> starts is_digit d = true ->
    float_tokens f (signed neg (TNum d))
| fk_nan : float_tokens S754_nan [TWord "NaN"]
| fk_inf (neg : bool) : float_tokens (S754_infinity neg) [TOp (if neg then "-" else "+"); TWord "Inf"].
Inductive stands (ft : gotime -> string) : value -> list token -> Prop :=
| sd_nil : stands ft VNil [TWord "NULL"]
| sd_valuer ty r w ts : stands ft w ts -> stands ft (VValuer ty r (inl (inl w))) ts
| sd_time0 t : t_ns t = 0%Z -> stands ft (VTime t) [TStr "0000-00-00"]
| sd_time t : t_ns t <> 0%Z -> stands ft (VTime t) [TStr (ft t)]
| sd_stringer ty r s : stands ft (VStringer ty r (inl s)) [TStr s]
| sd_true ty : stands ft (VBool ty true) [TWord "TRUE"]
| sd_false ty : stands ft (VBool ty false) [TWord "FALSE"]
| sd_int ty z : stands ft (VInt ty z) (signed (z <? 0)%Z (TNum (itoa (Z.abs z))))
| sd_float ty f ts : float_tokens f ts -> stands ft (VFloat ty f) ts
| sd_str ty s : stands ft (VStr ty s) [TStr s].
(** The texts of a value can be read back: no backslash where it escapes, and
    formatted times, which the code does not escape, have no quote. *)
Definition plain_char (bs : bool) (c : ascii) : bool := negb (bs && Ascii.eqb c "\").
Fixpoint readable (bs : bool) (ft : gotime -> string) (v : value) : bool :=
  match v with
  | VStr _ s | VStringer _ _ (inl s) => all (plain_char bs) s
  | VTime t => all (fun c => plain_char bs c && negb (Ascii.eqb c "'")) (ft t)
  | VValuer _ _ (inl (inl w)) => readable bs ft w
  | _ => true
  end.

(** Placeholders stand alone: the text before each ends between tokens, the
    text after begins with a character that continues no value. *)
Definition separates (c : ascii) : bool := negb (in_word c || in_num c || Ascii.eqb c "'").
Definition leaves (bs : bool) (t : string) : Prop := fst (feed bs Between t) = Between.
Fixpoint alone (bs : bool) (l : list aexpr) : Prop :=
  match l with
  | [] => True
  | APlain t :: l' => (l' = [] \/ leaves bs t) /\ alone bs l'
  | ABind _ _ :: l' => match l' with [] => True | APlain t :: _ => starts separates t = true | _ => False end /\ alone bs l'
  | _ :: _ => False
  end.
(** The tokens of the texts, with the tokens of the values in between. *)
Inductive shown (bs : bool) (ft : gotime -> string) (args : list value) : list aexpr -> list token -> Prop :=
| sh_nil : shown bs ft args [] []
| sh_text t l ts : shown bs ft args l ts -> shown bs ft args (APlain t :: l) (tokens bs t ++ ts)%list
| sh_value sty k v l us ts : (1 <= k)%Z -> nth_error args (Z.to_nat (k - 1)) = Some v -> stands ft v us ->
    shown bs ft args l ts -> shown bs ft args (ABind sty k :: l) (us ++ ts)%list.

(** A token without the content of its literal. *)
Definition shape (t : token) : token :=
  match t with TNum _ => TNum "" | TStr _ => TStr "" | t => t end.
(** Values of one kind: literals of one shape. *)
Inductive alike : value -> value -> Prop :=
| ak_same v : alike v v
| ak_int ty ty' z z' : (z <? 0)%Z = (z' <? 0)%Z -> alike (VInt ty z) (VInt ty' z')
| ak_float ty ty' b m e m' e' : alike (VFloat ty (S754_finite b m e)) (VFloat ty' (S754_finite b m' e'))
| ak_str ty ty' s s' : alike (VStr ty s) (VStr ty' s')
| ak_stringer ty ty' r r' s s' : alike (VStringer ty r (inl s)) (VStringer ty' r' (inl s'))
| ak_mixed ty ty' r s s' : alike (VStr ty s) (VStringer ty' r (inl s'))
| ak_time t t' : alike (VTime t) (VTime t')
| ak_valuer ty ty' r r' w w' : alike w w' -> alike (VValuer ty r (inl (inl w))) (VValuer ty' r' (inl (inl w'))).
