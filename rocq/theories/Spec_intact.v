(** Texts whose parentheses and quotes are closed, and what is made of such texts. *)
From Coq Require Import Strings.String Strings.Ascii NArith ZArith List Bool.
From Verif Require Import GoStr GoNum Syntax Value Util Model Sqlf Sqlb Spec_syntax.
Import ListNotations.
Open Scope string_scope.

(** Every parenthesis and every quote is closed, none is closed that was not
    opened.  Within quotes everything up to the next such quote is text.
    Simplification: SQL comments and backslash escapes are not known here. *)
Definition is_paren (a : ascii) : bool := Ascii.eqb a "(" || Ascii.eqb a ")".
Inductive enclosed : string -> Prop :=
| en_empty : enclosed ""
| en_char a s : is_quote a = false -> is_paren a = false -> enclosed s -> enclosed (String a s)
| en_quote q b s : is_quote q = true -> all (fun a => negb (Ascii.eqb a q)) b = true -> enclosed s -> enclosed (String q (b ++ String q s))
| en_paren b s : enclosed b -> enclosed s -> enclosed ("(" ++ b ++ ")" ++ s).

(** Reading a text: the number of open parentheses and the open quote. *)
Fixpoint reading (d : nat) (q : option ascii) (s : string) : option (nat * option ascii) :=
  match s with
  | "" => Some (d, q)
  | String a s' =>
    match q with
    | Some c => reading d (if Ascii.eqb a c then None else q) s'
    | None =>
      if is_quote a then reading d (Some a) s'
      else if Ascii.eqb a "(" then reading (S d) None s'
      else if Ascii.eqb a ")" then match d with O => None | S d' => reading d' None s' end
      else reading d None s'
    end
  end.
(** The parts of a fragment text: what is put into it comes outside quotes. *)
Fixpoint reading_parts (d : nat) (q : option ascii) (l : list aexpr) : option (nat * option ascii) :=
  match l with
  | [] => Some (d, q)
  | APlain t :: l' => match reading d q t with Some (d', q') => reading_parts d' q' l' | None => None end
  | _ :: l' => match q with None => reading_parts d None l' | Some _ => None end
  end.
(** ... and so in the templates of its #join calls, whose separators are closed. *)
Inductive intact_parts : list aexpr -> Prop :=
| intact_parts_of l : reading_parts 0 None l = Some (0, None) ->
    (forall tmpl sep nums, In (ACall "join" (LStr tmpl :: LStr sep :: nums)) l ->
      enclosed sep /\ forall l', parsed tmpl = Some l' -> intact_parts l') ->
    intact_parts l.
(** A prefix and a suffix that belong together. *)
Definition brackets (p s : string) : Prop :=
  exists d, reading 0 None p = Some (d, None) /\ reading d None s = Some (0, None).

(** Builders of which every text is closed by itself, at any depth, and whose
    user code writes only such text when it is given such text. *)
Inductive intact : builder -> Prop :=
| it_nil : intact BNil
| it_nilfrag : intact BNilFrag
| it_frag f : intact_frag f -> intact (BFrag f)
| it_nilcol : intact BNilCol
| it_col f t : intact_frag f -> intact (BCol (Some f) t)
| it_colnone t : intact (BCol None t)
| it_table t : enclosed t -> intact (BTable t)
| it_tabal t a : enclosed t -> enclosed a -> intact (BTabAl t a)
| it_query id : intact (BQuery id)
| it_custom p : intact_prog p -> intact (BCustom p)
with intact_frag : fragment -> Prop :=
| it_fragment raw args frags p s : (forall l, parsed raw = Some l -> intact_parts l) -> Forall intact frags -> brackets p s ->
    intact_frag (Frag raw args frags p s)
with intact_prog : prog -> Prop :=
| ip_ret s : enclosed s -> intact_prog (PRet s None)
| ip_err s e : intact_prog (PRet s (Some e))
| ip_panic e : intact_prog (PPanicU e)
| ip_commit v k : (forall s, enclosed s -> intact_prog (k s)) -> intact_prog (PCommit v k)
| ip_args k : (forall l, intact_prog (k l)) -> intact_prog (PArgs k)
| ip_build fs b k : Forall (fun x => intact_func (fst x) (snd x)) fs -> intact b ->
    (forall r, (forall s, r = ROk s -> enclosed s) -> intact_prog (k r)) -> intact_prog (PBuild fs b k)
| ip_try p k : intact_prog p -> (forall r, (forall s, r = ROk s -> enclosed s) -> intact_prog (k r)) -> intact_prog (PTry p k)
| ip_fresh z p k : intact_prog p -> (forall r, (forall s l, r = ROk (s, l) -> enclosed s) -> intact_prog (k r)) -> intact_prog (PFresh z p k)
with intact_func : string -> func -> Prop :=
| if_arg name : intact_func name FnArg
| if_fragment name : intact_func name FnFragment
| if_join : intact_func "join" FnJoin
| if_custom name sg body : (forall l, intact_prog (body l)) -> intact_func name (FnCustom sg body).
Definition intact_env (e : env) : Prop := Forall (Forall (fun x => intact_func (fst x) (snd x))) e.

(** ... and query builders made of such parts. *)
Record intact_qb (q : qb) : Prop := {
  it_ctes : Forall (fun c => enclosed (c_name c) /\ intact (c_builder c)) (q_ctes q);
  it_tables : Forall (fun t => match ft_frag t with Some f => intact_frag f | None => True end) (q_tobjs q);
  it_selects : intact_frag (with_prefix (q_selects q) "");
  it_touches : intact_frag (q_touches q);
  it_conds : intact_frag (q_conds q);
  it_groups : intact_frag (q_groups q);
  it_orders : Forall (fun o => intact (fst o)) (q_orders q);
  it_unions : Forall intact (q_unions q) }.

(** Calls that give a query builder such parts. *)
Definition intact_call (o : qop) : Prop :=
  match o with
  | ODistinct | OLimit _ | OOffset _ | ODebug => True
  | OSelect bs | OGroupBy bs | OUnion bs => Forall intact bs
  | OFrom t => plain_text (fst t) = true /\ plain_text (snd t) = true /\ enclosed (fst t) /\ enclosed (snd t)
  | OJoin kind t on _ => plain_text kind = true /\ plain_text (fst t) = true /\ plain_text (snd t) = true /\
      enclosed kind /\ enclosed (fst t) /\ enclosed (snd t) /\ forall f, on = Some f -> intact_frag (with_prefix f "")
  | OWhere on => forall f, on = Some f -> intact_frag f
  | OWhere2 b op _ => intact b /\ plain_text op = true /\ starts is_digit op = false /\ enclosed op
  | OWhereIn b _ | OWhereNotIn b _ => intact b
  | OOrderBy b _ => intact b
  | OWith name b _ => enclosed name /\ intact b
  end.
