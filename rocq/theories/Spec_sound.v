(** Vocabulary for what can be built. *)
From Coq Require Import Strings.String Strings.Ascii NArith ZArith List Bool.
From Verif Require Import GoStr GoNum Syntax Value Util Model Sqlf Sqlb Spec_syntax Spec_base Spec_eval Spec_query Spec_blame.
Import ListNotations.
Open Scope string_scope.

(** In Dollar style values are looked up, which needs a hash. *)
Definition storable (dollar : bool) (v : value) : Prop := dollar = true -> ~ unhashable v.
Definition inside (k : Z) (len : nat) : Prop := (1 <= k <= Z.of_nat len)%Z.
(** How many items a function value of a join template has. *)
Definition supply (nargs nfrags : nat) (f : func) : option nat :=
  match f with FnArg => Some nargs | FnFragment => Some nfrags | _ => None end.
(** [len] is the length of the shortest list that the parts of a join template
    run through; there is at least one list. *)
Definition shortest (e : env) (nargs nfrags : nat) (l : list aexpr) (len : nat) : Prop :=
  (exists nm f, In (AFunc nm) l /\ lookup_fn e nm = Some f /\ supply nargs nfrags f = Some len) /\
  (forall nm, In (AFunc nm) l -> exists f c, lookup_fn e nm = Some f /\ supply nargs nfrags f = Some c /\ len <= c).
Definition called_with (x : aexpr) : Prop := match x with AFunc _ => False | _ => True end.
(** The items [from] .. [to] that the numbers of a #join mean exist.  Without
    positive numbers there may be no items. *)
Definition available (nums : list lit) (len : nat) (from to : Z) : Prop :=
  range (map lit_int nums) (Z.of_nat len) from to /\ (to <= Z.of_nat len)%Z /\
  ((from <= to)%Z \/ forall x, In x nums -> (lit_int x <= 0)%Z).

(** [x] refers to argument ([k] is FnArg) or fragment ([k] is FnFragment) number
    [i], directly or through #join. *)
Inductive visits (e : env) (nargs nfrags : nat) (k : func) (i : Z) : aexpr -> Prop :=
| vs_bind st : k = FnArg -> visits e nargs nfrags k i (ABind st i)
| vs_call nm x : lookup_fn e nm = Some k -> lit_int x = i -> visits e nargs nfrags k i (ACall nm [x])
| vs_item nm tmpl sep nums l len from to nm' : lookup_fn e nm = Some FnJoin -> parsed tmpl = Some l ->
    shortest e nargs nfrags l len -> available nums len from to ->
    In (AFunc nm') l -> lookup_fn e nm' = Some k -> (from <= i <= to)%Z ->
    visits e nargs nfrags k i (ACall nm (LStr tmpl :: LStr sep :: nums))
| vs_inner nm tmpl sep nums l len from to x : lookup_fn e nm = Some FnJoin -> parsed tmpl = Some l ->
    shortest e nargs nfrags l len -> available nums len from to -> (from <= to)%Z ->
    In x l -> called_with x -> visits e nargs nfrags k i x ->
    visits e nargs nfrags k i (ACall nm (LStr tmpl :: LStr sep :: nums)).

(** The tables a query refers to are there. *)
Definition connected (q : qb) : Prop :=
  q_tables q <> [] /\ (forall b, In b (clause_builders q) -> ~ has_nil b) /\
  (forall t, needed q t -> exists ft f, table_of q t = Some ft /\ ft_frag ft = Some f /\ ~ has_nil (BFrag f)) /\
  (forall id, In id (q_tables q) \/ (exists t, assoc t (q_tdict q) = Some id) -> nth_error (q_tobjs q) id <> None).

Section Sound.
(** The query builders at the start. *)
Variable h : list qb.
(** The state while building: the style, and the query builders, which may have
    been built before. *)
Definition during (d : bool) (st : store) : Prop := st_dollar st = d /\ forall id, grown (nth id h new_qb) (nth id (st_heap st) new_qb).
(** [sound d e b]: there is nothing wrong with [b], with the functions [e], in
    Dollar style or not ([d]).
    [fine]: nothing is wrong with a part of a template, apart from the
    fragments it refers to; [sure]: user code that does not fail unless what it
    builds fails; [whole]: nothing is wrong with a query builder. *)
Inductive sound : bool -> env -> builder -> Prop :=
| sd_nilfrag d e : sound d e BNilFrag
| sd_frag d e raw args frags p s l : parsed raw = Some l ->
    (forall v, In v args -> storable d v) -> (forall b, In b frags -> sound d e b) ->
    (forall x, In x l -> fine d e (List.length args) (List.length frags) x) ->
    (forall i, inside i (List.length args) -> exists x, In x l /\ visits e (List.length args) (List.length frags) FnArg i x) ->
    (forall i, inside i (List.length frags) -> exists x, In x l /\ visits e (List.length args) (List.length frags) FnFragment i x) ->
    sound d e (BFrag (Frag raw args frags p s))
| sd_nocolumn d e t : sound d e (BCol None t)
| sd_column d e f t : sound d e (BFrag f) -> sound d e (BCol (Some f) t)
| sd_table d e t : sound d e (BTable t)
| sd_aliased d e n a : sound d e (BTabAl n a)
| sd_noquery d e : sound d e (BQuery None)
| sd_query d e id : (forall q, grown (nth id h new_qb) q -> whole d e q) -> sound d e (BQuery (Some id))
| sd_custom d e p : sure d e p -> sound d e (BCustom p)
with fine : bool -> env -> nat -> nat -> aexpr -> Prop :=
| fi_plain d e na nf t : fine d e na nf (APlain t)
| fi_bind d e na nf st i : inside i na -> fine d e na nf (ABind st i)
| fi_arg d e na nf nm x : lookup_fn e nm = Some FnArg -> number x -> inside (lit_int x) na -> fine d e na nf (ACall nm [x])
| fi_frag d e na nf nm x : lookup_fn e nm = Some FnFragment -> number x -> inside (lit_int x) nf -> fine d e na nf (ACall nm [x])
| fi_join d e na nf nm tmpl sep nums l len from to : lookup_fn e nm = Some FnJoin -> (forall x, In x nums -> number x) ->
    parsed tmpl = Some l -> shortest e na nf l len -> available nums len from to ->
    (forall x, In x l -> called_with x -> fine d e na nf x) ->
    fine d e na nf (ACall nm (LStr tmpl :: LStr sep :: nums))
| fi_custom d e na nf nm a sg body : lookup_fn e nm = Some (FnCustom sg body) -> proper (FnCustom sg body) ->
    takes (FnCustom sg body) (List.length a) -> all_fit (FnCustom sg body) a -> ~ some_defined (FnCustom sg body) (List.length a) ->
    sure d e (body a) -> fine d e na nf (ACall nm a)
with sure : bool -> env -> prog -> Prop :=
| su_return d e s : sure d e (PRet s None)
| su_commit d e v k : storable d v -> (forall s, sure d e (k s)) -> sure d e (PCommit v k)
| su_args d e k : (forall l, sure d e (k l)) -> sure d e (PArgs k)
| su_build d e fs b k : Forall registrable fs -> sound d (match fs with [] => e | _ => fs :: e end) b ->
    (forall s, sure d e (k (ROk s))) -> sure d e (PBuild fs b k)
| su_try d e p k : sure d e p -> (forall s, sure d e (k (ROk s))) -> sure d e (PTry p k)
| su_fresh d e z p k : sure (Z.eqb z style_dollar) [builtins] p -> (forall r, sure d e (k (ROk r))) -> sure d e (PFresh z p k)
with whole : bool -> env -> qb -> Prop :=
| wh_query d e q : q_errors q = [] -> q_debug q = false -> connected q ->
    (forall c, In c (q_ctes q) -> sound d e (c_builder c)) ->
    (forall ft, In ft (listed q) -> sound d e (table_builder ft)) ->
    sound d e (BFrag (q_conds q)) -> sound d e (BFrag (q_groups q)) -> sound d e (BFrag (order_clause q)) ->
    sound d e (BFrag (select_clause q)) -> sound d e (BFrag (q_touches q)) ->
    (forall n st st', during d st -> build n e (BFrag (select_clause q)) st <> (ROk "", st')) ->
    (forall b, In b (q_unions q) -> sound d e b) ->
    whole d e q.

(** What [b] builds to is not just white space. *)
Definition shows (d : bool) (e : env) (b : builder) : Prop :=
  forall n st s st', during d st -> build n e b st = (ROk s, st') -> ~ blank s.
(** Nothing is wrong with a query builder, in terms of what it was made of. *)
Definition fit (d : bool) (e : env) (q : qb) : Prop :=
  q_errors q = [] /\ q_debug q = false /\ connected q /\
  (forall c, In c (q_ctes q) -> sound d e (c_builder c)) /\
  (forall ft, In ft (listed q) -> sound d e (table_builder ft)) /\
  (forall b, In b (q_unions q) -> sound d e b) /\
  (forall b o, In (b, o) (q_orders q) -> sound d e b /\ order_word o <> None) /\
  (exists p1 p2 p3 p4 selected hidden conds groups,
    q_selects q = joined_by ", " p1 selected /\ q_touches q = joined_by ", " p2 hidden /\
    q_conds q = joined_by " AND " p3 conds /\ q_groups q = joined_by ", " p4 groups /\
    (forall b, In b (selected ++ hidden ++ conds ++ groups) -> sound d e b) /\
    exists b, In b selected /\ shows d e b).
End Sound.
(** The names that query builders use mean the functions they should. *)
Definition usual (e : env) : Prop :=
  lookup_fn e "join" = Some FnJoin /\ lookup_fn e "fragment" = Some FnFragment /\ lookup_fn e "f" = Some FnFragment /\ lookup_fn e "arg" = Some FnArg.

(** A call that describes a part of a query, with nothing wrong with it. *)
Definition good_call (h : list qb) (d : bool) (e : env) (o : qop) : Prop :=
  match o with
  | ODistinct | OLimit _ | OOffset _ => True
  | OSelect bs | OGroupBy bs | OUnion bs => forall b, In b bs -> sound h d e b
  | OFrom t => fst t <> "" /\ plain_text (table_text t) = true
  | OJoin kind t on _ => fst t <> "" /\ plain_text (kind ++ " " ++ table_text t ++ " ") = true /\ exists f, on = Some f /\ sound h d e (BFrag f)
  | OWhere on => forall f, on = Some f -> sound h d e (BFrag f)
  | OWhere2 b op v => sound h d e b /\ plain_text op = true /\ starts is_digit op = false /\ storable d v
  | OWhereIn b l | OWhereNotIn b l => sound h d e b /\ exists vs, args_flatted [l] = ROk vs /\ forall v, In v vs -> storable d v
  | OOrderBy b o => sound h d e b /\ order_word o <> None
  | OWith _ b _ => sound h d e b
  | ODebug => False
  end.
