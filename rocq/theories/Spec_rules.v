(** What everything comes to: the rules of the whole library in one place,
    without reference to the way anything is computed.  User code alone is
    taken as it is. *)
From Coq Require Import Strings.String ZArith List Bool.
From Verif Require Import GoStr GoNum Syntax Value Util Model Sqlf Sqlb Spec_syntax RefSem Spec_build Spec_eval Spec_base Spec_query Spec_keep Spec_steps.
Import ListNotations.
Open Scope string_scope.

(** What is built for a query builder one after the other: a builder; the
    ORDER BY clause, which adds the hidden columns; the SELECT clause, which
    puts the prefix; the hidden columns. *)
Inductive job := JBuild (b : builder) | JOrders | JSelect | JHidden.
Definition job_builder (id : nat) (j : job) (st : store) : builder :=
  match j with
  | JBuild b => b
  | JOrders => BFrag (order_clause (get_q st id))
  | JSelect => BFrag (select_clause (get_q st id))
  | JHidden => BFrag (q_touches (get_q st id))
  end.
Definition job_state (id : nat) (j : job) (st : store) : store :=
  match j with
  | JOrders => set_q st id (with_orders (get_q st id))
  | JSelect => set_q st id (with_select (get_q st id))
  | _ => st
  end.
(** The clauses in their order, the unions apart. *)
Definition clause_jobs (q : qb) (kt : from_table -> bool) (kc : cte -> bool) : list job :=
  (map (fun c => JBuild (c_builder c)) (filter kc (q_ctes q)) ++
   map (fun ft => JBuild (table_builder ft)) (filter kt (listed q)) ++
   [JBuild (BFrag (q_conds q)); JBuild (BFrag (q_groups q)); JOrders; JSelect; JHidden])%list.
Definition union_jobs (q : qb) : list job := map JBuild (q_unions q).

Section Rules.
Variable e : env.

(** [makes b st r st']: the builder [b] in the state [st] comes to [r] and leaves
    the state [st'].  [part] and [parts]: a part of a template and its parts from
    left to right, of a fragment with these arguments and fragments, having used
    the arguments [ua] and the fragments [uf].  [turns]: the rounds of a #join.
    [series]: jobs one after the other, up to the first that lacks something. *)
Inductive makes : builder -> store -> result -> store -> Prop :=
| mk_none b st : In b [BNilFrag; BQuery None] -> makes b st (Gives "") st
| mk_no_column t st : makes (BCol None t) st (Gives "") st
| mk_table t st : makes (BTable t) st (Gives t) st
| mk_aliased n a st : makes (BTabAl n a) st (Gives (known_as (n, a))) st
| mk_fragment raw args frags p s st l body ua uf st' : parsed raw = Some l ->
    parts args frags l st (Gives body) ua uf st' -> covers ua args -> covers uf frags ->
    makes (BFrag (Frag raw args frags p s)) st (Gives (wrapped p (trim_space body) s)) st'
| mk_fragment_lacks raw args frags p s st l ua uf st' : parsed raw = Some l ->
    parts args frags l st Lacks ua uf st' -> makes (BFrag (Frag raw args frags p s)) st Lacks st'
| mk_column f t st r st' : makes (BFrag f) st r st' -> makes (BCol (Some f) t) st r st'
| mk_custom p st s st' : returns e p st (ROk s) st' -> makes (BCustom p) st (Gives s) st'
| mk_custom_lacks p st o st' : returns e p st o st' -> wanting o -> makes (BCustom p) st Lacks st'
| mk_query id st q kt kc ctexts froms w g o s h us st1 st2 : q = get_q st id -> q_errors q = [] -> sound_query q -> choice q kt kc ->
    series id (clause_jobs q kt kc) st (Some (ctexts ++ froms ++ [w; g; o; s; h]))%list st1 ->
    List.length ctexts = List.length (filter kc (q_ctes q)) -> s <> "" ->
    series id (union_jobs q) st1 (Some us) st2 ->
    makes (BQuery (Some id)) st (Gives (layout
      (mkSections (combine (map c_name (filter kc (q_ctes q))) ctexts) s h froms w g o (q_limit q) (q_offset q)
        (match q_unions q with [] => None | _ => Some us end)))) st2
| mk_query_lacks id st q kt kc st1 : q = get_q st id -> q_errors q = [] -> sound_query q -> choice q kt kc ->
    series id (clause_jobs q kt kc) st None st1 -> makes (BQuery (Some id)) st Lacks st1
| mk_union_lacks id st q kt kc before w g o s h st1 st2 : q = get_q st id -> q_errors q = [] -> sound_query q -> choice q kt kc ->
    series id (clause_jobs q kt kc) st (Some (before ++ [w; g; o; s; h]))%list st1 -> s <> "" ->
    series id (union_jobs q) st1 None st2 -> makes (BQuery (Some id)) st Lacks st2
with part : list value -> list builder -> aexpr -> store -> result -> list Z -> list Z -> store -> Prop :=
| pt_text args frags t st : part args frags (APlain t) st (Gives t) [] [] st
| pt_bind args frags sty i v st s st' : nth1 args i = Some v -> commit v st = (ROk s, st') ->
    part args frags (ABind sty i) st (Gives s) [i] [] st'
| pt_arg args frags nm a v st s st' : lookup_fn e nm = Some FnArg -> is_num a -> nth1 args (lit_int a) = Some v ->
    commit v st = (ROk s, st') -> part args frags (ACall nm [a]) st (Gives s) [lit_int a] [] st'
| pt_no_arg args frags nm a st : lookup_fn e nm = Some FnArg -> is_num a -> nth1 args (lit_int a) = None ->
    part args frags (ACall nm [a]) st Lacks [] [] st
| pt_frag args frags nm a b st s st' : lookup_fn e nm = Some FnFragment -> is_num a -> nth1 frags (lit_int a) = Some b ->
    makes b st (Gives s) st' -> part args frags (ACall nm [a]) st (Gives s) [] [lit_int a] st'
| pt_no_frag args frags nm a st : lookup_fn e nm = Some FnFragment -> is_num a -> nth1 frags (lit_int a) = None ->
    part args frags (ACall nm [a]) st Lacks [] [] st
| pt_frag_lacks args frags nm a b st st' : lookup_fn e nm = Some FnFragment -> is_num a -> nth1 frags (lit_int a) = Some b ->
    makes b st Lacks st' -> part args frags (ACall nm [a]) st Lacks [] [lit_int a] st'
| pt_custom args frags nm sg body l st o s st' : lookup_fn e nm = Some (FnCustom sg body) -> suits (FnCustom sg body) l ->
    returns e (body l) st o st' -> norm_outs (fs_outs sg) o = ROk s -> part args frags (ACall nm l) st (Gives s) [] [] st'
| pt_custom_lacks args frags nm sg body l st o st' : lookup_fn e nm = Some (FnCustom sg body) -> suits (FnCustom sg body) l ->
    returns e (body l) st o st' -> wanting (norm_outs (fs_outs sg) o) -> part args frags (ACall nm l) st Lacks [] [] st'
| pt_join args frags nm tmpl sep nums tl from to st st1 ss ua uf st' : lookup_fn e nm = Some FnJoin -> Forall is_num nums ->
    limits (map lit_int nums) from to -> parsed tmpl = Some tl -> functions_of tl <> [] -> accepts e (functions_of tl) st st1 ->
    turns args frags tl from to (Z.max 1 from) st1 (Some ss) ua uf st' ->
    part args frags (ACall nm (LStr tmpl :: LStr sep :: nums)) st (Gives (str_join sep (nonempty_items ss))) ua uf st'
| pt_join_lacks args frags nm tmpl sep nums tl from to st st1 ua uf st' : lookup_fn e nm = Some FnJoin -> Forall is_num nums ->
    limits (map lit_int nums) from to -> parsed tmpl = Some tl -> functions_of tl <> [] -> accepts e (functions_of tl) st st1 ->
    turns args frags tl from to (Z.max 1 from) st1 None ua uf st' ->
    part args frags (ACall nm (LStr tmpl :: LStr sep :: nums)) st Lacks ua uf st'
(** The parts of a template from left to right. *)
with parts : list value -> list builder -> list aexpr -> store -> result -> list Z -> list Z -> store -> Prop :=
| pa_nil args frags st : parts args frags [] st (Gives "") [] [] st
| pa_cons args frags x l st s ua uf st1 s2 ua2 uf2 st2 : part args frags x st (Gives s) ua uf st1 -> parts args frags l st1 (Gives s2) ua2 uf2 st2 ->
    parts args frags (x :: l) st (Gives (s ++ s2)) (ua ++ ua2) (uf ++ uf2) st2
| pa_here args frags x l st ua uf st1 : part args frags x st Lacks ua uf st1 -> parts args frags (x :: l) st Lacks ua uf st1
| pa_later args frags x l st s ua uf st1 ua2 uf2 st2 : part args frags x st (Gives s) ua uf st1 -> parts args frags l st1 Lacks ua2 uf2 st2 ->
    parts args frags (x :: l) st Lacks (ua ++ ua2) (uf ++ uf2) st2
(** The rounds from [i] on: the last is the upper limit if there is one;
    otherwise the one before something is lacking, which must not be lacking in
    the first round if a lower limit was given. *)
with turns : list value -> list builder -> list aexpr -> Z -> Z -> Z -> store -> option (list string) -> list Z -> list Z -> store -> Prop :=
| tn_last args frags tl from to i st s ua uf st' : (0 < to)%Z -> (to <= i)%Z ->
    parts args frags (map (at_round i) tl) st (Gives s) ua uf st' -> turns args frags tl from to i st (Some [s]) ua uf st'
| tn_more args frags tl from to i st s ua uf st1 r ua2 uf2 st2 : ~ (0 < to <= i)%Z ->
    parts args frags (map (at_round i) tl) st (Gives s) ua uf st1 -> turns args frags tl from to (i + 1) st1 r ua2 uf2 st2 ->
    turns args frags tl from to i st (option_map (cons s) r) (ua ++ ua2) (uf ++ uf2) st2
| tn_end args frags tl from to i st ua uf st' : ~ (0 < from /\ i = from)%Z -> ~ (0 < to /\ i <= to)%Z ->
    parts args frags (map (at_round i) tl) st Lacks ua uf st' -> turns args frags tl from to i st (Some []) ua uf st'
| tn_lacks args frags tl from to i st ua uf st' : (0 < from /\ i = from)%Z \/ (0 < to /\ i <= to)%Z ->
    parts args frags (map (at_round i) tl) st Lacks ua uf st' -> turns args frags tl from to i st None ua uf st'
with series : nat -> list job -> store -> option (list string) -> store -> Prop :=
| sr_none id st : series id [] st (Some []) st
| sr_more id j l st s st1 r st2 : makes (job_builder id j st) (job_state id j st) (Gives s) st1 -> series id l st1 r st2 ->
    series id (j :: l) st (option_map (cons s) r) st2
| sr_lacks id j l st st1 : makes (job_builder id j st) (job_state id j st) Lacks st1 -> series id (j :: l) st None st1.
End Rules.

(** The query builders are as From, the joins and With leave them and do not
    print what they build. *)
Definition heap_ok (st : store) : Prop :=
  forall id, tables_ok (get_q st id) /\ ctes_ok (get_q st id) /\ q_debug (get_q st id) = false.
