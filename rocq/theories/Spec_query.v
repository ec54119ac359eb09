(** Specification vocabulary for package sqlb. *)
From Coq Require Import Strings.String Strings.Ascii NArith ZArith List Bool.
From Verif Require Import GoStr GoNum Syntax Value Util Model Sqlf Sqlb Spec_syntax Spec_eval.
Import ListNotations.
Open Scope string_scope.

(* ------------------------------------------------------------------ *)
(** * Tables *)

(** A table (name, alias) is known by its alias if it has one; its text. *)
Definition known_as (t : string * string) : string := if is_empty (snd t) then fst t else snd t.
Definition table_text (t : string * string) : string := if is_empty (snd t) then fst t else fst t ++ " AS " ++ snd t.
(** A fragment with another prefix; with more fragments. *)
Definition prefixed (p : string) (f : fragment) : fragment :=
  Frag (f_raw f) (f_args f) (f_frags f) p (f_suffix f).
Definition more_frags (f : fragment) (l : list builder) : fragment :=
  Frag (f_raw f) (f_args f) (f_frags f ++ l)%list (f_prefix f) (f_suffix f).

(** The tables a builder mentions: those of its columns and its tables.  The
    inside of a subquery and of custom builders is not looked at, nor is the
    expression of a column that belongs to a table. *)
Inductive mentions : builder -> string -> Prop :=
| mn_frag raw args frags p s b t : In b frags -> mentions b t -> mentions (BFrag (Frag raw args frags p s)) t
| mn_col fo t : t <> "" -> mentions (BCol fo t) t
| mn_expr raw args frags p s b t : In b frags -> mentions b t -> mentions (BCol (Some (Frag raw args frags p s)) "") t
| mn_table t : mentions (BTable t) t
| mn_aliased n a : mentions (BTabAl n a) (known_as (n, a)).
(** A nil fragment where fragments are looked into. *)
Inductive has_nil : builder -> Prop :=
| hn_frag : has_nil BNilFrag
| hn_col : has_nil (BCol None "")
| hn_in raw args frags p s b : In b frags -> has_nil b -> has_nil (BFrag (Frag raw args frags p s))
| hn_expr raw args frags p s b : In b frags -> has_nil b -> has_nil (BCol (Some (Frag raw args frags p s)) "").

(** The builders of the clauses other than FROM. *)
Definition clause_builders (q : qb) : list builder :=
  ([BFrag (q_selects q); BFrag (q_touches q); BFrag (q_conds q); BFrag (q_groups q)] ++ map fst (q_orders q))%list.
(** The table known under a name; the main table. *)
Definition table_of (q : qb) (t : string) : option from_table :=
  match assoc t (q_tdict q) with Some id => nth_error (q_tobjs q) id | None => None end.
Definition main_of (q : qb) : option from_table :=
  match q_tables q with id :: _ => nth_error (q_tobjs q) id | [] => None end.

(** Tables needed: mentioned in a clause, or in the join of a needed table
    other than the main table. *)
Inductive needed (q : qb) : string -> Prop :=
| nd_clause b t : In b (clause_builders q) -> mentions b t -> needed q t
| nd_join t ft f u : needed q t -> table_of q t = Some ft -> option_map ft_names (main_of q) <> Some (ft_names ft) ->
    ft_frag ft = Some f -> mentions (BFrag f) u -> needed q u.
Definition undefined (q : qb) (t : string) : Prop := table_of q t = None.

(** What From and the joins establish: every known table is known by its own
    name and has a fragment without nil fragments, the listed tables exist. *)
Definition tables_ok (q : qb) : Prop :=
  (forall t id, assoc t (q_tdict q) = Some id ->
     exists ft f, nth_error (q_tobjs q) id = Some ft /\ known_as (ft_names ft) = t /\ ft_frag ft = Some f /\ ~ has_nil (BFrag f)) /\
  (forall id, In id (q_tables q) -> id < List.length (q_tobjs q)).

(** The table belongs in the query. *)
Definition belongs (q : qb) (ft : from_table) : Prop :=
  q_distinct q = false \/ ft_optional ft = false \/ option_map ft_names (main_of q) = Some (ft_names ft) \/
  exists t ft', needed q t /\ table_of q t = Some ft' /\ ft_names ft' = ft_names ft.

(** Common table expressions needed: named by a table of the query, or a
    dependency of a needed one. *)
Definition cte_of (q : qb) (c : string) : option cte := assoc c (q_cdict q).
Inductive cte_needed (q : qb) : string -> Prop :=
| cn_table id ft : In id (q_tables q) -> nth_error (q_tobjs q) id = Some ft -> belongs q ft ->
    cte_of q (fst (ft_names ft)) <> None -> cte_needed q (fst (ft_names ft))
| cn_dep c d x : cte_needed q c -> cte_of q c = Some d -> In x (c_deps d) -> cte_of q x <> None -> cte_needed q x.
(** No unaliased table has the name of a common table expression. *)
Definition ctes_aliased (q : qb) : Prop :=
  forall c id ft, cte_of q c <> None -> nth_error (q_tobjs q) id = Some ft -> ft_names ft <> (c, "").
(** What With establishes. *)
Definition ctes_ok (q : qb) : Prop :=
  (forall c d, cte_of q c = Some d -> c_name d = c) /\ (forall c, In c (q_ctes q) -> cte_of q (c_name c) <> None).

(* ------------------------------------------------------------------ *)
(** * The text of a query *)

(** The text of each clause; the hidden columns are those added for ordering. *)
Record sections := mkSections {
  s_with : list (string * string);  (* name and text of the common table expressions *)
  s_select : string; s_hidden : string;
  s_from : list string;             (* the main table and the joins *)
  s_where : string; s_group : string; s_order : string;
  s_limit : Z; s_offset : Z;
  s_union : option (list string) }.

Definition if_any (s : string) : list string := if is_empty s then [] else [s].
Definition with_clause (l : list (string * string)) : list string :=
  match filter (fun nt => negb (is_empty (snd nt))) l with
  | [] => []
  | l' => ["With " ++ str_join ", " (map (fun nt => fst nt ++ " AS (" ++ snd nt ++ ")") l')]
  end.
Definition number_clause (name : string) (z : Z) : list string := if (0 <? z)%Z then [name ++ itoa z] else [].
Definition layout (s : sections) : string :=
  let main := trim_space (str_join " "
    (with_clause (s_with s) ++
     [if is_empty (s_hidden s) then s_select s else s_select s ++ ", " ++ s_hidden s] ++
     ["FROM " ++ str_join " " (s_from s)] ++
     if_any (s_where s) ++ if_any (s_group s) ++ if_any (s_order s) ++
     number_clause "LIMIT " (s_limit s) ++ number_clause "OFFSET " (s_offset s))) in
  match s_union s with
  | None => main
  | Some us => trim_space (main ++ " UNION (" ++ str_join ") UNION (" (nonempty_items us) ++ ")")
  end.

(** The listed tables; a table without fragment builds to nothing. *)
Definition listed (q : qb) : list from_table := map (fun id => nth id (q_tobjs q) (mkFT ("", "") None false)) (q_tables q).
Definition table_builder (ft : from_table) : builder := match ft_frag ft with Some f => BFrag f | None => BNilFrag end.

(** ORDER BY items: the orders outside the constants are left out. *)
Definition order_words : list string :=
  ["ASC"; "ASC NULLS FIRST"; "ASC NULLS LAST"; "DESC"; "DESC NULLS FIRST"; "DESC NULLS LAST"].
Definition order_word (o : N) : option string := nth_error order_words (N.to_nat o).
(** The orders with their number (from 1) and word. *)
Fixpoint valid_orders (i : nat) (os : list (builder * N)) : list (nat * builder * string) :=
  match os with
  | [] => []
  | (b, o) :: os' =>
    match order_word o with
    | Some w => (i, b, w) :: valid_orders (S i) os'
    | None => valid_orders (S i) os'
    end
  end.
Definition order_alias (i : nat) : string := "_order_" ++ itoa_nat i.
Definition order_items (q : qb) : list builder :=
  map (fun x => let '(i, b, w) := x in
    if q_distinct q then BFrag (F (order_alias i ++ " " ++ w)) else BFrag (Ff ("#f1 " ++ w) [b]))
    (valid_orders 1 (q_orders q)).
Definition hidden_columns (q : qb) : list builder :=
  if q_distinct q then map (fun x => let '(i, b, w) := x in BFrag (Ff ("#f1 AS " ++ order_alias i) [b])) (valid_orders 1 (q_orders q))
  else [].
Definition order_errors (q : qb) : list err :=
  flat_map (fun x => match order_word (snd x) with Some _ => [] | None => [EMsg ("invalid order: " ++ itoa (Z.of_N (snd x)))] end) (q_orders q).
Definition order_clause (q : qb) : fragment := Frag "#join('#fragment', ', ')" [] (order_items q) "ORDER BY" "".
Definition select_clause (q : qb) : fragment := prefixed (if q_distinct q then "SELECT DISTINCT" else "SELECT") (q_selects q).
(** What building the ORDER BY and the SELECT clause writes to the builder. *)
Definition with_orders (q : qb) : qb :=
  set_errors (set_touches q (more_frags (q_touches q) (hidden_columns q))) (q_errors q ++ order_errors q)%list.
Definition with_select (q : qb) : qb := set_selects q (select_clause q).

(** The clauses in the order they are built: the common table expressions and
    the tables that are kept, WHERE, GROUP BY, ORDER BY, SELECT, the hidden
    columns and the unions. *)
Section Assembled.
Variable rb : builder -> store -> outcome string * store.
Variable keep_table : from_table -> bool.
Variable keep_cte : cte -> bool.
Inductive assembled (id : nat) (st : store) : sections -> store -> Prop :=
| asm q ctexts froms w g o s h us st1 st2 st3 st4 st5 st6 st7 st8 :
    q = get_q st id -> q_errors q = [] ->
    do_all (fun c => rb (c_builder c)) (filter keep_cte (q_ctes q)) st = (ROk ctexts, st1) ->
    do_all (fun ft => rb (table_builder ft)) (filter keep_table (listed q)) st1 = (ROk froms, st2) ->
    rb (BFrag (q_conds q)) st2 = (ROk w, st3) ->
    rb (BFrag (q_groups q)) st3 = (ROk g, st4) ->
    rb (BFrag (order_clause q)) (set_q st4 id (with_orders (get_q st4 id))) = (ROk o, st5) ->
    rb (BFrag (select_clause q)) (set_q st5 id (with_select (get_q st5 id))) = (ROk s, st6) -> is_empty s = false ->
    rb (BFrag (q_touches (get_q st6 id))) st6 = (ROk h, st7) ->
    do_all rb (q_unions q) st7 = (ROk us, st8) ->
    assembled id st
      (mkSections (combine (map c_name (filter keep_cte (q_ctes q))) ctexts) s h froms w g o (q_limit q) (q_offset q)
        (match q_unions q with [] => None | _ => Some us end)) st8.
End Assembled.

(** What building may change in a query builder: the prefix of SELECT, more
    hidden columns, more errors. *)
Definition evolved (q q' : qb) : Prop :=
  exists s bs es, q' = set_errors (set_touches (set_selects q s) (more_frags (q_touches q) bs)) (q_errors q ++ es)%list /\
    (s = q_selects q \/ s = select_clause q).
Definition evolves (st st' : store) : Prop :=
  List.length (st_heap st') = List.length (st_heap st) /\ forall id, evolved (get_q st id) (get_q st' id).

(** The tables and common table expressions that are kept: at least what the
    clauses need; exactly that if no unaliased table is named like a common
    table expression. *)
Definition selection (q : qb) (keep_table : from_table -> bool) (keep_cte : cte -> bool) : Prop :=
  (forall ft, In ft (listed q) -> belongs q ft -> keep_table ft = true) /\
  (forall ft c, In ft (listed q) -> keep_table ft = true -> In c (q_ctes q) -> c_name c = fst (ft_names ft) -> keep_cte c = true) /\
  (ctes_aliased q ->
    (forall ft, In ft (listed q) -> (keep_table ft = true <-> belongs q ft)) /\
    (forall c, In c (q_ctes q) -> (keep_cte c = true <-> cte_needed q (c_name c)))).

(* ------------------------------------------------------------------ *)
(** * Describing a query *)

(** The ON conditions contain no nil fragments. *)
Definition op_ok (o : qop) : Prop :=
  match o with OJoin _ _ (Some f) _ => ~ has_nil (BFrag f) | _ => True end.
(** From or a join without table name. *)
Definition nameless (o : qop) : bool :=
  match o with OFrom t => is_empty (fst t) | OJoin _ t _ _ => is_empty (fst t) | _ => false end.
Definition is_from (o : qop) : bool := match o with OFrom t => negb (is_empty (fst t)) | _ => false end.
Definition is_join (o : qop) : bool := match o with OJoin _ t _ _ => negb (is_empty (fst t)) | _ => false end.
Definition is_table_op (o : qop) : bool := match o with OFrom _ | OJoin _ _ _ _ => true | _ => false end.

(** What the calls say about each clause. *)
Definition selected (os : list qop) : list (list builder) := flat_map (fun o => match o with OSelect (b :: l) => [b :: l] | _ => [] end) os.
Definition grouped (os : list qop) : list builder := flat_map (fun o => match o with OGroupBy l => l | _ => [] end) os.
Definition united (os : list qop) : list builder := flat_map (fun o => match o with OUnion l => l | _ => [] end) os.
Definition ordered (os : list qop) : list (builder * N) := flat_map (fun o => match o with OOrderBy b o => [(b, o)] | _ => [] end) os.
Definition limits (os : list qop) : list Z := flat_map (fun o => match o with OLimit n => [n] | _ => [] end) os.
Definition offsets (os : list qop) : list Z := flat_map (fun o => match o with OOffset n => [n] | _ => [] end) os.
Definition withs (os : list qop) : list cte := flat_map (fun o => match o with OWith n b d => [mkCte n d b] | _ => [] end) os.
Definition flat (v : value) : list value := match args_flatted [v] with ROk a => a | _ => [] end.
Definition condition (o : qop) : list builder :=
  match o with
  | OWhere (Some f) => [BFrag f]
  | OWhere2 col op v => [BFrag (Frag ("#f1" ++ op ++ "$1") [v] [col] "" "")]
  | OWhereIn col l => [BFrag (Frag "#f1 IN (#join('#arg', ', '))" (flat l) [col] "" "")]
  | OWhereNotIn col l => [BFrag (Frag "#f1 NOT IN (#join('#arg', ', '))" (flat l) [col] "" "")]
  | _ => []
  end.
Definition conditions (os : list qop) : list builder := flat_map condition os.
Definition last_positive (l : list Z) : Z := last (filter (fun z => (0 <? z)%Z) l) 0%Z.
Definition is_distinct (o : qop) : bool := match o with ODistinct => true | _ => false end.
Definition is_debug (o : qop) : bool := match o with ODebug => true | _ => false end.
Definition joined_by (sep prefix : string) (bs : list builder) : fragment := Frag ("#join('#fragment', '" ++ sep ++ "')") [] bs prefix "".

(** The tables From and a join make. *)
Definition main_table (t : tname) : from_table := mkFT t (Some (F (table_text t))) false.
Definition join_table (kind : string) (t : tname) (on : fragment) (opt : bool) : from_table :=
  mkFT t (Some (Ff (kind ++ " " ++ table_text t ++ " #f1") [BFrag (prefixed "ON" on)])) opt.
(** The main table of a query with joins but no From. *)
Definition no_table : from_table := mkFT ("", "") None false.
(** No hidden columns and no invalid orders. *)
Definition steady (q : qb) : Prop := (q_distinct q = false \/ q_orders q = []) /\ order_errors q = [].
