(** Model of package sqlb (/repo/sqlb) and of BuildQuery. *)
From Coq Require Import Strings.String Strings.Ascii NArith ZArith List Bool.
From Verif Require Import GoStr GoNum Syntax Value Util Model Sqlf.
Import ListNotations.
Open Scope string_scope.

(* ------------------------------------------------------------------ *)
(** * Tables and columns *)

(** preBuildColumn, table.go:33-41 *)
Definition prebuild_column (t name : string) : string :=
  if is_empty name then "" else if is_empty t then name else t ++ "." ++ name.
(** Table.Column, table.go:26-31 *)
Definition column (t name : string) : builder := BCol (Some (F (prebuild_column t name))) t.
(** Table.AnonymousColumn, table.go:63-68 *)
Definition anonymous_column (t name : string) : builder := BCol (Some (F name)) t.
(** TableAliased.Column, table_aliased.go:53-55 *)
Definition acolumn (t : tname) (name : string) : builder := column (applied t) name.
(** ExprColumn, table_column.go:41-45 *)
Definition expr_column (f : fragment) : builder := BCol (Some f) "".

(* ------------------------------------------------------------------ *)
(** * Construction *)

Definition join_comma : string := "#join('#fragment', ', ')".
Definition join_and : string := "#join('#fragment', ' AND ')".

(** NewQueryBuilder, query_builder.go:39-48 *)
Definition new_qb : qb :=
  mkQB [] [] [] [] []
    (with_prefix (F join_comma) "SELECT") (F join_comma) (with_prefix (F join_and) "WHERE")
    [] (with_prefix (F join_comma) "GROUP BY")
    false 0%Z 0%Z [] [] false.

Definition set_selects q x := mkQB (q_ctes q) (q_cdict q) (q_tobjs q) (q_tables q) (q_tdict q) x (q_touches q) (q_conds q) (q_orders q) (q_groups q) (q_distinct q) (q_limit q) (q_offset q) (q_unions q) (q_errors q) (q_debug q).
Definition set_touches q x := mkQB (q_ctes q) (q_cdict q) (q_tobjs q) (q_tables q) (q_tdict q) (q_selects q) x (q_conds q) (q_orders q) (q_groups q) (q_distinct q) (q_limit q) (q_offset q) (q_unions q) (q_errors q) (q_debug q).
Definition set_conds q x := mkQB (q_ctes q) (q_cdict q) (q_tobjs q) (q_tables q) (q_tdict q) (q_selects q) (q_touches q) x (q_orders q) (q_groups q) (q_distinct q) (q_limit q) (q_offset q) (q_unions q) (q_errors q) (q_debug q).
Definition set_orders q x := mkQB (q_ctes q) (q_cdict q) (q_tobjs q) (q_tables q) (q_tdict q) (q_selects q) (q_touches q) (q_conds q) x (q_groups q) (q_distinct q) (q_limit q) (q_offset q) (q_unions q) (q_errors q) (q_debug q).
Definition set_groups q x := mkQB (q_ctes q) (q_cdict q) (q_tobjs q) (q_tables q) (q_tdict q) (q_selects q) (q_touches q) (q_conds q) (q_orders q) x (q_distinct q) (q_limit q) (q_offset q) (q_unions q) (q_errors q) (q_debug q).
Definition set_distinct q x := mkQB (q_ctes q) (q_cdict q) (q_tobjs q) (q_tables q) (q_tdict q) (q_selects q) (q_touches q) (q_conds q) (q_orders q) (q_groups q) x (q_limit q) (q_offset q) (q_unions q) (q_errors q) (q_debug q).
Definition set_limit q x := mkQB (q_ctes q) (q_cdict q) (q_tobjs q) (q_tables q) (q_tdict q) (q_selects q) (q_touches q) (q_conds q) (q_orders q) (q_groups q) (q_distinct q) x (q_offset q) (q_unions q) (q_errors q) (q_debug q).
Definition set_offset q x := mkQB (q_ctes q) (q_cdict q) (q_tobjs q) (q_tables q) (q_tdict q) (q_selects q) (q_touches q) (q_conds q) (q_orders q) (q_groups q) (q_distinct q) (q_limit q) x (q_unions q) (q_errors q) (q_debug q).
Definition set_unions q x := mkQB (q_ctes q) (q_cdict q) (q_tobjs q) (q_tables q) (q_tdict q) (q_selects q) (q_touches q) (q_conds q) (q_orders q) (q_groups q) (q_distinct q) (q_limit q) (q_offset q) x (q_errors q) (q_debug q).
Definition set_errors q x := mkQB (q_ctes q) (q_cdict q) (q_tobjs q) (q_tables q) (q_tdict q) (q_selects q) (q_touches q) (q_conds q) (q_orders q) (q_groups q) (q_distinct q) (q_limit q) (q_offset q) (q_unions q) x (q_debug q).
Definition set_debug q x := mkQB (q_ctes q) (q_cdict q) (q_tobjs q) (q_tables q) (q_tdict q) (q_selects q) (q_touches q) (q_conds q) (q_orders q) (q_groups q) (q_distinct q) (q_limit q) (q_offset q) (q_unions q) (q_errors q) x.
Definition set_ctes q x y := mkQB x y (q_tobjs q) (q_tables q) (q_tdict q) (q_selects q) (q_touches q) (q_conds q) (q_orders q) (q_groups q) (q_distinct q) (q_limit q) (q_offset q) (q_unions q) (q_errors q) (q_debug q).
Definition set_tables q o t d := mkQB (q_ctes q) (q_cdict q) o t d (q_selects q) (q_touches q) (q_conds q) (q_orders q) (q_groups q) (q_distinct q) (q_limit q) (q_offset q) (q_unions q) (q_errors q) (q_debug q).

(** pushError, query_builder_errors.go:8-10.  The conversion of columns to
    builders, sqlb/util.go:5-11, is the identity here. *)
Definition push_error (q : qb) (e : err) : qb := set_errors q (q_errors q ++ [e])%list.

Fixpoint upd {A} (i : nat) (x : A) (l : list A) : list A :=
  match l, i with
  | [], _ => []
  | _ :: l', O => x :: l'
  | y :: l', S i' => y :: upd i' x l'
  end.

(** " AS alias", query_builder_join.go:15-18, 98-101 *)
Definition table_and_alias (t : tname) : string :=
  if is_empty (snd t) then fst t else fst t ++ " AS " ++ snd t.

(** From, query_builder_join.go:10-31 *)
Definition qb_from (t : tname) (q : qb) : qb :=
  if is_empty (fst t) then push_error q (EMsg "from table is empty") else
  let id := List.length (q_tobjs q) in
  let objs := (q_tobjs q ++ [mkFT t (Some (F (table_and_alias t))) false])%list in
  let tables := match q_tables q with [] => [id] | _ :: l => id :: l end in
  set_tables q objs tables ((applied t, id) :: q_tdict q).

(** The ON condition of join: a *Fragment, possibly nil. *)
Definition join_raw (kind : string) (t : tname) : string :=
  kind ++ " " ++ table_and_alias t ++ " #f1".

(** join, query_builder_join.go:81-117.  A nil [on] is dereferenced by
    on.WithPrefix (line 106).  The mutation of the caller's [on] fragment
    (its prefix becomes ON) is represented in the copy only. *)
Definition qb_join (kind : string) (t : tname) (on : option fragment) (optional : bool) (q : qb)
  : outcome qb :=
  if is_empty (fst t) then ROk (push_error q (EMsg "join table name is empty")) else
  let q1 := match q_tables q with
            | [] => set_tables q (q_tobjs q ++ [mkFT ("", "") None false])%list
                      [List.length (q_tobjs q)] (q_tdict q)
            | _ => q
            end in
  match on with
  | None => RPanic nil_deref
  | Some on =>
    let ft := mkFT t (Some (Ff (join_raw kind t) [BFrag (with_prefix on "ON")])) optional in
    match assoc (applied t) (q_tdict q1) with
    | Some id => ROk (set_tables q1 (upd id ft (q_tobjs q1)) (q_tables q1) (q_tdict q1))
    | None =>
      let id := List.length (q_tobjs q1) in
      ROk (set_tables q1 (q_tobjs q1 ++ [ft])%list (q_tables q1 ++ [id])%list
             ((applied t, id) :: q_tdict q1))
    end
  end.

(** The methods of *QueryBuilder that describe a query. *)
Inductive qop :=
| ODistinct                                   (* query_builder.go:51-54 *)
| OSelect (cols : list builder)               (* query_builder.go:57-63 *)
| OLimit (n : Z)                              (* query_builder.go:66-71 *)
| OOffset (n : Z)                             (* query_builder.go:74-79 *)
| OGroupBy (cols : list builder)              (* query_builder.go:82-87 *)
| OUnion (bs : list builder)                  (* query_builder.go:92-95 *)
| OFrom (t : tname)                           (* query_builder_join.go:10-31 *)
| OJoin (kind : string) (t : tname) (on : option fragment) (optional : bool)
| OWhere (f : option fragment)                (* query_builder_where.go:15-21 *)
| OWhere2 (col : builder) (op : string) (v : value)   (* query_builder_where.go:34-41 *)
| OWhereIn (col : builder) (l : value)        (* query_builder_where.go:44-50 *)
| OWhereNotIn (col : builder) (l : value)     (* query_builder_where.go:53-59 *)
| OOrderBy (col : builder) (o : N)            (* query_builder_order.go:37-40 *)
| OWith (name : string) (b : builder) (deps : list string) (* query_builder_with.go:27-36 *)
| ODebug.                                     (* query_builder_build.go:33-35 *)

(** InnerJoin .. CrossJoin, query_builder_join.go:34-78 *)
Definition OInnerJoin t on := OJoin "INNER JOIN" t on false.
Definition OLeftJoin t on := OJoin "LEFT JOIN" t on false.
Definition OLeftJoinOptional t on := OJoin "LEFT JOIN" t on true.
Definition ORightJoin t on := OJoin "RIGHT JOIN" t on false.
Definition OFullJoin t on := OJoin "FULL JOIN" t on false.
Definition OCrossJoin t := OJoin "CROSS JOIN" t None false.

Definition add_cond (q : qb) (f : fragment) : qb := set_conds q (append_frags (q_conds q) [BFrag f]).

Definition where_in (raw : string) (col : builder) (l : value) (q : qb) : outcome qb :=
  match args_flatted [l] with
  | ROk a => ROk (add_cond q (Frag raw a [col] "" ""))
  | RErr e => RErr e | RPanic e => RPanic e | RFuel => RFuel
  end.

Definition apply_op (o : qop) (q : qb) : outcome qb :=
  match o with
  | ODistinct => ROk (set_distinct q true)
  | OSelect [] => ROk q
  | OSelect cols => ROk (set_selects q (with_frags (q_selects q) cols))
  | OLimit n => ROk (if (0 <? n)%Z then set_limit q n else q)
  | OOffset n => ROk (if (0 <? n)%Z then set_offset q n else q)
  | OGroupBy cols => ROk (set_groups q (append_frags (q_groups q) cols))
  | OUnion bs => ROk (set_unions q (q_unions q ++ bs)%list)
  | OFrom t => ROk (qb_from t q)
  | OJoin kind t on opt => qb_join kind t on opt q
  | OWhere None => ROk q
  | OWhere (Some f) => ROk (add_cond q f)
  | OWhere2 col op v => ROk (add_cond q (Frag ("#f1" ++ op ++ "$1") [v] [col] "" ""))
  | OWhereIn col l => where_in "#f1 IN (#join('#arg', ', '))" col l q
  | OWhereNotIn col l => where_in "#f1 NOT IN (#join('#arg', ', '))" col l q
  | OOrderBy col o => ROk (set_orders q (q_orders q ++ [(col, o)])%list)
  | OWith name b deps =>
    let c := mkCte name deps b in
    ROk (set_ctes q (q_ctes q ++ [c])%list ((name, c) :: q_cdict q))
  | ODebug => ROk (set_debug q true)
  end.

Fixpoint apply_ops (os : list qop) (q : qb) : outcome qb :=
  match os with
  | [] => ROk q
  | o :: os' => match apply_op o q with ROk q' => apply_ops os' q' | r => r end
  end.

(* ------------------------------------------------------------------ *)
(** * Dependencies, query_builder_dependecy.go *)

Definition mem_str (s : string) (l : list string) : bool := existsb (String.eqb s) l.

(** collectTable, query_builder_dependecy.go:119-125 *)
Definition collect_table (t : string) (acc : list string) : list string :=
  if mem_str t acc then acc else (acc ++ [t])%list.

(** extractTables2, query_builder_dependecy.go:88-117; [None] = nil pointer panic. *)
Fixpoint extract1 (b : builder) (acc : list string) {struct b} : option (list string) :=
  match b with
  | BNil => Some acc
  | BNilFrag => None                        (* fragment.Fragments on nil *)
  | BFrag f => extract_frag f acc
  | BNilCol => Some acc
  | BCol fo t =>
    if is_empty t then
      match fo with
      | None => None                        (* column.fragment.Fragments on nil *)
      | Some f => extract_frag f acc
      end
    else Some (collect_table t acc)
  | BTable t => Some (collect_table t acc)
  | BTabAl n a => Some (collect_table (applied (n, a)) acc)
  | BQuery _ => Some acc
  | BCustom _ => Some acc
  end
with extract_frag (f : fragment) (acc : list string) {struct f} : option (list string) :=
  match f with
  | Frag _ _ frags _ _ =>
    (fix go (l : list builder) (acc : list string) {struct l} : option (list string) :=
       match l with
       | [] => Some acc
       | b :: l' => match extract1 b acc with Some acc' => go l' acc' | None => None end
       end) frags acc
  end.
Fixpoint extract_list (l : list builder) (acc : list string) : option (list string) :=
  match l with
  | [] => Some acc
  | b :: l' => match extract1 b acc with Some acc' => extract_list l' acc' | None => None end
  end.
(** extractTables, query_builder_dependecy.go:81-86 *)
Definition extract_tables (l : list builder) : option (list string) := extract_list l [].

Definition deps := list tname.
Definition dep_mem (t : tname) (d : deps) : bool := existsb (tname_eqb t) d.

(** collectDepsFromTable, query_builder_dependecy.go:60-79 *)
Fixpoint deps_table (n : nat) (q : qb) (t : string) (d : deps) {struct n} : outcome deps :=
  match n with
  | O => RFuel
  | S n' =>
    match assoc t (q_tdict q) with
    | None => RErr (EMsg ("from undefined: '" ++ t ++ "'"))
    | Some id =>
      match nth_error (q_tobjs q) id with
      | None => RPanic nil_deref            (* unreachable: dangling pointer *)
      | Some ft =>
        if dep_mem (ft_names ft) d then ROk d else
        let d' := ft_names ft :: d in
        match ft_frag ft with
        | None => RPanic nil_deref
        | Some f =>
          match extract_frag f [] with
          | None => RPanic nil_deref
          | Some ts =>
            (fix go (ts : list string) (d : deps) {struct ts} : outcome deps :=
               match ts with
               | [] => ROk d
               | ft :: ts' =>
                 if String.eqb ft t then go ts' d
                 else match deps_table n' q ft d with ROk d2 => go ts' d2 | r => r end
               end) ts d'
          end
        end
      end
    end
  end.

Fixpoint deps_tables (n : nat) (q : qb) (ts : list string) (d : deps) : outcome deps :=
  match ts with
  | [] => ROk d
  | t :: ts' => match deps_table n q t d with ROk d' => deps_tables n q ts' d' | r => r end
  end.

(** collectDepsFromCTE, query_builder_dependecy.go:43-58 *)
Fixpoint deps_cte (n : nat) (q : qb) (c : cte) (d : deps) {struct n} : outcome deps :=
  match n with
  | O => RFuel
  | S n' =>
    let key := (c_name c, "") in
    if dep_mem key d then ROk d else
    (fix go (l : list string) (d : deps) {struct l} : outcome deps :=
       match l with
       | [] => ROk d
       | x :: l' =>
         match assoc x (q_cdict q) with
         | Some c' => match deps_cte n' q c' d with ROk d' => go l' d' | r => r end
         | None => go l' d
         end
       end) (c_deps c) (key :: d)
  end.

(** The second loop of collectDependencies, query_builder_dependecy.go:32-39 *)
Fixpoint deps_ctes (n : nat) (q : qb) (ids : list nat) (d : deps) : outcome deps :=
  match ids with
  | [] => ROk d
  | id :: ids' =>
    match nth_error (q_tobjs q) id with
    | None => RPanic nil_deref              (* unreachable *)
    | Some ft =>
      if q_distinct q && ft_optional ft && negb (dep_mem (ft_names ft) d)
      then deps_ctes n q ids' d
      else match assoc (fst (ft_names ft)) (q_cdict q) with
           | Some c => match deps_cte n q c d with ROk d' => deps_ctes n q ids' d' | r => r end
           | None => deps_ctes n q ids' d
           end
    end
  end.

(** Enough fuel for both recursions: every call that recurses adds a key. *)
Definition deps_fuel (q : qb) : nat :=
  S (S (List.length (q_tobjs q) + List.length (q_cdict q))).

(** collectDependencies, query_builder_dependecy.go:10-41 *)
Definition collect_deps (q : qb) : outcome deps :=
  let bs := ([BFrag (q_selects q); BFrag (q_touches q); BFrag (q_conds q); BFrag (q_groups q)]
             ++ map fst (q_orders q))%list in
  match extract_tables bs with
  | None => RPanic nil_deref
  | Some ts =>
    match q_tables q with
    | [] => RPanic index_range
    | id :: _ =>
      match nth_error (q_tobjs q) id with
      | None => RPanic nil_deref            (* unreachable *)
      | Some ft =>
        match deps_tables (deps_fuel q) q ts [ft_names ft] with
        | ROk d => deps_ctes (deps_fuel q) q (q_tables q) d
        | r => r
        end
      end
    end
  end.

(* ------------------------------------------------------------------ *)
(** * Building, query_builder_build.go, query_builder_order.go *)

Definition get_q (st : store) (id : nat) : qb := nth id (st_heap st) new_qb.
Definition set_q (st : store) (id : nat) (q : qb) : store := set_heap st (upd id q (st_heap st)).

(** orders, query_builder_order.go:22-29 *)
Definition order_str (o : N) : string :=
  match o with
  | 0%N => "ASC" | 1%N => "ASC NULLS FIRST" | 2%N => "ASC NULLS LAST"
  | 3%N => "DESC" | 4%N => "DESC NULLS FIRST" | _ => "DESC NULLS LAST"
  end.
Definition max_order : N := 5.

(** query_builder_build.go:132, 179 (a struct, printed with %s),
    query_builder_order.go:46 *)
Definition in_cte (c : cte) (e : err) : err := EWrap ("build CTE '" ++ c_name c ++ "'") e.
Definition in_from (ft : from_table) (e : err) : err :=
  EWrap ("build FROM '{" ++ fst (ft_names ft) ++ " " ++ snd (ft_names ft) ++ "}'") e.
Definition bad_order (o : N) : err := EMsg ("invalid order: " ++ itoa (Z.of_N o)).

(** anyError, query_builder_errors.go:12-24 *)
Definition collected (es : list err) : err :=
  let newline := String (ascii_of_nat 10) "" in
  EMsg ("collected errors: " ++ newline ++ str_join "" (map (fun e => " - " ++ err_text e ++ newline) es)).

Section Build.
(** [rb]: build a builder in the current context. *)
Variable rb : builder -> store -> outcome string * store.

(** buildCTEs, query_builder_build.go:121-146 (loop) *)
Fixpoint build_ctes_loop (cs : list cte) (d : deps) (st : store) : outcome (list string) * store :=
  match cs with
  | [] => (ROk [], st)
  | c :: cs' =>
    if dep_mem (c_name c, "") d then
      match rb (c_builder c) st with
      | (ROk s, st') =>
        match build_ctes_loop cs' d st' with
        | (ROk l, st2) =>
          (ROk (if is_empty s then l else (c_name c ++ " AS (" ++ s ++ ")") :: l), st2)
        | r => r
        end
      | (RErr e, st') => (RErr (in_cte c e), st')
      | (RPanic e, st') => (RPanic e, st')
      | (RFuel, st') => (RFuel, st')
      end
    else build_ctes_loop cs' d st
  end.
Definition build_ctes (cs : list cte) (d : deps) (st : store) : outcome string * store :=
  match build_ctes_loop cs d st with
  | (ROk [], st') => (ROk "", st')
  | (ROk l, st') => (ROk ("With " ++ str_join ", " l), st')
  | (RErr e, st') => (RErr e, st')
  | (RPanic e, st') => (RPanic e, st')
  | (RFuel, st') => (RFuel, st')
  end.

Definition build_ofrag (f : option fragment) (st : store) : outcome string * store :=
  match f with None => rb BNilFrag st | Some f => rb (BFrag f) st end.

(** buildFrom, query_builder_build.go:171-184 *)
Fixpoint build_from_loop (distinct : bool) (fts : list from_table) (d : deps) (st : store)
  : outcome (list string) * store :=
  match fts with
  | [] => (ROk [], st)
  | ft :: fts' =>
    if distinct && ft_optional ft && negb (dep_mem (ft_names ft) d)
    then build_from_loop distinct fts' d st
    else
      match build_ofrag (ft_frag ft) st with
      | (ROk s, st') =>
        match build_from_loop distinct fts' d st' with
        | (ROk l, st2) => (ROk (s :: l), st2)
        | r => r
        end
      | (RErr e, st') => (RErr (in_from ft e), st')
      | (RPanic e, st') => (RPanic e, st')
      | (RFuel, st') => (RFuel, st')
      end
  end.
Definition from_tables (q : qb) : list from_table :=
  map (fun id => nth id (q_tobjs q) (mkFT ("", "") None false)) (q_tables q).
Definition build_from (q : qb) (d : deps) (st : store) : outcome string * store :=
  match build_from_loop (q_distinct q) (from_tables q) d st with
  | (ROk l, st') => (ROk ("FROM " ++ str_join " " l), st')
  | (RErr e, st') => (RErr e, st')
  | (RPanic e, st') => (RPanic e, st')
  | (RFuel, st') => (RFuel, st')
  end.

(** The loop of buildOrders, query_builder_order.go:44-63: returns the updated
    QueryBuilder and the ORDER BY items. *)
Fixpoint orders_loop (i : nat) (os : list (builder * N)) (q : qb) (items : list builder)
  : qb * list builder :=
  match os with
  | [] => (q, items)
  | (col, o) :: os' =>
    if N.ltb max_order o
    then orders_loop (S i) os' (push_error q (bad_order o)) items
    else if q_distinct q then
      let alias := "_order_" ++ itoa_nat (S i) in
      orders_loop (S i) os'
        (set_touches q (append_frags (q_touches q) [BFrag (Ff ("#f1 AS " ++ alias) [col])]))
        (items ++ [BFrag (F (alias ++ " " ++ order_str o))])%list
    else
      orders_loop (S i) os' q (items ++ [BFrag (Ff ("#f1 " ++ order_str o) [col])])%list
  end.
Definition build_orders (id : nat) (st : store) : outcome string * store :=
  let q := get_q st id in
  let '(q', items) := orders_loop 0 (q_orders q) q [] in
  rb (BFrag (Frag join_comma [] items "ORDER BY" "")) (set_q st id q').

(** buildSelects, query_builder_build.go:148-169 *)
Definition build_selects (id : nat) (st : store) : outcome string * store :=
  let q := get_q st id in
  let sel := with_prefix (q_selects q) (if q_distinct q then "SELECT DISTINCT" else "SELECT") in
  let st := set_q st id (set_selects q sel) in
  match rb (BFrag sel) st with
  | (ROk s, st') =>
    match rb (BFrag (q_touches (get_q st' id))) st' with
    | (ROk t, st2) =>
      if is_empty s then (RErr (EMsg "no columns selected"), st2)
      else if is_empty t then (ROk s, st2) else (ROk (s ++ ", " ++ t), st2)
    | r => r
    end
  | r => r
  end.

(** buildUnion, query_builder_build.go:186-199 *)
Fixpoint build_union_loop (bs : list builder) (st : store) : outcome (list string) * store :=
  match bs with
  | [] => (ROk [], st)
  | b :: bs' =>
    match rb b st with
    | (ROk s, st') =>
      match build_union_loop bs' st' with
      | (ROk l, st2) => (ROk (if is_empty s then l else s :: l), st2)
      | r => r
      end
    | (RErr e, st') => (RErr e, st')
    | (RPanic e, st') => (RPanic e, st')
    | (RFuel, st') => (RFuel, st')
    end
  end.
Definition build_union (bs : list builder) (st : store) : outcome string * store :=
  match build_union_loop bs st with
  | (ROk l, st') => (ROk ("UNION (" ++ str_join ") UNION (" l ++ ")"), st')
  | (RErr e, st') => (RErr e, st')
  | (RPanic e, st') => (RPanic e, st')
  | (RFuel, st') => (RFuel, st')
  end.

Definition bind (r : outcome string * store) (k : string -> store -> outcome string * store)
  : outcome string * store :=
  match r with (ROk s, st) => k s st | r => r end.

Definition nonempty (s : string) : list string := if is_empty s then [] else [s].

(** buildInternal, query_builder_build.go:38-119, for a non-nil builder (called
    by BuildFragment, lines 28-30).  The errors come first (anyError,
    query_builder_errors.go:12-24).
    Debug mode (line 111) only matters because Interpolate can panic. *)
Definition build_internal (id : nat) (st : store) : outcome string * store :=
  let q := get_q st id in
  match q_errors q with
  | _ :: _ => (RErr (collected (q_errors q)), st)
  | [] =>
    match collect_deps q with
    | RErr e => (RErr e, st)
    | RPanic e => (RPanic e, st)
    | RFuel => (RFuel, st)
    | ROk d =>
      bind (build_ctes (q_ctes q) d st) (fun sq st =>
      bind (build_from (get_q st id) d st) (fun from st =>
      bind (rb (BFrag (q_conds (get_q st id))) st) (fun wher st =>
      bind (rb (BFrag (q_groups (get_q st id))) st) (fun groupby st =>
      bind (build_orders id st) (fun order st =>
      let q := get_q st id in
      let limit := if (0 <? q_limit q)%Z then ["LIMIT " ++ itoa (q_limit q)] else [] in
      let offset := if (0 <? q_offset q)%Z then ["OFFSET " ++ itoa (q_offset q)] else [] in
      bind (build_selects id st) (fun sel st =>
      let clauses := (nonempty sq ++ [sel] ++ nonempty from ++ nonempty wher
                      ++ nonempty groupby ++ nonempty order ++ limit ++ offset)%list in
      let query := trim_space (str_join " " clauses) in
      let q := get_q st id in
      bind (match q_unions q with
            | [] => (ROk query, st)
            | us => bind (build_union us st) (fun u st => (ROk (trim_space (query ++ " " ++ u)), st))
            end) (fun query st =>
      if q_debug (get_q st id) then
        match interpolate (fun _ => "") query (st_args st) with
        | RPanic e => (RPanic e, st)
        | RFuel => (RFuel, st)
        | _ => (ROk query, st)
        end
      else (ROk query, st))))))))
    end
  end.
End Build.

(* ------------------------------------------------------------------ *)
(** * FragmentBuilder.BuildFragment for every kind of builder *)

Fixpoint build (n : nat) (e : env) (b : builder) (st : store) {struct n} : outcome string * store :=
  match n with
  | O => (RFuel, st)
  | S n' =>
    match b with
    | BNil => (RPanic nil_deref, st)                 (* method call on a nil interface *)
    | BNilFrag => (ROk "", st)                       (* build.go:26-28 *)
    | BFrag f => build_frag n' (build n') e f st
    | BNilCol => (RPanic nil_deref, st)              (* c.fragment, table_column.go:23 *)
    | BCol None _ => (ROk "", st)                    (* nil *Fragment *)
    | BCol (Some f) _ => build_frag n' (build n') e f st
    | BTable t => (ROk t, st)                        (* table.go:15-17 *)
    | BTabAl x a => (ROk (applied (x, a)), st)       (* table_aliased.go:8-10 *)
    | BQuery None => (ROk "", st)                    (* query_builder_build.go:39-41 *)
    | BQuery (Some id) => build_internal (build n' e) id st
    | BCustom p => run_prog (build n') e p st
    end
  end.

(** Fragment.BuildQuery build.go:14-22 and QueryBuilder.BuildQuery
    query_builder_build.go:17-25: a new context of the given style. *)
Definition build_query (n : nat) (style : Z) (h : list qb) (b : builder)
  : outcome (string * list value) * list qb :=
  let '(r, st) := build n [builtins] b (new_store style h) in
  (match r with
   | ROk s => ROk (s, st_args st)
   | RErr e => RErr e
   | RPanic e => RPanic e
   | RFuel => RFuel
   end, st_heap st).
