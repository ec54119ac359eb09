(** Properties C35-C48 and C56-C61 (package sqlb).  The vocabulary is in
    Spec_query.v; the proofs are in the *_proofs.v files. *)
From Coq Require Import Strings.String Strings.Ascii NArith ZArith List Bool Floats.SpecFloat.
From Verif Require Import GoStr GoNum Syntax Value Util Model Sqlf Sqlb Spec_syntax RefSem Spec_build Spec_eval Prop_eval
  Spec_query Query_proofs Ops_proofs Query2_proofs Clause_proofs Ops2_proofs Query3_proofs.
Import ListNotations.
Open Scope string_scope.

(** The query of a list of calls on a new builder. *)
Definition run (style : Z) (os : list qop) : outcome (string * list value) :=
  match apply_ops os new_qb with
  | ROk q => fst (build_query 60 style [q] (BQuery (Some 0)))
  | RErr e => RErr e | RPanic e => RPanic e | RFuel => RFuel
  end.
(** Its second build. *)
Definition rerun (style : Z) (os : list qop) : outcome (string * list value) :=
  match apply_ops os new_qb with
  | ROk q => fst (build_query 60 style (snd (build_query 60 style [q] (BQuery (Some 0)))) (BQuery (Some 0)))
  | RErr e => RErr e | RPanic e => RPanic e | RFuel => RFuel
  end.
Definition tA : tname := ("a", ""). Definition tB : tname := ("b", ""). Definition tC : tname := ("c", "").
Definition on (x y : builder) : option fragment := Some (Ff "#f1=#f2" [x; y]).

(** C35: the clauses in order; what each is; and the converse. *)
Theorem c35_clauses : forall n e id st sql st', build n e (BQuery (Some id)) st = (ROk sql, st') ->
  exists n' keep_table keep_cte secs, n = S n' /\ assembled (build n' e) keep_table keep_cte id st secs st' /\ sql = layout secs /\
    (tables_ok (get_q st id) -> ctes_ok (get_q st id) -> selection (get_q st id) keep_table keep_cte /\
       forall t, needed (get_q st id) t -> ~ undefined (get_q st id) t).
Proof. exact query_ok. Qed.
Print Assumptions c35_clauses.
Theorem c35_builds : forall id st m, let q := get_q st id in
  tables_ok q -> ctes_ok q -> main_of q = Some m -> (forall b, In b (clause_builders q) -> ~ has_nil b) ->
  (forall t, needed q t -> ~ undefined q t) -> q_debug q = false ->
  exists keep_table keep_cte, selection q keep_table keep_cte /\
    forall n e secs st', assembled (build n e) keep_table keep_cte id st secs st' ->
      build (S n) e (BQuery (Some id)) st = (ROk (layout secs), st').
Proof. exact query_builds. Qed.
Print Assumptions c35_builds.
(** What From, the joins and With establish. *)
Theorem c35_described : forall os q, Forall op_ok os -> apply_ops os new_qb = ROk q -> tables_ok q /\ ctes_ok q.
Proof. exact ops_ok. Qed.
Print Assumptions c35_described.
Definition everything : list qop :=
  [OLimit 5; OWith "x" (BFrag (F "SELECT 1")) []; OOrderBy (column "a" "n") 3; OGroupBy [column "a" "id"]; OUnion [BFrag (F "SELECT 2"); BFrag (F ""); BFrag (F "SELECT 3")];
   OWhere2 (column "a" "id") " = " (Int 7); OOffset 6; OSelect [column "a" "id"; column "b" "n"]; OFrom ("x", "a"); OInnerJoin tB (on (column "a" "id") (column "b" "id"));
   OWhere (Some (F "NOT hidden"))].
Example c35_example : Forall op_ok everything /\
  run style_dollar everything =
  ROk ("With x AS (SELECT 1) SELECT a.id, b.n FROM x AS a INNER JOIN b ON a.id=b.id WHERE a.id = $1 AND NOT hidden GROUP BY a.id ORDER BY a.n DESC LIMIT 5 OFFSET 6 UNION (SELECT 2) UNION (SELECT 3)", [Int 7]).
Proof.
  apply conj; [|vm_compute; reflexivity]. repeat constructor. intros H. inversion H; subst.
  repeat match goal with K : In _ _ |- _ => cbn in K | K : _ \/ _ |- _ => destruct K | K : False |- _ => destruct K end; subst;
  match goal with K : has_nil _ |- _ => inversion K end.
Qed.

(** C36 is false: the arguments of SELECT come after those of the clauses printed later. *)
Theorem c36_argument_order_refuted : forall v w,
  run style_question [OSelect [BFrag (Fa "$1 AS x" [v])]; OFrom tA; OWhere (Some (Fa "y=$1" [w]))]
  = ROk ("SELECT ? AS x FROM a WHERE y=?", [w; v]).
Proof. intros v w. vm_compute. reflexivity. Qed.
Print Assumptions c36_argument_order_refuted.
(** (Numbered placeholders are right.) *)
Example c36_example :
  run style_dollar [OSelect [BFrag (Fa "$1 AS x" [Int 1])]; OFrom tA; OWhere (Some (Fa "y=$1" [Int 2]))]
  = ROk ("SELECT $2 AS x FROM a WHERE y=$1", [Int 2; Int 1]).
Proof. vm_compute. reflexivity. Qed.

(** C37: every table that belongs in the query is kept; exactly those if no
    unaliased table has the name of a common table expression. *)
Theorem c37_joins : forall n e id st sql st', build n e (BQuery (Some id)) st = (ROk sql, st') ->
  let q := get_q st id in tables_ok q -> ctes_ok q ->
  exists n' keep_table keep_cte secs, n = S n' /\ assembled (build n' e) keep_table keep_cte id st secs st' /\ sql = layout secs /\
    (forall ft, In ft (listed q) -> belongs q ft -> keep_table ft = true) /\
    (ctes_aliased q -> forall ft, In ft (listed q) -> (keep_table ft = true <-> belongs q ft)).
Proof. exact joins_kept. Qed.
Print Assumptions c37_joins.
(** Otherwise an optional join that nothing needs can be kept: here y, because
    the common table expression y is emitted. *)
Theorem c37_unneeded_kept_refuted :
  run style_question [ODistinct; OWith "y" (BFrag (F "SELECT 1")) []; OWith "x" (BFrag (F "SELECT * FROM y")) ["y"];
    OSelect [column "a" "id"]; OFrom ("x", "a"); OLeftJoinOptional ("y", "") (on (column "a" "id") (column "y" "id"))]
  = ROk ("With y AS (SELECT 1), x AS (SELECT * FROM y) SELECT DISTINCT a.id FROM x AS a LEFT JOIN y ON a.id=y.id", []).
Proof. vm_compute. reflexivity. Qed.
Print Assumptions c37_unneeded_kept_refuted.
Example c37_example :
  let joins := [OLeftJoinOptional tB (on (column "a" "id") (column "b" "id")); OLeftJoinOptional tC (on (column "b" "id") (column "c" "id"));
                OLeftJoinOptional ("d", "") (on (column "a" "id") (column "d" "id"))] in
  run style_question (ODistinct :: OSelect [column "a" "id"; column "c" "n"] :: OFrom tA :: joins)
    = ROk ("SELECT DISTINCT a.id, c.n FROM a LEFT JOIN b ON a.id=b.id LEFT JOIN c ON b.id=c.id", []) /\
  run style_question (ODistinct :: OSelect [column "a" "id"] :: OFrom tA :: joins) = ROk ("SELECT DISTINCT a.id FROM a", []) /\
  run style_question (OSelect [column "a" "id"] :: OFrom tA :: joins)
    = ROk ("SELECT a.id FROM a LEFT JOIN b ON a.id=b.id LEFT JOIN c ON b.id=c.id LEFT JOIN d ON a.id=d.id", []).
Proof. repeat apply conj; vm_compute; reflexivity. Qed.

(** C38 is false: the ON condition of a join that is always kept may mention a
    trimmed table. *)
Theorem c38_closed_refuted :
  run style_question [ODistinct; OSelect [column "a" "id"]; OFrom tA; OLeftJoinOptional tB (on (column "a" "id") (column "b" "id"));
    OInnerJoin tC (on (column "c" "id") (column "b" "id"))]
  = ROk ("SELECT DISTINCT a.id FROM a INNER JOIN c ON c.id=b.id", []).
Proof. vm_compute. reflexivity. Qed.
Print Assumptions c38_closed_refuted.
(** What the other clauses need is known and kept. *)
Theorem c38_needed_kept : forall n e id st sql st', build n e (BQuery (Some id)) st = (ROk sql, st') ->
  let q := get_q st id in tables_ok q -> ctes_ok q ->
  exists n' keep_table keep_cte secs, n = S n' /\ assembled (build n' e) keep_table keep_cte id st secs st' /\ sql = layout secs /\
    forall t, needed q t -> exists ft, table_of q t = Some ft /\ (In ft (listed q) -> keep_table ft = true).
Proof. exact needed_kept. Qed.
Print Assumptions c38_needed_kept.
(** What a kept optional join mentions is needed. *)
Theorem c38_optional : forall n e id st sql st', build n e (BQuery (Some id)) st = (ROk sql, st') ->
  let q := get_q st id in tables_ok q -> ctes_ok q -> ctes_aliased q -> q_distinct q = true ->
  exists n' keep_table keep_cte secs, n = S n' /\ assembled (build n' e) keep_table keep_cte id st secs st' /\ sql = layout secs /\
    forall ft f t, In ft (listed q) -> keep_table ft = true -> ft_optional ft = true -> option_map ft_names (main_of q) <> Some (ft_names ft) ->
      table_of q (known_as (ft_names ft)) = Some ft -> ft_frag ft = Some f -> mentions (BFrag f) t -> needed q t.
Proof. exact optional_closed. Qed.
Print Assumptions c38_optional.

(** C39: the common table expressions. *)
Theorem c39_ctes : forall n e id st sql st', build n e (BQuery (Some id)) st = (ROk sql, st') ->
  let q := get_q st id in tables_ok q -> ctes_ok q ->
  exists n' keep_table keep_cte secs, n = S n' /\ assembled (build n' e) keep_table keep_cte id st secs st' /\ sql = layout secs /\
    map fst (s_with secs) = map c_name (filter keep_cte (q_ctes q)) /\
    (forall ft c, In ft (listed q) -> keep_table ft = true -> In c (q_ctes q) -> c_name c = fst (ft_names ft) -> keep_cte c = true) /\
    (ctes_aliased q -> forall c, In c (q_ctes q) -> (keep_cte c = true <-> cte_needed q (c_name c))).
Proof. exact ctes_kept. Qed.
Print Assumptions c39_ctes.
(** False without the condition: x needs y. *)
Theorem c39_lost_refuted :
  run style_question [OWith "y" (BFrag (F "SELECT 1")) []; OWith "x" (BFrag (F "SELECT * FROM y")) ["y"]; OSelect [column "x" "id"]; OFrom ("x", "")]
  = ROk ("With x AS (SELECT * FROM y) SELECT x.id FROM x", []).
Proof. vm_compute. reflexivity. Qed.
Print Assumptions c39_lost_refuted.
Example c39_example :
  run style_question [OWith "y" (BFrag (F "SELECT 1")) []; OWith "z" (BFrag (F "SELECT 3")) []; OWith "x" (BFrag (F "SELECT * FROM y")) ["y"];
    OSelect [column "a" "id"]; OFrom ("x", "a")]
  = ROk ("With y AS (SELECT 1), x AS (SELECT * FROM y) SELECT a.id FROM x AS a", []).
Proof. vm_compute. reflexivity. Qed.

(** C40 is false: hidden columns accumulate. *)
Theorem c40_rebuild_refuted : let os := [ODistinct; OSelect [column "a" "id"]; OFrom tA; OOrderBy (column "a" "x") 0] in
  run style_question os = ROk ("SELECT DISTINCT a.id, a.x AS _order_1 FROM a ORDER BY _order_1 ASC", []) /\
  rerun style_question os = ROk ("SELECT DISTINCT a.id, a.x AS _order_1, a.x AS _order_1 FROM a ORDER BY _order_1 ASC", []).
Proof. apply conj; vm_compute; reflexivity. Qed.
Print Assumptions c40_rebuild_refuted.
(** Every successful build adds the hidden columns and order errors. *)
Theorem c40_leaves : forall n e id st sql st', build n e (BQuery (Some id)) st = (ROk sql, st') ->
  exists bs bs' es es', q_touches (get_q st' id) = more_frags (q_touches (get_q st id)) (bs ++ hidden_columns (get_q st id) ++ bs') /\
    q_errors (get_q st' id) = (es ++ order_errors (get_q st id) ++ es')%list.
Proof. exact query_leaves. Qed.
Print Assumptions c40_leaves.
(** If no builder combines DISTINCT with ORDER BY and all orders are valid,
    building changes at most the prefix of SELECT and every build of anything
    gives the same. *)
Theorem c40_steady : forall n style h b, Forall steady h ->
  map with_select (snd (build_query n style h b)) = map with_select h /\
  forall h', map with_select h' = map with_select h -> fst (build_query n style h' b) = fst (build_query n style h b).
Proof. exact rebuild. Qed.
Print Assumptions c40_steady.
Example c40_example : exists q, apply_ops everything new_qb = ROk q /\ steady q.
Proof. eexists. split; [vm_compute; reflexivity|]. split; [left|]; vm_compute; reflexivity. Qed.

(** C41 is false: an invalid order is dropped by the first build; every later
    build fails. *)
Theorem c41_dropped_refuted : let os := [OSelect [column "a" "id"]; OFrom tA; OOrderBy (column "a" "x") 6] in
  run style_question os = ROk ("SELECT a.id FROM a", []) /\ exists er, rerun style_question os = RErr er.
Proof. apply conj; [|eexists]; vm_compute; reflexivity. Qed.
Print Assumptions c41_dropped_refuted.
Theorem c41_later_builds : forall n e id st sql st' b o, build n e (BQuery (Some id)) st = (ROk sql, st') ->
  In (b, o) (q_orders (get_q st id)) -> order_word o = None ->
  forall st2, evolves st' st2 -> forall n2 e2, exists er, build (S n2) e2 (BQuery (Some id)) st2 = (RErr er, st2).
Proof. exact query_invalid_order. Qed.
Print Assumptions c41_later_builds.
Theorem c41_words : forall o, order_word o = None <-> (6 <= o)%N.
Proof. exact order_words_iff. Qed.
Print Assumptions c41_words.

(** C42 is false: CrossJoin panics for every named table. *)
Theorem c42_cross_join_refuted : forall t q, fst t <> "" -> apply_op (OCrossJoin t) q = RPanic nil_deref.
Proof. exact nil_on_panics_cross. Qed.
Print Assumptions c42_cross_join_refuted.
(** So does every join with a nil condition; with an empty name the error is
    recorded. *)
Theorem c42_nil_condition : forall kind t opt q, apply_op (OJoin kind t None opt) q =
  if is_empty (fst t) then ROk (push_error q (EMsg "join table name is empty")) else RPanic nil_deref.
Proof. reflexivity. Qed.
Print Assumptions c42_nil_condition.
Example c42_example : exists er, run style_question [OSelect [column "a" "id"]; OFrom tA; OCrossJoin tB] = RPanic er.
Proof. eexists. vm_compute. reflexivity. Qed.

(** C43: undefined tables. *)
Theorem c43_undefined : forall n e id st m t, let q := get_q st id in
  tables_ok q -> ctes_ok q -> main_of q = Some m -> (forall b, In b (clause_builders q) -> ~ has_nil b) ->
  needed q t -> undefined q t -> exists er, build (S n) e (BQuery (Some id)) st = (RErr er, st).
Proof. exact query_undefined. Qed.
Print Assumptions c43_undefined.
Example c43_example :
  (exists er, run style_question [OSelect [BFrag (Ff "f(#f1)" [column "b" "id"])]; OFrom tA] = RErr er) /\
  (exists er, run style_question [OSelect [column "b" "id"]; OFrom tA; OLeftJoin tB (on (column "a" "id") (column "c" "id"))] = RErr er).
Proof. apply conj; eexists; vm_compute; reflexivity. Qed.

(** C44: an empty table name. *)
Theorem c44_empty_name : forall os q id st, apply_ops os new_qb = ROk q -> existsb nameless os = true -> get_q st id = q ->
  forall st2, evolves st st2 -> forall n e, exists er, build (S n) e (BQuery (Some id)) st2 = (RErr er, st2).
Proof. exact nameless_fails. Qed.
Print Assumptions c44_empty_name.
Example c44_example : let os := [OFrom ("", "x"); OSelect [column "a" "id"]; OFrom tA] in
  existsb nameless os = true /\ (exists q, apply_ops os new_qb = ROk q) /\ exists er, run style_question os = RErr er.
Proof. repeat apply conj; try eexists; vm_compute; reflexivity. Qed.

(** C45 is false: without From and joins the build panics ... *)
Theorem c45_no_table_refuted : forall os q id st n e, apply_ops os new_qb = ROk q -> existsb is_from os = false -> existsb is_join os = false -> existsb nameless os = false ->
  get_q st id = q -> exists er, build (S n) e (BQuery (Some id)) st = (RPanic er, st).
Proof. exact empty_panics. Qed.
Print Assumptions c45_no_table_refuted.
(** ... and with joins but no From the main table is missing from the text. *)
Theorem c45_no_from : forall os q n e id st sql st', existsb is_from os = false -> Forall op_ok os -> apply_ops os new_qb = ROk q ->
  get_q st id = q -> build n e (BQuery (Some id)) st = (ROk sql, st') ->
  exists n' kt kc secs l, n = S n' /\ assembled (build n' e) kt kc id st secs st' /\ sql = layout secs /\ s_from secs = "" :: l.
Proof. exact query_headless. Qed.
Print Assumptions c45_no_from.
Example c45_example :
  (exists er, run style_question [OSelect [column "a" "id"]] = RPanic er) /\
  run style_question [OSelect [column "a" "id"]; OInnerJoin tA (on (column "a" "id") (column "a" "x"))]
    = ROk ("SELECT a.id FROM  INNER JOIN a ON a.id=a.x", []).
Proof. apply conj; [eexists|]; vm_compute; reflexivity. Qed.

(** C46: LIMIT and OFFSET. *)
Theorem c46_limits : forall os q n e id st sql st', apply_ops os new_qb = ROk q -> get_q st id = q ->
  build n e (BQuery (Some id)) st = (ROk sql, st') ->
  exists secs, sql = layout secs /\ s_limit secs = last_positive (limits os) /\ s_offset secs = last_positive (offsets os).
Proof. exact limits_ok. Qed.
Print Assumptions c46_limits.
Example c46_example :
  run style_question [OLimit 3; OOffset 4; OSelect [column "a" "id"]; OFrom tA; OLimit 5; OLimit (-1); OOffset 0]
    = ROk ("SELECT a.id FROM a LIMIT 5 OFFSET 4", []) /\
  last_positive [3; 5; -1]%Z = 5%Z /\ last_positive [] = 0%Z /\ number_clause "LIMIT " 0 = [] /\ number_clause "LIMIT " 5 = ["LIMIT 5"].
Proof. repeat apply conj; vm_compute; reflexivity. Qed.

(** C47: unions; empty ones are skipped ... *)
Theorem c47_unions : forall n e id st sql st', build n e (BQuery (Some id)) st = (ROk sql, st') ->
  exists secs, sql = layout secs /\ (q_unions (get_q st id) = [] -> s_union secs = None) /\
    (q_unions (get_q st id) <> [] -> exists n' s0 us, n = S n' /\ do_all (build n' e) (q_unions (get_q st id)) s0 = (ROk us, st') /\ s_union secs = Some us).
Proof. exact union_texts. Qed.
Print Assumptions c47_unions.
(** ... but not if all are empty. *)
Theorem c47_all_empty_refuted : forall s us, s_union s = Some us -> nonempty_items us = [] ->
  layout s = trim_space (layout (mkSections (s_with s) (s_select s) (s_hidden s) (s_from s) (s_where s) (s_group s) (s_order s) (s_limit s) (s_offset s) None) ++ " UNION ()").
Proof. exact union_all_empty. Qed.
Print Assumptions c47_all_empty_refuted.
Example c47_example :
  run style_question [OSelect [column "a" "id"]; OFrom tA; OUnion [BFrag (F ""); BFrag (F "SELECT 2")]] = ROk ("SELECT a.id FROM a UNION (SELECT 2)", []) /\
  run style_question [OSelect [column "a" "id"]; OFrom tA; OUnion [BFrag (F ""); BQuery None]] = ROk ("SELECT a.id FROM a UNION ()", []).
Proof. apply conj; vm_compute; reflexivity. Qed.

(** C48 is false: after a second From the first table is still known. *)
Theorem c48_stale_refuted : forall q t1 t2, tables_ok q -> fst t1 <> "" -> fst t2 <> "" -> known_as t1 <> known_as t2 ->
  let q' := qb_from t2 (qb_from t1 q) in
  listed q' = main_table t2 :: tl (listed q) /\ ~ undefined q' (known_as t1) /\ table_of q' (known_as t1) = Some (main_table t1).
Proof. exact from_twice. Qed.
Print Assumptions c48_stale_refuted.
Example c48_example : run style_question [OSelect [column "a" "id"]; OFrom tA; OFrom tB] = ROk ("SELECT a.id FROM b", []).
Proof. vm_compute. reflexivity. Qed.

(** C56 is false: a WHERE condition (or column, group, order item) that fails
    with an invalid index is left out if it is the last ... *)
Theorem c56_dropped_refuted : forall n e sep prefix pre x st ss st1 o er st2,
  lookup_fn e "join" = Some FnJoin -> lookup_fn e "fragment" = Some FnFragment -> sep = ", " \/ sep = " AND " ->
  do_all (build (S (S n)) e) pre st = (ROk ss, st1) -> build (S (S n)) e x st1 = (o, st2) ->
  o = RErr er \/ o = RPanic er -> is_invalid_index er = true -> List.length pre <= n ->
  build (S (S (S n))) e (BFrag (joined_by sep prefix (pre ++ [x]))) st =
  (ROk (wrapped prefix (trim_space (str_join sep (nonempty_items ss))) ""), st2).
Proof. exact clause_drops. Qed.
Print Assumptions c56_dropped_refuted.
(** ... any other failure fails the clause. *)
Theorem c56_fails : forall n e sep prefix bs st o er st',
  lookup_fn e "join" = Some FnJoin -> lookup_fn e "fragment" = Some FnFragment -> sep = ", " \/ sep = " AND " ->
  do_all (build (S (S n)) e) bs st = (o, st') -> o = RErr er \/ o = RPanic er -> is_invalid_index er = false -> List.length bs <= n ->
  exists er2, build (S (S (S n))) e (BFrag (joined_by sep prefix bs)) st = (RErr er2, st').
Proof. exact clause_fails. Qed.
Print Assumptions c56_fails.
Example c56_example :
  let base := [OSelect [column "a" "id"]; OFrom tA] in
  run style_question (base ++ [OWhere (Some (F "x=1")); OWhere (Some (F "owner=#f1"))]) = ROk ("SELECT a.id FROM a WHERE x=1", []) /\
  run style_question (base ++ [OWhere (Some (F "owner=#arg1"))]) = ROk ("SELECT a.id FROM a", []) /\
  (exists er, run style_question (base ++ [OWhere (Some (F "owner=$1"))]) = RErr er) /\
  (exists er, run style_question (base ++ [OWhere (Some (F "owner=#f1")); OWhere (Some (F "x=1"))]) = RErr er).
Proof. repeat apply conj; try eexists; vm_compute; reflexivity. Qed.

(** C57: calls accumulate per clause; Select replaces. *)
Theorem c57_accumulate : forall os q, apply_ops os new_qb = ROk q ->
  q_selects q = joined_by ", " "SELECT" (last (selected os) []) /\
  q_conds q = joined_by " AND " "WHERE" (conditions os) /\
  q_groups q = joined_by ", " "GROUP BY" (grouped os) /\
  q_orders q = ordered os /\ q_unions q = united os /\ q_ctes q = withs os /\
  q_limit q = last_positive (limits os) /\ q_offset q = last_positive (offsets os) /\
  q_distinct q = existsb is_distinct os /\ q_debug q = existsb is_debug os /\ q_touches q = joined_by ", " "" [].
Proof. exact described_clauses. Qed.
Print Assumptions c57_accumulate.
Example c57_example : exists q, apply_ops everything new_qb = ROk q /\ List.length (conditions everything) = 2 /\
  run style_question [OSelect [column "a" "id"]; OFrom tA; OSelect [column "a" "x"; column "a" "y"]; OSelect []] = ROk ("SELECT a.x, a.y FROM a", []).
Proof. eexists. repeat apply conj; vm_compute; reflexivity. Qed.

(** C58: only the calls per clause matter, not how the clauses are interleaved. *)
Theorem c58_interleaving : forall os os' q q', apply_ops os new_qb = ROk q -> apply_ops os' new_qb = ROk q' ->
  filter is_table_op os = filter is_table_op os' -> last (selected os) [] = last (selected os') [] -> conditions os = conditions os' ->
  ordered os = ordered os' -> grouped os = grouped os' -> united os = united os' -> withs os = withs os' ->
  last_positive (limits os) = last_positive (limits os') -> last_positive (offsets os) = last_positive (offsets os') ->
  existsb is_distinct os = existsb is_distinct os' -> existsb is_debug os = existsb is_debug os' -> q = q'.
Proof. exact ops_determined. Qed.
Print Assumptions c58_interleaving.
Example c58_example :
  let os := [OFrom tA; OWhere (Some (F "x=1")); OSelect [column "a" "id"]; OLimit 2; ODistinct] in
  let os' := [ODistinct; OSelect [column "a" "id"]; OLimit 1; OLimit 2; OWhere (Some (F "x=1")); OFrom tA] in
  filter is_table_op os = filter is_table_op os' /\ conditions os = conditions os' /\ last_positive (limits os) = last_positive (limits os') /\
  run style_question os = run style_question os' /\ run style_question os = ROk ("SELECT DISTINCT a.id FROM a WHERE x=1 LIMIT 2", []).
Proof. repeat apply conj; vm_compute; reflexivity. Qed.

(** C59: From puts its table first; a join of a new name is added at the end; a
    join of a known name replaces the table of that name. *)
Theorem c59_from : forall t q, tables_ok q -> fst t <> "" -> listed (qb_from t q) = main_table t :: tl (listed q).
Proof. exact listed_from. Qed.
Print Assumptions c59_from.
Theorem c59_new : forall kind t on opt q q', tables_ok q -> fst t <> "" -> undefined q (known_as t) ->
  apply_op (OJoin kind t (Some on) opt) q = ROk q' ->
  listed q' = (match q_tables q with [] => [no_table] | _ => listed q end ++ [join_table kind t on opt])%list /\
  table_of q' (known_as t) = Some (join_table kind t on opt).
Proof. exact listed_join_new. Qed.
Print Assumptions c59_new.
Theorem c59_known : forall kind t on opt q q' id, tables_ok q -> fst t <> "" -> q_tables q <> [] -> assoc (known_as t) (q_tdict q) = Some id ->
  apply_op (OJoin kind t (Some on) opt) q = ROk q' ->
  listed q' = map (fun i => if Nat.eqb i id then join_table kind t on opt else nth i (q_tobjs q) no_table) (q_tables q) /\
  q_tables q' = q_tables q /\ table_of q' (known_as t) = Some (join_table kind t on opt).
Proof. exact listed_join_known. Qed.
Print Assumptions c59_known.
(** So "every join appears in the query" is false: after a second From a join
    of the first main table's name is lost, ... *)
Theorem c59_lost_refuted : forall q t1 t2 kind t on opt q', tables_ok q -> fst t1 <> "" -> fst t2 <> "" -> fst t <> "" -> known_as t1 <> known_as t2 -> known_as t = known_as t1 ->
  apply_op (OJoin kind t (Some on) opt) (qb_from t2 (qb_from t1 q)) = ROk q' ->
  listed q' = listed (qb_from t2 (qb_from t1 q)).
Proof. exact join_lost. Qed.
Print Assumptions c59_lost_refuted.
(** ... and a join of the main table's name takes its place. *)
Example c59_example :
  run style_question [OSelect [column "a" "id"]; OFrom tA; OFrom tB; OInnerJoin tA (on (column "a" "id") (column "b" "id"))] = ROk ("SELECT a.id FROM b", []) /\
  run style_question [OSelect [column "a" "id"]; OFrom tA; OInnerJoin ("c", "a") (on (column "a" "id") (column "a" "x"))]
    = ROk ("SELECT a.id FROM INNER JOIN c AS a ON a.id=a.x", []) /\
  run style_question [OSelect [column "a" "id"]; OFrom tA; OInnerJoin tB (on (column "a" "id") (column "b" "id")); OLeftJoin tC (on (column "a" "id") (column "c" "id"));
    OFullJoin ("d", "b") (on (column "a" "id") (column "b" "x"))]
    = ROk ("SELECT a.id FROM a FULL JOIN d AS b ON a.id=b.x LEFT JOIN c ON a.id=c.id", []).
Proof. repeat apply conj; vm_compute; reflexivity. Qed.

(** C60: what building anything, whether it succeeds or not, may change in the
    query builders. *)
Theorem c60_evolves : forall n e b st, evolves st (snd (build n e b st)).
Proof. exact evolves_build. Qed.
Print Assumptions c60_evolves.

(** C61: the texts of the parts of a query. *)
Theorem c61_column : forall n e t name st, plain_text t = true -> plain_text name = true ->
  build (S (S n)) e (column t name) st =
  (ROk (trim_space (if is_empty name then "" else if is_empty t then name else t ++ "." ++ name)), st).
Proof. exact column_text. Qed.
Print Assumptions c61_column.
Theorem c61_main : forall n e t st, plain_text (fst t) = true -> plain_text (snd t) = true ->
  build (S (S n)) e (BFrag (F (table_text t))) st = (ROk (trim_space (table_text t)), st).
Proof. exact main_text. Qed.
Print Assumptions c61_main.
Theorem c61_join : forall n e kind t raw args frags p s c st st', lookup_fn e "f" = Some FnFragment ->
  plain_text kind = true -> plain_text (fst t) = true -> plain_text (snd t) = true ->
  build (S n) e (BFrag (Frag raw args frags "" "")) st = (ROk c, st') ->
  build (S (S n)) e (table_builder (join_table kind t (Frag raw args frags p s) false)) st =
  (ROk (trim_space (kind ++ " " ++ table_text t ++ " " ++ wrapped "ON" c s)), st').
Proof. exact join_text. Qed.
Print Assumptions c61_join.
Theorem c61_where2 : forall n e op b v st t st1 ph st2, lookup_fn e "f" = Some FnFragment ->
  plain_text op = true -> starts is_digit op = false ->
  build (S n) e b st = (ROk t, st1) -> commit v st1 = (ROk ph, st2) ->
  build (S (S n)) e (BFrag (Frag ("#f1" ++ op ++ "$1") [v] [b] "" "")) st = (ROk (trim_space (t ++ op ++ ph)), st2).
Proof. exact compared. Qed.
Print Assumptions c61_where2.
Theorem c61_where_in : forall n e word b vs st t st1 phs st2, lookup_fn e "f" = Some FnFragment -> lookup_fn e "join" = Some FnJoin ->
  lookup_fn e "arg" = Some FnArg -> plain_text word = true -> starts is_digit word = false ->
  build (S (S n)) e b st = (ROk t, st1) -> do_all commit vs st1 = (ROk phs, st2) -> List.length vs <= n ->
  build (S (S (S n))) e (BFrag (Frag ("#f1" ++ word ++ "(#join('#arg', ', '))") vs [b] "" "")) st =
  (ROk (trim_space (t ++ word ++ "(" ++ str_join ", " (nonempty_items phs) ++ ")")), st2).
Proof. exact listed_in. Qed.
Print Assumptions c61_where_in.
Theorem c61_order : forall n e o w b st t st', lookup_fn e "f" = Some FnFragment -> order_word o = Some w ->
  build (S n) e b st = (ROk t, st') ->
  build (S (S n)) e (BFrag (Ff ("#f1 " ++ w) [b])) st = (ROk (trim_space (t ++ " " ++ w)), st').
Proof. exact order_text. Qed.
Print Assumptions c61_order.
Theorem c61_hidden : forall n e i b st t st', lookup_fn e "f" = Some FnFragment -> build (S n) e b st = (ROk t, st') ->
  build (S (S n)) e (BFrag (Ff ("#f1 AS " ++ order_alias i) [b])) st = (ROk (trim_space (t ++ " AS " ++ order_alias i)), st').
Proof. exact hidden_text. Qed.
Print Assumptions c61_hidden.
Theorem c61_clause : forall n e sep prefix bs st ss st', lookup_fn e "join" = Some FnJoin -> lookup_fn e "fragment" = Some FnFragment ->
  sep = ", " \/ sep = " AND " -> do_all (build (S (S n)) e) bs st = (ROk ss, st') -> List.length bs <= n ->
  build (S (S (S n))) e (BFrag (joined_by sep prefix bs)) st = (ROk (wrapped prefix (trim_space (str_join sep (nonempty_items ss))) ""), st').
Proof. exact clause_text. Qed.
Print Assumptions c61_clause.
Example c61_example :
  (lookup_fn [builtins] "f" = Some FnFragment /\ lookup_fn [builtins] "join" = Some FnJoin /\ lookup_fn [builtins] "arg" = Some FnArg) /\
  run style_question [OSelect [column "t" "id"; column "" "x"]; OFrom ("tab", "t"); OLeftJoin tB (on (column "t" "id") (column "b" "id"));
    OWhere2 (column "t" "id") " >= " (Int 3); OWhereIn (column "t" "id") (VSlice "[]int" (Some [Int 4; Int 5])); OWhereNotIn (column "t" "id") (VSlice "[]int" (Some []));
    OOrderBy (column "t" "id") 5]
  = ROk ("SELECT t.id, x FROM tab AS t LEFT JOIN b ON t.id=b.id WHERE t.id >= ? AND t.id IN (?, ?) AND t.id NOT IN () ORDER BY t.id DESC NULLS LAST", [Int 3; Int 4; Int 5]).
Proof. repeat apply conj; vm_compute; reflexivity. Qed.
