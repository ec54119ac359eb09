(** Specification vocabulary for whole queries: a small SELECT statement, its
    text, its arguments, and the calls on a query builder that describe it. *)
From Coq Require Import Strings.String Strings.Ascii NArith ZArith List Bool.
From Verif Require Import GoStr GoNum Syntax Value Util Model Sqlf Sqlb Spec_syntax Spec_eval Spec_query.
Import ListNotations.
Open Scope string_scope.

(** Names: printable, no blanks and none of the characters a template gives a
    meaning to.  Operators may contain blanks but must not begin with a digit. *)
Definition word_char (a : ascii) : bool := in_range (code a) 33 126 && negb (special a).
Definition word (s : string) : bool := negb (is_empty s) && all word_char s.
Definition operator (s : string) : bool :=
  all (fun a => word_char a || Ascii.eqb a " ") s && negb (starts is_digit s).

(** Columns: table (may be empty) and name. *)
Definition col : Type := string * string.
Definition col_text (c : col) : string := if is_empty (fst c) then snd c else fst c ++ "." ++ snd c.
Definition col_ok (c : col) : bool := (is_empty (fst c) || word (fst c)) && word (snd c).
Definition col_call (c : col) : builder := column (fst c) (snd c).

(** Conditions. *)
Inductive cond :=
| Compare (c : col) (op : string) (v : value)
| Among (c : col) (l : value)
| NotAmong (c : col) (l : value).
Definition cond_col (x : cond) : col := match x with Compare c _ _ => c | Among c _ => c | NotAmong c _ => c end.
Definition cond_call (x : cond) : qop :=
  match x with
  | Compare c op v => OWhere2 (col_call c) op v
  | Among c l => OWhereIn (col_call c) l
  | NotAmong c l => OWhereNotIn (col_call c) l
  end.
Definition cond_ok (x : cond) : Prop :=
  col_ok (cond_col x) = true /\
  match x with
  | Compare _ op _ => operator op = true
  | Among _ l => exists vs, args_flatted [l] = ROk vs
  | NotAmong _ l => exists vs, args_flatted [l] = ROk vs
  end.
Definition cond_args (x : cond) : list value :=
  match x with Compare _ _ v => [v] | Among _ l => flat l | NotAmong _ l => flat l end.
(** [phs]: the placeholders of the arguments, in order. *)
Definition cond_text (x : cond) (phs : list string) : string :=
  match x with
  | Compare c op _ => col_text c ++ op ++ str_join "" phs
  | Among c _ => col_text c ++ " IN (" ++ str_join ", " phs ++ ")"
  | NotAmong c _ => col_text c ++ " NOT IN (" ++ str_join ", " phs ++ ")"
  end.
Fixpoint cond_texts (cs : list cond) (phs : list string) : list string :=
  match cs with
  | [] => []
  | x :: cs' =>
    let k := List.length (cond_args x) in
    cond_text x (firstn k phs) :: cond_texts cs' (skipn k phs)
  end.

(** Joins on the equality of two columns.  An optional join carries whether it
    appears in the statement. *)
Inductive join_kind := JInner | JLeft | JRight | JFull | JOptional (appears : bool).
Record join := mkJoin { j_kind : join_kind; j_table : tname; j_left : col; j_right : col }.
Definition kind_text (k : join_kind) : string :=
  match k with JInner => "INNER JOIN" | JLeft | JOptional _ => "LEFT JOIN" | JRight => "RIGHT JOIN" | JFull => "FULL JOIN" end.
Definition appears (j : join) : bool := match j_kind j with JOptional b => b | _ => true end.
Definition join_on (j : join) : option fragment := Some (Ff "#f1=#f2" [col_call (j_left j); col_call (j_right j)]).
Definition join_call (j : join) : qop :=
  match j_kind j with
  | JInner => OInnerJoin (j_table j) (join_on j)
  | JLeft => OLeftJoin (j_table j) (join_on j)
  | JRight => ORightJoin (j_table j) (join_on j)
  | JFull => OFullJoin (j_table j) (join_on j)
  | JOptional _ => OLeftJoinOptional (j_table j) (join_on j)
  end.
Definition join_sql (j : join) : string :=
  kind_text (j_kind j) ++ " " ++ table_text (j_table j) ++ " ON " ++ col_text (j_left j) ++ "=" ++ col_text (j_right j).
Definition table_ok (t : tname) : bool := word (fst t) && (is_empty (snd t) || word (snd t)).

(** A statement. *)
Record stmt := mkStmt {
  m_distinct : bool; m_cols : list col; m_main : tname; m_joins : list join;
  m_conds : list cond; m_groups : list col; m_orders : list (col * N); m_limit : Z; m_offset : Z }.
Definition m_tables (m : stmt) : list string := known_as (m_main m) :: map (fun j => known_as (j_table j)) (m_joins m).
Definition m_used (m : stmt) : list col :=
  (m_cols m ++ map cond_col (m_conds m) ++ m_groups m ++ map fst (m_orders m)
   ++ map j_left (m_joins m) ++ map j_right (m_joins m))%list.
Definition m_args (m : stmt) : list value := flat_map cond_args (m_conds m).
Definition m_shown (m : stmt) : list join := filter appears (m_joins m).

(** The tables needed: those of the columns of the clauses ([cs]: the columns of
    the conditions) and those of the ON conditions of needed tables. *)
Inductive needs (m : stmt) (cs : list col) : string -> Prop :=
| ns_col c : In c (m_cols m ++ cs ++ m_groups m ++ map fst (m_orders m)) -> fst c <> "" -> needs m cs (fst c)
| ns_join j c : needs m cs (known_as (j_table j)) -> In j (m_joins m) -> c = j_left j \/ c = j_right j -> fst c <> "" -> needs m cs (fst c).
(** An optional join of a SELECT DISTINCT appears exactly if its table is
    needed; of a SELECT, always. *)
Definition shown_ok (m : stmt) (cs : list col) : Prop :=
  forall j, In j (m_joins m) -> appears j = true <->
    (match j_kind j with JOptional _ => m_distinct m = true -> needs m cs (known_as (j_table j)) | _ => True end).

(** Something is selected, the names are good, no two tables are known by the
    same name, and the tables of all columns are in the statement. *)
Definition names_ok (m : stmt) : Prop :=
  m_cols m <> [] /\ table_ok (m_main m) = true /\ Forall (fun j => table_ok (j_table j) = true) (m_joins m) /\
  NoDup (m_tables m) /\ Forall (fun c => col_ok c = true /\ (fst c = "" \/ In (fst c) (m_tables m))) (m_used m) /\
  Forall cond_ok (m_conds m) /\ Forall (fun o => (snd o <= 5)%N) (m_orders m).
Definition stmt_ok (m : stmt) : Prop := names_ok m /\ shown_ok m (map cond_col (m_conds m)).

(** The ordering columns of a SELECT DISTINCT are also selected, under a name. *)
Definition nth_alias (i : nat) : string := "_order_" ++ itoa_nat i.
Definition order_texts (m : stmt) : list string :=
  map (fun x => let '(i, (c, o)) := x in
    (if m_distinct m then nth_alias i else col_text c) ++ " " ++ nth (N.to_nat o) order_words "")
    (combine (seq 1 (List.length (m_orders m))) (m_orders m)).
Definition hidden_texts (m : stmt) : list string :=
  if m_distinct m then
    map (fun x => col_text (fst (snd x)) ++ " AS " ++ nth_alias (fst x)) (combine (seq 1 (List.length (m_orders m))) (m_orders m))
  else [].
Definition list_clause (word sep : string) (l : list string) : list string :=
  match l with [] => [] | _ => [word ++ " " ++ str_join sep l] end.
Definition sql (m : stmt) (phs : list string) : string :=
  str_join " "
    (list_clause (if m_distinct m then "SELECT DISTINCT" else "SELECT") ", " (map col_text (m_cols m) ++ hidden_texts m) ++
     list_clause "FROM" " " (table_text (m_main m) :: map join_sql (m_shown m)) ++
     list_clause "WHERE" " AND " (cond_texts (m_conds m) phs) ++
     list_clause "GROUP BY" ", " (map col_text (m_groups m)) ++
     list_clause "ORDER BY" ", " (order_texts m) ++
     number_clause "LIMIT " (m_limit m) ++ number_clause "OFFSET " (m_offset m)).

(** The calls describe the statement, in whatever order the clauses are given. *)
Definition is_where (o : qop) : bool :=
  match o with OWhere (Some _) | OWhere2 _ _ _ | OWhereIn _ _ | OWhereNotIn _ _ => true | _ => false end.
Definition describes (os : list qop) (m : stmt) : Prop :=
  last (selected os) [] = map col_call (m_cols m) /\
  filter is_table_op os = OFrom (m_main m) :: map join_call (m_joins m) /\
  filter is_where os = map cond_call (m_conds m) /\
  grouped os = map col_call (m_groups m) /\
  ordered os = map (fun o => (col_call (fst o), snd o)) (m_orders m) /\
  last_positive (limits os) = m_limit m /\ last_positive (offsets os) = m_offset m /\
  existsb is_distinct os = m_distinct m /\ existsb is_debug os = false /\
  united os = [] /\ withs os = [].
(** A bound on the depth and the lengths of the lists of a statement. *)
Definition m_size (m : stmt) : nat :=
  List.length (m_cols m) + List.length (m_conds m) + List.length (m_args m) + List.length (m_groups m) + List.length (m_orders m).
