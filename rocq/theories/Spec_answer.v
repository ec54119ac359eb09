(** Specification vocabulary for the answers of statements: a small semantics of
    SELECT statements over databases. *)
From Coq Require Import Strings.String NArith ZArith List Bool Sorting.Permutation Sorting.Sorted.
From Verif Require Import GoStr Value Model Sqlb Spec_query Spec_sql.
Import ListNotations.
Open Scope string_scope.

(** A database: its values, with the null value and their equality; the rows of
    its tables; whether [=] holds, whether a condition holds of the value of its
    column; the value of an expression without table for the rows of a group;
    and the orders. *)
Definition row_of (V : Type) : Type := string -> V.
(** The rows of all tables of a statement, by the names the tables are known by. *)
Definition rows_of (V : Type) : Type := string -> row_of V.
Record database := mkDB {
  d_val : Type;
  d_null : d_val;
  d_same : d_val -> d_val -> bool;
  d_rows : string -> list (row_of d_val);
  d_equal : d_val -> d_val -> bool;
  d_holds : cond -> d_val -> bool;
  d_expr : string -> list (rows_of d_val) -> d_val;
  d_before : list N -> list d_val -> list d_val -> Prop;
  d_same_ok : forall a b, d_same a b = true <-> a = b }.

Section Answers.
Variable D : database.
Let row := row_of (d_val D).
Let rows := rows_of (d_val D).
Definition no_row : row := fun _ => d_null D.
Definition no_rows : rows := fun _ => no_row.
Definition bind (a : string) (r : row) (e : rows) : rows := fun x => if String.eqb x a then r else e x.

(** The value of a column for a group of rows (the first one counts). *)
Definition col_value (g : list rows) (c : col) : d_val D :=
  if is_empty (fst c) then d_expr D (snd c) g else hd no_rows g (fst c) (snd c).

(** FROM: the joins one after the other. *)
Definition on_holds (j : join) (e : rows) (r : row) : bool :=
  let e' := bind (known_as (j_table j)) r e in d_equal D (col_value [e'] (j_left j)) (col_value [e'] (j_right j)).
Definition partners (j : join) (e : rows) : list row := filter (on_holds j e) (d_rows D (fst (j_table j))).
Definition matched (j : join) (es : list rows) : list rows :=
  flat_map (fun e => map (fun r => bind (known_as (j_table j)) r e) (partners j e)) es.
Definition matched_or_null (j : join) (es : list rows) : list rows :=
  flat_map (fun e => match partners j e with
    | [] => [bind (known_as (j_table j)) no_row e]
    | rs => map (fun r => bind (known_as (j_table j)) r e) rs end) es.
Definition strangers (j : join) (es : list rows) : list rows :=
  map (fun r => bind (known_as (j_table j)) r no_rows)
    (filter (fun r => negb (existsb (fun e => on_holds j e r) es)) (d_rows D (fst (j_table j)))).
Definition join_rows (es : list rows) (j : join) : list rows :=
  match j_kind j with
  | JInner => matched j es
  | JLeft | JOptional _ => matched_or_null j es
  | JRight => matched j es ++ strangers j es
  | JFull => matched_or_null j es ++ strangers j es
  end.
Definition from_rows (m : stmt) : list rows :=
  fold_left join_rows (m_joins m) (map (fun r => bind (known_as (m_main m)) r no_rows) (d_rows D (fst (m_main m)))).

(** WHERE and GROUP BY.  A condition: a column and what must hold of its value. *)
Definition test : Type := col * (d_val D -> bool).
Definition tests (m : stmt) : list test := map (fun x => (cond_col x, d_holds D x)) (m_conds m).
Definition where_rows (m : stmt) (ts : list test) : list rows :=
  filter (fun e => forallb (fun t => snd t (col_value [e] (fst t))) ts) (from_rows m).
Definition same_key (cs : list col) (a b : rows) : bool :=
  forallb (fun c => d_same D (col_value [a] c) (col_value [b] c)) cs.
Fixpoint add_to (cs : list col) (e : rows) (gs : list (list rows)) : list (list rows) :=
  match gs with
  | [] => [[e]]
  | g :: gs' => if same_key cs (hd no_rows g) e then (g ++ [e])%list :: gs' else g :: add_to cs e gs'
  end.
Definition groups_of (m : stmt) (ts : list test) : list (list rows) :=
  match m_groups m with
  | [] => map (fun e => [e]) (where_rows m ts)
  | cs => fold_left (fun gs e => add_to cs e gs) (where_rows m ts) []
  end.
(** SELECT: the selected values, and those for ordering. *)
Definition result_row : Type := list (d_val D) * list (d_val D).
Definition results_where (m : stmt) (ts : list test) : list result_row :=
  map (fun g => (map (col_value g) (m_cols m), map (fun o => col_value g (fst o)) (m_orders m))) (groups_of m ts).
Definition results (m : stmt) : list result_row := results_where m (tests m).

(** DISTINCT, ORDER BY, LIMIT and OFFSET: [l] is an answer.  (The ordering
    columns of a SELECT DISTINCT are selected.) *)
Definition cut {A} (m : stmt) (l : list A) : list A :=
  let l' := if (0 <? m_offset m)%Z then skipn (Z.to_nat (m_offset m)) l else l in
  if (0 <? m_limit m)%Z then firstn (Z.to_nat (m_limit m)) l' else l'.
Definition answers_where (m : stmt) (ts : list test) (l : list result_row) : Prop :=
  exists s,
    (if m_distinct m then NoDup s /\ (forall x, In x s <-> In x (results_where m ts)) else Permutation s (results_where m ts)) /\
    StronglySorted (fun a b => d_before D (map snd (m_orders m)) (snd a) (snd b)) s /\
    l = cut m s.
Definition answers (m : stmt) (l : list result_row) : Prop := answers_where m (tests m) l.
End Answers.

(** The statement without the optional joins that do not appear. *)
Definition trimmed (m : stmt) : stmt :=
  mkStmt (m_distinct m) (m_cols m) (m_main m) (m_shown m) (m_conds m) (m_groups m) (m_orders m) (m_limit m) (m_offset m).

(** The conditions of the other joins mention only tables that appear. *)
Definition closed (m : stmt) : Prop :=
  forall j i, In j (m_joins m) -> In i (m_joins m) -> (match j_kind j with JOptional _ => False | _ => True end) ->
    known_as (j_table i) = fst (j_left j) \/ known_as (j_table i) = fst (j_right j) -> appears i = true.
(** What is selected and ordered by is grouped by, if anything is. *)
Definition by_groups (m : stmt) : Prop :=
  m_groups m = [] \/ incl (m_cols m ++ map fst (m_orders m)) (m_groups m).
(** Expressions without table do not depend on the tables. *)
Definition tableless_cols (D : database) (cs : list col) : Prop :=
  forall c g g', In c cs -> fst c = "" -> d_expr D (snd c) g = d_expr D (snd c) g'.
Definition tableless (D : database) (m : stmt) : Prop := tableless_cols D (m_used m).
