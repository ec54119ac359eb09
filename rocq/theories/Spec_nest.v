(** Specification vocabulary for statements made of several queries: common
    table expressions, subqueries in conditions, unions.  The queries are
    numbered and refer to each other by number. *)
From Coq Require Import Strings.String Strings.Ascii NArith ZArith List Bool.
From Verif Require Import GoStr GoNum Syntax Value Util Model Sqlf Sqlb Spec_syntax Spec_eval Spec_query Spec_sql.
Import ListNotations.
Open Scope string_scope.

(** Conditions: as before, or a column compared with a subquery. *)
Inductive xcond :=
| Plain (x : cond)
| Sub (c : col) (op : string) (id : nat).
(** A common table expression: its name, the tables it depends on, its query,
    and whether it appears in the statement. *)
Record with_item := mkWith { w_name : string; w_deps : list string; w_id : nat; w_emitted : bool }.
(** A query of the statement; [x_stmt] has no conditions of its own. *)
Record xstmt := mkX { x_stmt : stmt; x_withs : list with_item; x_conds : list xcond; x_unions : list nat }.

Definition query (id : nat) : builder := BQuery (Some id).
Definition xcond_call (x : xcond) : qop :=
  match x with
  | Plain x => cond_call x
  | Sub c op id => OWhere (Some (Ff ("#f1" ++ op ++ "(#f2)") [col_call c; query id]))
  end.
Definition xcond_col (x : xcond) : col := match x with Plain x => cond_col x | Sub c _ _ => c end.
Definition xcond_ok (x : xcond) : Prop :=
  match x with Plain x => cond_ok x | Sub c op _ => col_ok c = true /\ operator op = true end.

(** The common table expressions that appear: those naming a table that appears
    in the query and the dependencies of those that appear. *)
Definition sources (m : stmt) : list tname := m_main m :: map j_table (m_shown m).
Definition all_sources (m : stmt) : list tname := m_main m :: map j_table (m_joins m).
Inductive wanted (x : xstmt) : string -> Prop :=
| wt_table t w : In t (sources (x_stmt x)) -> In w (x_withs x) -> w_name w = fst t -> wanted x (w_name w)
| wt_dep w v : wanted x (w_name w) -> In w (x_withs x) -> In v (x_withs x) -> In (w_name v) (w_deps w) -> wanted x (w_name v).
(** Every common table expression names a table of the query, all joins of which
    appear; or no table without alias is named like a common table expression,
    and those that are wanted appear. *)
Definition withs_ok (x : xstmt) : Prop :=
  NoDup (map w_name (x_withs x)) /\
  (((forall j, In j (m_joins (x_stmt x)) -> appears j = true) /\
    (forall w, In w (x_withs x) -> w_emitted w = true /\ exists t, In t (sources (x_stmt x)) /\ fst t = w_name w)) \/
   ((forall w, In w (x_withs x) -> ~ In (w_name w, "") (all_sources (x_stmt x))) /\
    (forall w, In w (x_withs x) -> (w_emitted w = true <-> wanted x (w_name w))))).
Definition xstmt_ok (x : xstmt) : Prop :=
  names_ok (x_stmt x) /\ m_conds (x_stmt x) = [] /\ Forall xcond_ok (x_conds x) /\
  Forall (fun c => fst (xcond_col c) = "" \/ In (fst (xcond_col c)) (m_tables (x_stmt x))) (x_conds x) /\ withs_ok x /\
  shown_ok (x_stmt x) (map xcond_col (x_conds x)).

(** The calls describe the query. *)
Definition xdescribes (os : list qop) (x : xstmt) : Prop :=
  let m := x_stmt x in
  last (selected os) [] = map col_call (m_cols m) /\
  filter is_table_op os = OFrom (m_main m) :: map join_call (m_joins m) /\
  filter is_where os = map xcond_call (x_conds x) /\
  grouped os = map col_call (m_groups m) /\
  ordered os = map (fun o => (col_call (fst o), snd o)) (m_orders m) /\
  last_positive (limits os) = m_limit m /\ last_positive (offsets os) = m_offset m /\
  existsb is_distinct os = m_distinct m /\ existsb is_debug os = false /\
  united os = map query (x_unions x) /\
  withs os = map (fun w => mkCte (w_name w) (w_deps w) (query (w_id w))) (x_withs x).

(** ** Text and arguments *)

(** The placeholders are handed out in order. *)
Fixpoint share {A} (args : A -> list value) (text : A -> list string -> string) (l : list A) (phs : list string) : list string :=
  match l with
  | [] => []
  | a :: l' => let k := List.length (args a) in text a (firstn k phs) :: share args text l' (skipn k phs)
  end.
Definition emitted (x : xstmt) : list with_item := filter w_emitted (x_withs x).
(** From the texts of the common table expressions, the conditions and the
    united queries. *)
Definition xtext (x : xstmt) (ws cs us : list string) : string :=
  let m := x_stmt x in
  str_join " "
    (list_clause "With" ", " (map (fun wt => w_name (fst wt) ++ " AS (" ++ snd wt ++ ")") (combine (emitted x) ws)) ++
     list_clause (if m_distinct m then "SELECT DISTINCT" else "SELECT") ", " (map col_text (m_cols m) ++ hidden_texts m) ++
     list_clause "FROM" " " (table_text (m_main m) :: map join_sql (m_shown m)) ++
     list_clause "WHERE" " AND " cs ++
     list_clause "GROUP BY" ", " (map col_text (m_groups m)) ++
     list_clause "ORDER BY" ", " (order_texts m) ++
     number_clause "LIMIT " (m_limit m) ++ number_clause "OFFSET " (m_offset m) ++
     map (fun u => "UNION (" ++ u ++ ")") us).

Section Book.
Variable B : list xstmt.
(** The arguments of query [id]: those of the common table expressions, of the
    conditions, of the united queries.  [d] bounds the depth. *)
Definition xcond_args (sub : nat -> list value) (x : xcond) : list value :=
  match x with Plain x => cond_args x | Sub _ _ id => sub id end.
Fixpoint args_of (d : nat) (id : nat) : list value :=
  match d, nth_error B id with
  | S d', Some x =>
    (flat_map (fun w => args_of d' (w_id w)) (emitted x) ++ flat_map (xcond_args (args_of d')) (x_conds x)
     ++ flat_map (args_of d') (x_unions x))%list
  | _, _ => []
  end.
Definition xcond_text (sub : nat -> list string -> string) (x : xcond) (phs : list string) : string :=
  match x with Plain x => cond_text x phs | Sub c op id => col_text c ++ op ++ "(" ++ sub id phs ++ ")" end.
Fixpoint text_of (d : nat) (id : nat) (phs : list string) : string :=
  match d, nth_error B id with
  | S d', Some x =>
    let nw := List.length (flat_map (fun w => args_of d' (w_id w)) (emitted x)) in
    let nc := List.length (flat_map (xcond_args (args_of d')) (x_conds x)) in
    xtext x
      (share (fun w => args_of d' (w_id w)) (fun w => text_of d' (w_id w)) (emitted x) (firstn nw phs))
      (share (xcond_args (args_of d')) (xcond_text (text_of d')) (x_conds x) (firstn nc (skipn nw phs)))
      (share (args_of d') (text_of d') (x_unions x) (skipn nc (skipn nw phs)))
  | _, _ => ""
  end.
(** The queries used, by number, in the order they are built. *)
Definition refs (x : xstmt) : list nat :=
  (map w_id (emitted x) ++ flat_map (fun c => match c with Plain _ => [] | Sub _ _ id => [id] end) (x_conds x) ++ x_unions x)%list.
Fixpoint members (d : nat) (id : nat) : list nat :=
  match d, nth_error B id with S d', Some x => id :: flat_map (members d') (refs x) | _, _ => [] end.
(** Building a query with SELECT DISTINCT and ORDER BY changes its builder. *)
Definition changes (id : nat) : bool :=
  match nth_error B id with Some x => m_distinct (x_stmt x) && negb (Nat.eqb (List.length (m_orders (x_stmt x))) 0) | None => false end.
(** Such queries are used at one place only. *)
Definition used_once (d : nat) (id : nat) : Prop := NoDup (filter changes (members d id)).
(** The references end within depth [d]. *)
Fixpoint complete (d : nat) (id : nat) : Prop :=
  match d, nth_error B id with S d', Some x => forall j, In j (refs x) -> complete d' j | _, _ => False end.
(** A bound on the depth and the lengths of the lists. *)
Definition x_size (x : xstmt) : nat :=
  m_size (x_stmt x) + List.length (x_conds x) + list_sum (map (fun c => match c with Plain x => List.length (cond_args x) | Sub _ _ _ => 0 end) (x_conds x)).
Fixpoint size_of (d : nat) (id : nat) : nat :=
  match d, nth_error B id with S d', Some x => 5 + x_size x + list_sum (map (size_of d') (refs x)) | _, _ => 0 end.
End Book.
(** The calls describe the queries. *)
Definition book (oss : list (list qop)) (B : list xstmt) : Prop := Forall2 (fun os x => xstmt_ok x /\ xdescribes os x) oss B.
Definition made (oss : list (list qop)) (qs : list qb) : Prop := Forall2 (fun os q => apply_ops os new_qb = ROk q) oss qs.
