(** Specification vocabulary for the answers of statements made of several
    queries (Spec_nest.v): common table expressions are tables for the queries
    that follow, subqueries give the values a column is compared with, united
    queries give their rows together. *)
From Coq Require Import Strings.String NArith ZArith List Bool.
From Verif Require Import GoStr Value Model Sqlb Spec_query Spec_sql Spec_nest Spec_answer.
Import ListNotations.
Open Scope string_scope.

(** The database with other rows in its tables. *)
Definition with_rows (D : database) (E : string -> list (row_of (d_val D))) : database :=
  mkDB (d_val D) (d_null D) (d_same D) E (d_equal D) (d_holds D) (d_expr D) (d_before D) (d_same_ok D).

Section Nested.
Variable D : database.
(** Whether a comparison of a value with the rows of a subquery holds, by operator. *)
Variable sub_holds : string -> d_val D -> list (list (d_val D)) -> bool.
Let tables : Type := string -> list (row_of (d_val D)).
Let listing : Type := list (list (d_val D)).

(** The columns of an answer: those selected, and the ordering columns of a
    SELECT DISTINCT. *)
Definition out_names (m : stmt) : list string :=
  (map snd (m_cols m) ++ (if m_distinct m then map nth_alias (seq 1 (List.length (m_orders m))) else []))%list.
Definition out_row (m : stmt) (r : result_row D) : list (d_val D) := (fst r ++ (if m_distinct m then snd r else []))%list.
Definition named (names : list string) (vs : list (d_val D)) : row_of (d_val D) :=
  fun c => match find (fun p => String.eqb (fst p) c) (combine names vs) with Some p => snd p | None => d_null D end.
Definition bind_table (a : string) (rs : list (row_of (d_val D))) (E : tables) : tables :=
  fun x => if String.eqb x a then rs else E x.
(** The rows of a query and those of the queries united with it. *)
Definition together (l : listing) (us : list listing) (r : listing) : Prop :=
  match us with
  | [] => r = l
  | _ => NoDup r /\ forall v, In v r <-> exists a, In a (l :: us) /\ In v a
  end.

Variable B : list xstmt.
Definition names_of (id : nat) : list string := match nth_error B id with Some x => out_names (x_stmt x) | None => [] end.
(** [sub]: the answers of the subqueries. *)
Definition test_of (sub : nat -> listing -> Prop) (x : xcond) (t : test D) : Prop :=
  match x with
  | Plain x => t = (cond_col x, d_holds D x)
  | Sub c op id => exists a, sub id a /\ t = (c, fun v => sub_holds op v a)
  end.
(** Each common table expression sees those before it. *)
Fixpoint with_tables (ans : tables -> nat -> listing -> Prop) (ws : list with_item) (E E' : tables) : Prop :=
  match ws with
  | [] => E' = E
  | w :: ws' => exists a, ans E (w_id w) a /\ with_tables ans ws' (bind_table (w_name w) (map (named (names_of (w_id w))) a) E) E'
  end.
(** [l] is an answer of query [id] if the tables have the rows [E]; [d] bounds
    the depth. *)
Fixpoint answer (d : nat) (E : tables) (id : nat) (l : listing) : Prop :=
  match d, nth_error B id with
  | S d', Some x =>
    exists E' ts a us,
      with_tables (answer d') (x_withs x) E E' /\
      Forall2 (test_of (answer d' E')) (x_conds x) ts /\
      answers_where (with_rows D E') (x_stmt x) ts a /\
      Forall2 (answer d' E') (x_unions x) us /\
      together (map (out_row (x_stmt x)) a) us l
  | _, _ => False
  end.
End Nested.

(** The statement without the joins and the common table expressions that do not
    appear. *)
Definition lean (x : xstmt) : xstmt := mkX (trimmed (x_stmt x)) (emitted x) (x_conds x) (x_unions x).

Definition inner (x : xstmt) : list nat := (flat_map (fun c => match c with Plain _ => [] | Sub _ _ id => [id] end) (x_conds x) ++ x_unions x)%list.
Section Reads.
Variable B : list xstmt.
(** All queries of the statement, also those that do not appear, within depth [d]. *)
Fixpoint whole (d : nat) (id : nat) : Prop :=
  match d, nth_error B id with S d', Some x => forall j, In j (map w_id (x_withs x) ++ inner x) -> whole d' j | _, _ => False end.
(** The tables read by what appears of a query, other than its own common table
    expressions. *)
Fixpoint with_reads (reads : nat -> list string) (ws : list with_item) (body : list string) : list string :=
  match ws with
  | [] => body
  | w :: ws' => (reads (w_id w) ++ filter (fun a => negb (String.eqb a (w_name w))) (with_reads reads ws' body))%list
  end.
Fixpoint reads (d : nat) (id : nat) : list string :=
  match d, nth_error B id with
  | S d', Some x => with_reads (reads d') (emitted x) (map fst (sources (x_stmt x)) ++ flat_map (reads d') (inner x))
  | _, _ => []
  end.
(** A common table expression read by another one is among its dependencies; one
    read by a subquery or a united query is wanted anyway. *)
Definition declared (x : xstmt) : Prop :=
  (forall d w v, In w (x_withs x) -> In v (x_withs x) -> In (w_name v) (reads d (w_id w)) -> In (w_name v) (w_deps w)) /\
  (forall d id v, In id (inner x) -> In v (x_withs x) -> In (w_name v) (reads d id) -> wanted x (w_name v)).
(** The conditions of C76 on every query. *)
Definition sensible (D : database) (x : xstmt) : Prop :=
  closed (x_stmt x) /\ by_groups (x_stmt x) /\ tableless_cols D (m_used (x_stmt x) ++ map xcond_col (x_conds x)).
End Reads.
(** Rows can be ordered. *)
Definition orderly (D : database) : Prop :=
  forall os, (forall a b, d_before D os a b \/ d_before D os b a) /\ (forall a b c, d_before D os a b -> d_before D os b c -> d_before D os a c).
