(** Vocabulary for statements of several queries that unite a query repeatedly. *)
From Coq Require Import Strings.String ZArith List.
From Verif Require Import Spec_sql Spec_nest Spec_answer Spec_views Spec_sqltok Spec_exec.
Import ListNotations.

(** The second query unites the same queries as the first, some repeatedly or in
    another order. *)
Definition reunited (x x' : xstmt) : Prop :=
  x_stmt x' = x_stmt x /\ x_withs x' = x_withs x /\ x_conds x' = x_conds x /\ NoDup (x_unions x) /\ (forall i, In i (x_unions x) <-> In i (x_unions x')).
Definition reunited_book (B B' : list xstmt) : Prop := Forall2 reunited B B'.
(** All answers of a united query have the same rows, whatever the tables. *)
Definition settled (E : engine) (sub_test : list token -> d_val (e_data E) -> list (list (d_val (e_data E))) -> bool) (B : list xstmt) : Prop :=
  forall x i d T a a', In x B -> In i (x_unions x) ->
    answer (database_of E) (fun o => sub_test (tokens false o)) B d T i a -> answer (database_of E) (fun o => sub_test (tokens false o)) B d T i a' ->
    forall v, In v a <-> In v a'.
(** United queries without bounds, common table expressions, subqueries and
    unions of their own. *)
Definition plain_unions (B : list xstmt) : Prop :=
  forall x i y, In x B -> In i (x_unions x) -> nth_error B i = Some y ->
    m_limit (x_stmt y) = 0%Z /\ m_offset (x_stmt y) = 0%Z /\ x_withs y = [] /\ x_unions y = [] /\
    Forall (fun c => match c with Plain _ => True | Sub _ _ _ => False end) (x_conds y).
