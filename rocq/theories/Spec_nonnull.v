(** Vocabulary for outer joins whose missing rows are refused by a condition. *)
From Coq Require Import Strings.String Strings.Ascii NArith ZArith List Bool.
From Verif Require Import GoStr GoNum Syntax Value Util Model Sqlf Sqlb Spec_query Spec_sql Spec_answer Spec_joinorder.
Import ListNotations.

(** The condition does not hold of the value of missing rows. *)
Definition refuses_null (D : database) (x : cond) : Prop := d_holds D x (d_null D) = false.
(** The kind of a join, and what it is called if every row of the joined table,
    or of the tables before it, is there. *)
Definition joined_there (k k' : join_kind) : Prop :=
  match k, k' with JLeft, JInner | JOptional true, JInner | JFull, JRight => True | _, _ => False end.
Definition before_there (k k' : join_kind) : Prop :=
  match k, k' with JRight, JInner | JFull, JLeft => True | _, _ => False end.
(** One join is of another kind, as the condition is about a column of its table
    or of a table before it.  The joins after it are inner and left joins. *)
Definition join_narrowed (x : cond) (m m' : stmt) : Prop :=
  In x (m_conds m) /\ fst (cond_col x) <> ""%string /\
  (exists pre post k k' t l r, m_joins m = (pre ++ mkJoin k t l r :: post)%list /\ m_joins m' = (pre ++ mkJoin k' t l r :: post)%list /\ Forall one_sided post /\
    ((joined_there k k' /\ fst (cond_col x) = known_as t) \/
     (before_there k k' /\ In (fst (cond_col x)) (known_as (m_main m) :: map (fun j => known_as (j_table j)) pre)))) /\
  m_distinct m' = m_distinct m /\ m_cols m' = m_cols m /\ m_main m' = m_main m /\ m_conds m' = m_conds m /\
  m_groups m' = m_groups m /\ m_orders m' = m_orders m /\ m_limit m' = m_limit m /\ m_offset m' = m_offset m.
