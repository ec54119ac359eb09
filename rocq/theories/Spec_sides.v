(** Vocabulary for statements of two tables that change sides. *)
From Coq Require Import Strings.String Strings.Ascii NArith ZArith List Bool.
From Verif Require Import GoStr GoNum Syntax Value Util Model Sqlf Sqlb Spec_query Spec_sql.
Import ListNotations.

(** What a join is called from the other side. *)
Definition flipped (k k' : join_kind) : Prop :=
  match k, k' with JInner, JInner | JLeft, JRight | JRight, JLeft | JFull, JFull => True | _, _ => False end.
(** The first table is joined to the second instead of the second to the first. *)
Definition sides_changed (m m' : stmt) : Prop :=
  (exists k k' t t' l r, flipped k k' /\ m_main m = t /\ m_joins m = [mkJoin k t' l r] /\ m_main m' = t' /\ m_joins m' = [mkJoin k' t l r]) /\
  m_distinct m' = m_distinct m /\ m_cols m' = m_cols m /\ m_conds m' = m_conds m /\
  m_groups m' = m_groups m /\ m_orders m' = m_orders m /\ m_limit m' = m_limit m /\ m_offset m' = m_offset m.
