(** Vocabulary for statements whose ON conditions are turned round. *)
From Coq Require Import Strings.String Strings.Ascii NArith ZArith List Bool.
From Verif Require Import GoStr GoNum Syntax Value Util Model Sqlf Sqlb Spec_query Spec_sql Spec_answer.
Import ListNotations.

(** The same join, with the two columns of its condition as they were or exchanged. *)
Definition turned (j j' : join) : Prop :=
  j' = j \/ j' = mkJoin (j_kind j) (j_table j) (j_right j) (j_left j).
Definition joins_turned (m m' : stmt) : Prop :=
  m_distinct m' = m_distinct m /\ m_cols m' = m_cols m /\ m_main m' = m_main m /\ Forall2 turned (m_joins m) (m_joins m') /\ m_conds m' = m_conds m /\
  m_groups m' = m_groups m /\ m_orders m' = m_orders m /\ m_limit m' = m_limit m /\ m_offset m' = m_offset m.
(** Equality does not depend on the side. *)
Definition symmetric (D : database) : Prop := forall v w, d_equal D v w = d_equal D w v.
