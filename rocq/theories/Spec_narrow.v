(** Vocabulary for statements that differ in their conditions. *)
From Coq Require Import Strings.String Strings.Ascii NArith ZArith List Bool Sorting.Permutation.
From Verif Require Import GoStr GoNum Syntax Value Util Model Sqlf Sqlb Spec_syntax RefSem Spec_build Spec_util Spec_eval Spec_query Spec_sql Spec_answer Spec_exec.
Import ListNotations.

(** A join, whether it appears or not. *)
Definition bare (j : join) : join := mkJoin (match j_kind j with JOptional _ => JOptional true | k => k end) (j_table j) (j_left j) (j_right j).
(** [m'] is [m] with the conditions [cs] added, in any order. *)
Definition adds (cs : list cond) (m m' : stmt) : Prop :=
  m_distinct m' = m_distinct m /\ m_cols m' = m_cols m /\ m_main m' = m_main m /\ map bare (m_joins m') = map bare (m_joins m) /\
  Permutation (m_conds m') (m_conds m ++ cs) /\ m_groups m' = m_groups m /\ m_orders m' = m_orders m /\ m_limit m' = m_limit m /\ m_offset m' = m_offset m.
