(** Vocabulary for a statement with and without Distinct. *)
From Coq Require Import Strings.String Strings.Ascii NArith ZArith List Bool.
From Verif Require Import GoStr GoNum Syntax Value Util Model Sqlf Sqlb Spec_query Spec_sql.

(** The same join, optional or not as before (whether it appears may differ). *)
Definition same_join (j j' : join) : Prop :=
  j_table j' = j_table j /\ j_left j' = j_left j /\ j_right j' = j_right j /\
  match j_kind j, j_kind j' with JOptional _, JOptional _ => True | k, k' => k' = k end.
(** [m] has Distinct, [m'] has not; otherwise they are the same. *)
Definition but_distinct (m m' : stmt) : Prop :=
  m_distinct m = true /\ m_distinct m' = false /\ m_cols m' = m_cols m /\ m_main m' = m_main m /\ Forall2 same_join (m_joins m) (m_joins m') /\
  m_conds m' = m_conds m /\ m_groups m' = m_groups m /\ m_orders m' = m_orders m /\ m_limit m' = m_limit m /\ m_offset m' = m_offset m.
