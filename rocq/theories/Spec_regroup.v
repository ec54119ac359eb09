(** Vocabulary for statements that differ in what they group by. *)
From Coq Require Import Strings.String Strings.Ascii NArith ZArith List Bool.
From Verif Require Import GoStr GoNum Syntax Value Util Model Sqlf Sqlb Spec_query Spec_sql Spec_dedup.
Import ListNotations.

(** Grouped by the same columns, in another order or several times. *)
Definition regroups (m m' : stmt) : Prop :=
  m_distinct m' = m_distinct m /\ m_cols m' = m_cols m /\ m_main m' = m_main m /\ m_joins m' = m_joins m /\ m_conds m' = m_conds m /\
  (forall c, In c (m_groups m') <-> In c (m_groups m)) /\ m_orders m' = m_orders m /\ m_limit m' = m_limit m /\ m_offset m' = m_offset m.
(** [m] has Distinct and no groups, [m'] is grouped by what is selected and
    ordered by instead. *)
Definition groups_instead (m m' : stmt) : Prop :=
  m_distinct m = true /\ m_distinct m' = false /\ m_cols m' = m_cols m /\ m_main m' = m_main m /\ Forall2 same_join (m_joins m) (m_joins m') /\
  m_conds m' = m_conds m /\ m_groups m = [] /\ (forall c, In c (m_groups m') <-> In c (m_cols m ++ map fst (m_orders m))) /\
  m_orders m' = m_orders m /\ m_limit m' = m_limit m /\ m_offset m' = m_offset m.
