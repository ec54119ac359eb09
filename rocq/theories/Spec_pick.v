(** Vocabulary for statements that differ in what they select or order by. *)
From Coq Require Import Strings.String Strings.Ascii NArith ZArith List Bool.
From Verif Require Import GoStr GoNum Syntax Value Util Model Sqlf Sqlb Spec_syntax RefSem Spec_build Spec_util Spec_eval Spec_query Spec_sql Spec_answer Spec_exec.
Import ListNotations.

(** [m'] differs from [m] in the selected columns ... *)
Definition reselects (m m' : stmt) : Prop :=
  m_distinct m' = m_distinct m /\ m_main m' = m_main m /\ m_joins m' = m_joins m /\ m_conds m' = m_conds m /\ m_groups m' = m_groups m /\
  m_orders m' = m_orders m /\ m_limit m' = m_limit m /\ m_offset m' = m_offset m.
(** ... or in its orders. *)
Definition reorders (m m' : stmt) : Prop :=
  m_distinct m' = m_distinct m /\ m_cols m' = m_cols m /\ m_main m' = m_main m /\ m_joins m' = m_joins m /\ m_conds m' = m_conds m /\ m_groups m' = m_groups m /\
  m_limit m' = m_limit m /\ m_offset m' = m_offset m.
(** Two rows, one of each statement: a value for each column, and the same value
    for the same column. *)
Definition row_agrees {V : Type} (m m' : stmt) (r r' : list V) : Prop :=
  List.length r = List.length (m_cols m) /\ List.length r' = List.length (m_cols m') /\
  forall i j c, nth_error (m_cols m) i = Some c -> nth_error (m_cols m') j = Some c -> nth_error r i = nth_error r' j.
