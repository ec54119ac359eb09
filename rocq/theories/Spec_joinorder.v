(** Vocabulary for statements whose joins come in another order. *)
From Coq Require Import Strings.String Strings.Ascii NArith ZArith List Bool.
From Verif Require Import GoStr GoNum Syntax Value Util Model Sqlf Sqlb Spec_query Spec_sql.
Import ListNotations.

(** The condition of the join mentions the table known by the name. *)
Definition mentions (j : join) (a : string) : Prop := fst (j_left j) = a \/ fst (j_right j) = a.
(** Inner and left joins, optional or not. *)
Definition one_sided (j : join) : Prop := match j_kind j with JInner | JLeft | JOptional _ => True | JRight | JFull => False end.
(** The same joins, in another order: neighbours that do not mention each other
    may change places, again and again. *)
Inductive rejoined : list join -> list join -> Prop :=
| rj_same js : rejoined js js
| rj_swap pre j1 j2 post : one_sided j1 -> one_sided j2 -> ~ mentions j1 (known_as (j_table j2)) -> ~ mentions j2 (known_as (j_table j1)) ->
    rejoined (pre ++ j1 :: j2 :: post) (pre ++ j2 :: j1 :: post)
| rj_more a b c : rejoined a b -> rejoined b c -> rejoined a c.
Definition joins_moved (m m' : stmt) : Prop :=
  m_distinct m' = m_distinct m /\ m_cols m' = m_cols m /\ m_main m' = m_main m /\ rejoined (m_joins m) (m_joins m') /\ m_conds m' = m_conds m /\
  m_groups m' = m_groups m /\ m_orders m' = m_orders m /\ m_limit m' = m_limit m /\ m_offset m' = m_offset m.
