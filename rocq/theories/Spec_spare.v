(** Vocabulary for joins that can be left out. *)
From Coq Require Import Strings.String Strings.Ascii NArith ZArith List Bool.
From Verif Require Import GoStr GoNum Syntax Value Util Model Sqlf Sqlb Spec_query Spec_sql Spec_answer Spec_joinorder.
Import ListNotations.

(** The rows that the joins [pre] make of the main table, those left out apart. *)
Definition reached (D : database) (m : stmt) (pre : list join) : list (rows_of (d_val D)) :=
  from_rows D (mkStmt (m_distinct m) [] (m_main m) (filter appears pre) [] [] [] 0 0).
(** The join finds at most one row for each of them, an inner join exactly one. *)
Definition finds_one (D : database) (m : stmt) (pre : list join) (j : join) : Prop :=
  forall e, In e (reached D m pre) -> match j_kind j with JInner => List.length (partners D j e) = 1 | _ => List.length (partners D j e) <= 1 end.
(** An inner or left join, optional or not, after the joins [pre], whose table is
    mentioned by no clause and by no join after it, is left out. *)
Definition join_spared (pre : list join) (j : join) (m m' : stmt) : Prop :=
  one_sided j /\
  (exists post, m_joins m = (pre ++ j :: post)%list /\ m_joins m' = (pre ++ post)%list /\ (forall i, In i post -> ~ mentions i (known_as (j_table j)))) /\
  (forall c, In c (m_cols m ++ map cond_col (m_conds m) ++ m_groups m ++ map fst (m_orders m))%list -> fst c <> known_as (j_table j)) /\
  m_distinct m' = m_distinct m /\ m_cols m' = m_cols m /\ m_main m' = m_main m /\ m_conds m' = m_conds m /\
  m_groups m' = m_groups m /\ m_orders m' = m_orders m /\ m_limit m' = m_limit m /\ m_offset m' = m_offset m.
