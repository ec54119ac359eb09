(** Vocabulary for statements of several queries with Distinct and orders at
    other places. *)
From Coq Require Import Strings.String ZArith List.
From Verif Require Import Spec_sql Spec_nest.
Import ListNotations.

(** The same but for Distinct, without orders and bounds; the joins that appear
    are the same. *)
Definition freely_distinct (m m' : stmt) : Prop :=
  m_cols m' = m_cols m /\ m_main m' = m_main m /\ m_shown m' = m_shown m /\ m_groups m' = m_groups m /\
  m_orders m = [] /\ m_orders m' = [] /\ m_limit m = 0%Z /\ m_limit m' = 0%Z /\ m_offset m = 0%Z /\ m_offset m' = 0%Z.
(** The same but for the orders, without Distinct and bounds. *)
Definition freely_ordered (m m' : stmt) : Prop :=
  m_distinct m = false /\ m_distinct m' = false /\ m_cols m' = m_cols m /\ m_main m' = m_main m /\ m_shown m' = m_shown m /\ m_groups m' = m_groups m /\
  m_limit m = 0%Z /\ m_limit m' = 0%Z /\ m_offset m = 0%Z /\ m_offset m' = 0%Z.
Definition redistinct (x x' : xstmt) : Prop :=
  x_withs x' = x_withs x /\ x_conds x' = x_conds x /\ x_unions x' = x_unions x /\
  (x_stmt x' = x_stmt x \/ freely_distinct (x_stmt x) (x_stmt x') \/ freely_ordered (x_stmt x) (x_stmt x')).
(** Query [i] is the same, or has unions. *)
Definition kept (B B' : list xstmt) (i : nat) : Prop :=
  match nth_error B i, nth_error B' i with Some y, Some y' => x_stmt y' = x_stmt y \/ x_unions y <> [] | _, _ => True end.
(** Only queries that have unions or are nothing but united differ. *)
Definition redistinct_book (B B' : list xstmt) : Prop :=
  Forall2 redistinct B B' /\
  forall x i, In x B -> In i (map w_id (emitted x)) \/ (exists c o, In (Sub c o i) (x_conds x)) -> kept B B' i.
