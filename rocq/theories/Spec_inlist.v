(** Vocabulary for conditions on lists of values. *)
From Coq Require Import Strings.String Strings.Ascii NArith ZArith List Bool.
From Verif Require Import GoStr GoNum Syntax Value Util Model Sqlf Sqlb Spec_query Spec_sql Spec_answer Spec_interp Spec_sqltok Spec_read Spec_exec.
Import ListNotations.
Open Scope string_scope.

(** Conditions that say the same about lists: the same values in any order and
    number; IN one value is =; NOT IN is <> for each value. *)
Inductive alike : list cond -> list cond -> Prop :=
| al_nil : alike [] []
| al_same x xs xs' : alike xs xs' -> alike (x :: xs) (x :: xs')
| al_in c l l' xs xs' : (forall v, In v (flat l) <-> In v (flat l')) -> alike xs xs' -> alike (Among c l :: xs) (Among c l' :: xs')
| al_not_in c l l' xs xs' : (forall v, In v (flat l) <-> In v (flat l')) -> alike xs xs' -> alike (NotAmong c l :: xs) (NotAmong c l' :: xs')
| al_one c l v xs xs' : flat l = [v] -> alike xs xs' -> alike (Among c l :: xs) (Compare c "=" v :: xs')
| al_each c l xs xs' : alike xs xs' -> alike (NotAmong c l :: xs) ((map (fun v => Compare c "<>" v) (flat l)) ++ xs')%list.
Definition conds_alike (m m' : stmt) : Prop :=
  alike (m_conds m) (m_conds m') /\ m_distinct m' = m_distinct m /\ m_cols m' = m_cols m /\ m_main m' = m_main m /\ m_joins m' = m_joins m /\
  m_groups m' = m_groups m /\ m_orders m' = m_orders m /\ m_limit m' = m_limit m /\ m_offset m' = m_offset m.
(** Being in a list is being equal to one of its values, and not being in it is
    being different from each. *)
Definition lists_compare (E : engine) : Prop :=
  (forall v l, e_test E IsIn v l = existsb (fun w => e_test E (Compares (tokens false "=")) v [w]) l) /\
  (forall v l, e_test E IsNotIn v l = forallb (fun w => e_test E (Compares (tokens false "<>")) v [w]) l).
