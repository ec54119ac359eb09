(** Vocabulary for statements that call their tables by other names. *)
From Coq Require Import Strings.String NArith ZArith List Bool.
From Verif Require Import GoStr Value Model Sqlb Spec_query Spec_sql.
Import ListNotations.
Open Scope string_scope.

Section Names.
(** The new name of what was known by the old one. *)
Variable new : string -> string.
Definition recol (c : col) : col := if is_empty (fst c) then c else (new (fst c), snd c).
Definition recond (x : cond) : cond :=
  match x with Compare c o v => Compare (recol c) o v | Among c l => Among (recol c) l | NotAmong c l => NotAmong (recol c) l end.
(** The same table, known by the new name (with or without alias). *)
Definition retable (t t' : tname) : Prop := fst t' = fst t /\ known_as t' = new (known_as t).
Definition rejoin (j j' : join) : Prop :=
  j_kind j' = j_kind j /\ retable (j_table j) (j_table j') /\ j_left j' = recol (j_left j) /\ j_right j' = recol (j_right j).
(** All tables are known by new names, also in the columns. *)
Definition realiased (m m' : stmt) : Prop :=
  m_distinct m' = m_distinct m /\ m_cols m' = map recol (m_cols m) /\ retable (m_main m) (m_main m') /\ Forall2 rejoin (m_joins m) (m_joins m') /\
  m_conds m' = map recond (m_conds m) /\ m_groups m' = map recol (m_groups m) /\ m_orders m' = map (fun o => (recol (fst o), snd o)) (m_orders m) /\
  m_limit m' = m_limit m /\ m_offset m' = m_offset m.
End Names.
