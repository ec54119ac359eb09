(** Exactly which tables and common table expressions a query keeps. *)
From Coq Require Import Strings.String List Bool.
From Verif Require Import GoStr GoNum Syntax Value Util Model Sqlf Sqlb Spec_query.
Import ListNotations.
Open Scope string_scope.

(** A table in use: the main table, or one that a clause needs. *)
Definition in_use (q : qb) (ft : from_table) : Prop :=
  main_of q = Some ft \/ exists t, needed q t /\ table_of q t = Some ft.
(** A table in use is written with this name and no alias. *)
Definition bare (q : qb) (n : string) : Prop := exists ft, in_use q ft /\ ft_names ft = (n, "").
(** The common table expressions that are followed: those of the tables of the
    query and their dependencies, without passing through one whose name a
    table in use bears. *)
Inductive followed (q : qb) : string -> Prop :=
| fo_table ft : In ft (listed q) -> belongs q ft -> cte_of q (fst (ft_names ft)) <> None -> ~ bare q (fst (ft_names ft)) ->
    followed q (fst (ft_names ft))
| fo_dep c d x : followed q c -> cte_of q c = Some d -> In x (c_deps d) -> cte_of q x <> None -> ~ bare q x -> followed q x.
Definition keeps_table (q : qb) (ft : from_table) : Prop :=
  belongs q ft \/ (snd (ft_names ft) = "" /\ followed q (fst (ft_names ft))).
Definition keeps_cte (q : qb) (c : cte) : Prop := bare q (c_name c) \/ followed q (c_name c).
(** The choice made is that one. *)
Definition choice (q : qb) (keep_table : from_table -> bool) (keep_cte : cte -> bool) : Prop :=
  (forall ft, In ft (listed q) -> (keep_table ft = true <-> keeps_table q ft)) /\
  (forall c, In c (q_ctes q) -> (keep_cte c = true <-> keeps_cte q c)).
(** Nothing prevents the clauses from being put together: there is a
    main table, no nil fragment, and every table needed is known. *)
Definition sound_query (q : qb) : Prop :=
  main_of q <> None /\ (forall b, In b (clause_builders q) -> ~ has_nil b) /\ forall t, needed q t -> ~ undefined q t.
