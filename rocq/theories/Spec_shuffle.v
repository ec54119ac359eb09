(** Vocabulary for statements of several queries whose conditions and unions are
    given in another order. *)
From Coq Require Import Strings.String List Sorting.Permutation.
From Verif Require Import Spec_sql Spec_nest.
Import ListNotations.

(** The conditions and the united queries of one query in another order. *)
Definition shuffled (x x' : xstmt) : Prop :=
  x_stmt x' = x_stmt x /\ x_withs x' = x_withs x /\ Permutation (x_conds x) (x_conds x') /\ Permutation (x_unions x) (x_unions x').
(** In any of the queries. *)
Definition shuffled_book (B B' : list xstmt) : Prop := Forall2 shuffled B B'.
