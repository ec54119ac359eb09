(** Calls that differ only in which joins are optional. *)
From Coq Require Import Strings.String List Bool.
From Verif Require Import Model Sqlb.
Import ListNotations.
Open Scope string_scope.

Inductive same_but_optional : qop -> qop -> Prop :=
| so_same o : same_but_optional o o
| so_join kind t on x y : same_but_optional (OJoin kind t on x) (OJoin kind t on y).
Definition asks_distinct (o : qop) : bool := match o with ODistinct => true | _ => false end.
(** Two descriptions of a query: the same calls, or, if none asks for distinct
    rows, calls that differ in which joins are optional. *)
Definition same_description (os os' : list qop) : Prop :=
  os = os' \/ (existsb asks_distinct os = false /\ Forall2 same_but_optional os os').
