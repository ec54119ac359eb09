(** Vocabulary for the order of common table expressions. *)
From Coq Require Import Strings.String List.
From Verif Require Import Spec_sql Spec_nest Spec_views.
Import ListNotations.

Section Order.
Variable B : list xstmt.
(** Neither of two common table expressions reads the other. *)
Definition independent (w v : with_item) : Prop :=
  w_name w <> w_name v /\ forall d, ~ In (w_name w) (reads B d (w_id v)) /\ ~ In (w_name v) (reads B d (w_id w)).
(** Reordered by swapping neighbours that are independent. *)
Inductive moved : list with_item -> list with_item -> Prop :=
| moved_same : forall ws, moved ws ws
| moved_swap : forall ws w v vs, independent w v -> moved (ws ++ w :: v :: vs)%list (ws ++ v :: w :: vs)%list
| moved_then : forall ws vs us, moved ws vs -> moved vs us -> moved ws us.
(** The same query but for the order of the common table expressions. *)
Definition rewithed (x x' : xstmt) : Prop :=
  x_stmt x' = x_stmt x /\ x_conds x' = x_conds x /\ x_unions x' = x_unions x /\ moved (x_withs x) (x_withs x').
End Order.
Definition rewithed_book (B B' : list xstmt) : Prop := Forall2 (rewithed B) B B'.
