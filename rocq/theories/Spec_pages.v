(** Vocabulary for reading the answers of a statement page by page. *)
From Coq Require Import Strings.String Strings.Ascii NArith ZArith List Bool.
From Verif Require Import GoStr GoNum Syntax Value Util Model Sqlf Sqlb Spec_syntax RefSem Spec_build Spec_util Spec_eval Spec_query Spec_sql Spec_answer Spec_exec.
Import ListNotations.

(** The calls for page [i] (from zero) of [k] rows. *)
Definition page_calls (os : list qop) (k : nat) (i : nat) : list qop := (os ++ [OLimit (Z.of_nat k); OOffset (Z.of_nat (i * k))])%list.
Definition page {A} (k i : nat) (l : list A) : list A := firstn k (skipn (i * k) l).
(** The statement has no more than one list of rows as its answer. *)
Definition settled (E : engine) (m : stmt) : Prop := forall l l', listed_answers E m l -> listed_answers E m l' -> l = l'.
(** Different rows are never equal in order. *)
Definition ordered_fully (E : engine) (m : stmt) : Prop :=
  forall x y, In x (results (database_of E) m) -> In y (results (database_of E) m) ->
    d_before (e_data E) (map snd (m_orders m)) (snd x) (snd y) -> d_before (e_data E) (map snd (m_orders m)) (snd y) (snd x) -> x = y.
