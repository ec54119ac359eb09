(** Property C119: ON conditions can be turned round.  The vocabulary is in
    Spec_exec.v and Spec_turned.v; the proofs are in Turned_proofs.v. *)
From Coq Require Import Strings.String Strings.Ascii NArith ZArith List Bool Lia Sorting.Permutation Sorting.Sorted.
From Verif Require Import GoStr GoNum Syntax Value Util Model Sqlf Sqlb Spec_syntax RefSem Spec_build Spec_util Spec_eval Spec_query Spec_sql Spec_interp Spec_answer
  Turned_proofs Prop_sides Prop_pages Spec_sqltok Spec_read Spec_exec Spec_turned.
Import ListNotations.
Open Scope string_scope.

(** C119: it is irrelevant which column of an ON condition is written first, in
    any of the joins, if the database's equality does not depend on the side. *)
Theorem c119_question : forall m m' os os' style, style <> style_dollar -> stmt_ok m -> named m -> describes os m -> stmt_ok m' -> named m' -> describes os' m' -> joins_turned m m' ->
  exists q q', apply_ops os new_qb = ROk q /\ apply_ops os' new_qb = ROk q' /\ forall n, 5 + m_size m <= n -> 5 + m_size m' <= n -> exists s args s' args',
    fst (build_query n style [q] (BQuery (Some 0))) = ROk (s, args) /\ fst (build_query n style [q'] (BQuery (Some 0))) = ROk (s', args') /\
    forall E rows, symmetric (database_of E) -> executes E args' s' rows <-> executes E args s rows.
Proof. exact turned_question. Qed.
Print Assumptions c119_question.
Theorem c119_dollar : forall m m' os os', stmt_ok m -> named m -> describes os m -> stmt_ok m' -> named m' -> describes os' m' -> joins_turned m m' -> forallb hashable (m_args m) = true ->
  exists q q', apply_ops os new_qb = ROk q /\ apply_ops os' new_qb = ROk q' /\ forall n, 5 + m_size m <= n -> 5 + m_size m' <= n -> exists s args s' args',
    fst (build_query n style_dollar [q] (BQuery (Some 0))) = ROk (s, args) /\ fst (build_query n style_dollar [q'] (BQuery (Some 0))) = ROk (s', args') /\
    forall E rows, by_value E -> symmetric (database_of E) -> executes E args' s' rows <-> executes E args s rows.
Proof. exact turned_dollar. Qed.
Print Assumptions c119_dollar.

(** The users and orders of C118, joined with either column first. *)
Definition turned_call (j : join) : list qop := [OSelect [column "u" "id"; column "o" "total"]; OFrom tu; join_call j].
Definition on_either (l r : col) : join := mkJoin JLeft tord l r.
Definition either (l r : col) : stmt := mkStmt false [("u", "id"); ("o", "total")] tu [on_either l r] [] [] [] 0 0.
Example c119_example :
  let a := either ("u", "id") ("o", "user") in let b := either ("o", "user") ("u", "id") in
  stmt_ok a /\ stmt_ok b /\ named a /\ named b /\ describes (turned_call (on_either ("u", "id") ("o", "user"))) a /\ describes (turned_call (on_either ("o", "user") ("u", "id"))) b /\
  joins_turned a b /\ symmetric (database_of shop) /\ by_value shop /\ forallb hashable (m_args a) = true /\
  executes shop [] "SELECT u.id, o.total FROM users AS u LEFT JOIN orders AS o ON u.id=o.user" [[1; 5]; [2; 0]]%Z /\
  executes shop [] "SELECT u.id, o.total FROM users AS u LEFT JOIN orders AS o ON o.user=u.id" [[1; 5]; [2; 0]]%Z.
Proof.
  cbv zeta. do 2 (apply conj; [ok_with|]). do 2 (apply conj; [unfold either, on_either; named_with|]).
  do 2 (apply conj; [unfold describes; do 10 (apply conj; [reflexivity|]); reflexivity|]).
  apply conj. { unfold joins_turned. do 3 (apply conj; [reflexivity|]). apply conj; [constructor; [right; reflexivity|constructor]|]. repeat split. }
  apply conj; [intros v w; apply Z.eqb_sym|].
  apply conj. { intros v w [->|H]; [reflexivity|]. destruct v, w; try reflexivity; cbn in H |- *; try discriminate. apply andb_prop in H. destruct H as [_ H]. apply Z.eqb_eq in H. exact H. }
  apply conj; [reflexivity|].
  apply conj; all_rows [([1; 5], [] : list Z); ([2; 0], [] : list Z)]%Z; apply Permutation_refl.
Qed.
