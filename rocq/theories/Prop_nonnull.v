(** Property C120: conditions that make outer joins inner.  The vocabulary is in
    Spec_exec.v and Spec_nonnull.v; the proofs are in Nonnull_proofs.v. *)
From Coq Require Import Strings.String Strings.Ascii NArith ZArith List Bool Lia Sorting.Permutation Sorting.Sorted.
From Verif Require Import GoStr GoNum Syntax Value Util Model Sqlf Sqlb Spec_syntax RefSem Spec_build Spec_util Spec_eval Spec_query Spec_sql Spec_interp Spec_answer
  Nonnull_proofs Prop_sides Prop_pages Spec_sqltok Spec_read Spec_exec Spec_joinorder Spec_nonnull.
Import ListNotations.
Open Scope string_scope.

(** C120: with a condition on a column of the joined table that missing rows do
    not meet, LeftJoin (optional or not) gives the answers of InnerJoin, and
    FullJoin those of RightJoin; with such a condition on a table before,
    RightJoin gives those of InnerJoin, and FullJoin those of LeftJoin. *)
Theorem c120_question : forall x m m' os os' style, style <> style_dollar -> stmt_ok m -> named m -> describes os m -> stmt_ok m' -> named m' -> describes os' m' -> join_narrowed x m m' ->
  exists q q', apply_ops os new_qb = ROk q /\ apply_ops os' new_qb = ROk q' /\ forall n, 5 + m_size m <= n -> 5 + m_size m' <= n -> exists s args s' args',
    fst (build_query n style [q] (BQuery (Some 0))) = ROk (s, args) /\ fst (build_query n style [q'] (BQuery (Some 0))) = ROk (s', args') /\
    forall E rows, refuses_null (database_of E) x -> executes E args' s' rows <-> executes E args s rows.
Proof. exact narrowed_question. Qed.
Print Assumptions c120_question.
Theorem c120_dollar : forall x m m' os os', stmt_ok m -> named m -> describes os m -> stmt_ok m' -> named m' -> describes os' m' -> join_narrowed x m m' -> forallb hashable (m_args m) = true ->
  exists q q', apply_ops os new_qb = ROk q /\ apply_ops os' new_qb = ROk q' /\ forall n, 5 + m_size m <= n -> 5 + m_size m' <= n -> exists s args s' args',
    fst (build_query n style_dollar [q] (BQuery (Some 0))) = ROk (s, args) /\ fst (build_query n style_dollar [q'] (BQuery (Some 0))) = ROk (s', args') /\
    forall E rows, by_value E -> refuses_null (database_of E) x -> executes E args' s' rows <-> executes E args s rows.
Proof. exact narrowed_dollar. Qed.
Print Assumptions c120_dollar.

(** The users and orders of C118 and a condition on the order. *)
Definition total_over (z : Z) : cond := Compare ("o", "total") ">" (VInt "int" z).
Definition spent (k : join_kind) (z : Z) : stmt := mkStmt false [("u", "id"); ("o", "total")] tu [mkJoin k tord ("u", "id") ("o", "user")] [total_over z] [] [] 0 0.
Definition spent_calls (j : qop) (z : Z) : list qop := [OSelect [column "u" "id"; column "o" "total"]; OFrom tu; j; OWhere2 (column "o" "total") ">" (VInt "int" z)].
Ltac ok_spent := split; [apply conj; [discriminate|]; apply conj; [reflexivity|]; apply conj; [repeat constructor|]; apply conj; [repeat (constructor; [cbn; intuition discriminate|]); constructor|];
    apply conj; [cbn; repeat (constructor; [split; [reflexivity|right; cbn; tauto]|]); constructor|]; apply conj; [repeat constructor|constructor]|intros j [<-|[]]; (split; [intros _; exact Logic.I|reflexivity])].
Ltac named_spent := unfold spent, tu, tord; apply conj; [discriminate|]; apply conj; [repeat (constructor; [is_col|]); constructor|]; apply conj; [split; [is_name|right; is_name]|];
    apply conj; [constructor; [apply conj; [split; [is_name|right; is_name]|split; is_col]|constructor]|];
    apply conj; [constructor; [split; [is_col|left; split; reflexivity]|constructor]|]; apply conj; [constructor|constructor].
Ltac narrowed_spent k k' := split; [left; reflexivity|]; split; [discriminate|]; split;
    [exists [], [], k, k', tord, ("u", "id"), ("o", "user"); split; [reflexivity|]; split; [reflexivity|]; split; [constructor|]; left; split; [exact Logic.I|reflexivity]|repeat split].
Example c120_example :
  let a := spent JLeft 1 in let b := spent JInner 1 in let c := spent JFull 1 in let d := spent JRight 1 in let x := total_over 1 in
  stmt_ok a /\ stmt_ok b /\ stmt_ok c /\ stmt_ok d /\ named a /\ named b /\ named c /\ named d /\
  describes (spent_calls (OLeftJoin tord (on tord)) 1) a /\ describes (spent_calls (OInnerJoin tord (on tord)) 1) b /\
  describes (spent_calls (OFullJoin tord (on tord)) 1) c /\ describes (spent_calls (ORightJoin tord (on tord)) 1) d /\
  join_narrowed x a b /\ join_narrowed x c d /\ refuses_null (database_of shop) x /\ by_value shop /\ forallb hashable (m_args a) = true /\
  executes shop [VInt "int" 1] "SELECT u.id, o.total FROM users AS u LEFT JOIN orders AS o ON u.id=o.user WHERE o.total>?" [[1; 5]]%Z /\
  executes shop [VInt "int" 1] "SELECT u.id, o.total FROM users AS u INNER JOIN orders AS o ON u.id=o.user WHERE o.total>?" [[1; 5]]%Z /\
  executes shop [VInt "int" 1] "SELECT u.id, o.total FROM users AS u FULL JOIN orders AS o ON u.id=o.user WHERE o.total>?" [[1; 5]; [0; 6]]%Z /\
  executes shop [VInt "int" 1] "SELECT u.id, o.total FROM users AS u RIGHT JOIN orders AS o ON u.id=o.user WHERE o.total>?" [[1; 5]; [0; 6]]%Z.
Proof.
  cbv zeta. do 4 (apply conj; [ok_spent|]). do 4 (apply conj; [named_spent|]).
  do 4 (apply conj; [unfold describes; do 10 (apply conj; [reflexivity|]); reflexivity|]).
  apply conj; [narrowed_spent JLeft JInner|]. apply conj; [narrowed_spent JFull JRight|]. apply conj; [reflexivity|].
  apply conj. { intros v w [->|H]; [reflexivity|]. destruct v, w; try reflexivity; cbn in H |- *; try discriminate. apply andb_prop in H. destruct H as [_ H]. apply Z.eqb_eq in H. exact H. }
  apply conj; [reflexivity|].
  do 2 (apply conj; [all_rows [([1; 5], [] : list Z)]%Z; apply Permutation_refl|]).
  apply conj; all_rows [([1; 5], [] : list Z); ([0; 6], [] : list Z)]%Z; apply Permutation_refl.
Qed.

(** Not so for a condition that missing rows meet: their value, here 0, is over
    -1, and only LeftJoin has a row for the user without orders. *)
Theorem c120_met_refuted : exists q q' s s',
  join_narrowed (total_over (-1)) (spent JLeft (-1)) (spent JInner (-1)) /\ ~ refuses_null (database_of shop) (total_over (-1)) /\
  describes (spent_calls (OLeftJoin tord (on tord)) (-1)) (spent JLeft (-1)) /\ describes (spent_calls (OInnerJoin tord (on tord)) (-1)) (spent JInner (-1)) /\
  apply_ops (spent_calls (OLeftJoin tord (on tord)) (-1)) new_qb = ROk q /\ apply_ops (spent_calls (OInnerJoin tord (on tord)) (-1)) new_qb = ROk q' /\
  fst (build_query 20 style_question [q] (BQuery (Some 0))) = ROk (s, [VInt "int" (-1)]) /\ fst (build_query 20 style_question [q'] (BQuery (Some 0))) = ROk (s', [VInt "int" (-1)]) /\
  executes shop [VInt "int" (-1)] s [[1; 5]; [2; 0]]%Z /\ ~ executes shop [VInt "int" (-1)] s' [[1; 5]; [2; 0]]%Z.
Proof.
  do 4 eexists. apply conj; [narrowed_spent JLeft JInner|]. apply conj; [discriminate|].
  do 2 (apply conj; [unfold describes; do 10 (apply conj; [reflexivity|]); reflexivity|]).
  do 2 (apply conj; [cbv; reflexivity|]). do 2 (apply conj; [vm_compute; reflexivity|]).
  apply conj; [all_rows [([1; 5], [] : list Z); ([2; 0], [] : list Z)]%Z; apply Permutation_refl|].
  intros (r & m & ts & l & R & M & T & (s & P & _ & C) & E). vm_compute in R. injection R as <-. vm_compute in M. injection M as <-. cbn in T. injection T as <-.
  cbn in P. apply Permutation_length in P. cbn in C. subst l. apply (f_equal (@List.length _)) in E. rewrite map_length in E. pose proof (eq_trans E P) as K. discriminate K.
Qed.
Print Assumptions c120_met_refuted.
