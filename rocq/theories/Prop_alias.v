(** Property C114: the aliases of tables can be chosen freely.  The vocabulary is
    in Spec_exec.v and Spec_alias.v; the proofs are in Alias_proofs.v. *)
From Coq Require Import Strings.String Strings.Ascii NArith ZArith List Bool Lia Sorting.Permutation Sorting.Sorted.
From Verif Require Import GoStr GoNum Syntax Value Util Model Sqlf Sqlb Spec_syntax RefSem Spec_build Spec_util Spec_eval Spec_query Spec_sql Spec_interp Spec_answer
  Alias_proofs Prop_pages Spec_sqltok Spec_read Spec_exec Spec_alias.
Import ListNotations.
Open Scope string_scope.

(** C114: for calls that differ in the names their tables are known by (aliases,
    or the names of tables without alias), in the columns as in the tables,
    executing gives the same answers. *)
Theorem c114_question : forall new m m' os os' style, style <> style_dollar -> stmt_ok m -> named m -> describes os m -> stmt_ok m' -> named m' -> describes os' m' -> realiased new m m' ->
  exists q q', apply_ops os new_qb = ROk q /\ apply_ops os' new_qb = ROk q' /\ forall n, 5 + m_size m <= n -> 5 + m_size m' <= n -> exists s args s' args',
    fst (build_query n style [q] (BQuery (Some 0))) = ROk (s, args) /\ fst (build_query n style [q'] (BQuery (Some 0))) = ROk (s', args') /\
    forall E rows, tableless (database_of E) m -> executes E args' s' rows <-> executes E args s rows.
Proof. exact alias_question. Qed.
Print Assumptions c114_question.
Theorem c114_dollar : forall new m m' os os', stmt_ok m -> named m -> describes os m -> stmt_ok m' -> named m' -> describes os' m' -> realiased new m m' -> forallb hashable (m_args m) = true ->
  exists q q', apply_ops os new_qb = ROk q /\ apply_ops os' new_qb = ROk q' /\ forall n, 5 + m_size m <= n -> 5 + m_size m' <= n -> exists s args s' args',
    fst (build_query n style_dollar [q] (BQuery (Some 0))) = ROk (s, args) /\ fst (build_query n style_dollar [q'] (BQuery (Some 0))) = ROk (s', args') /\
    forall E rows, by_value E -> tableless (database_of E) m -> executes E args' s' rows <-> executes E args s rows.
Proof. exact alias_dollar. Qed.
Print Assumptions c114_dollar.

(** Users with the users of the same number; [u] becomes the table without alias
    and its name goes to the other table. *)
Definition pairs_of (t t' : tname) : stmt :=
  mkStmt false [(known_as t, "id"); (known_as t', "id")] t [mkJoin JInner t' (known_as t', "n") (known_as t, "n")] [Compare (known_as t, "id") ">" (VInt "int" 1)] [] [] 0 0.
Definition pair_calls (t t' : tname) : list qop :=
  [OSelect [column (known_as t) "id"; column (known_as t') "id"]; OFrom t; OInnerJoin t' (join_on (mkJoin JInner t' (known_as t', "n") (known_as t, "n"))); OWhere2 (column (known_as t) "id") ">" (VInt "int" 1)].
Definition new_name (s : string) : string := if String.eqb s "u" then "users" else "u".
Ltac ok_pair := split; [apply conj; [discriminate|]; apply conj; [reflexivity|]; apply conj; [constructor; [reflexivity|constructor]|]; apply conj; [constructor; [cbn; intuition discriminate|constructor; [intros []|constructor]]|];
    apply conj; [cbn; repeat (constructor; [split; [reflexivity|right; cbn; tauto]|]); constructor|]; apply conj; [repeat constructor|cbn; repeat (constructor; [discriminate|]); constructor]|intros j [<-|[]]; split; [intros _; exact Logic.I|reflexivity]].
Ltac named_pair := unfold pairs_of; cbn; apply conj; [discriminate|]; apply conj; [repeat (constructor; [is_col|]); constructor|]; apply conj; [split; [is_name|first [left; reflexivity|right; is_name]]|];
    apply conj; [constructor; [apply conj; [split; [is_name|right; is_name]|split; is_col]|constructor]|];
    apply conj; [constructor; [split; [is_col|left; split; reflexivity]|constructor]|]; apply conj; [constructor|constructor].
Example c114_example :
  let a := pairs_of ("users", "u") ("users", "v") in let b := pairs_of ("users", "") ("users", "u") in
  stmt_ok a /\ stmt_ok b /\ named a /\ named b /\ describes (pair_calls ("users", "u") ("users", "v")) a /\ describes (pair_calls ("users", "") ("users", "u")) b /\
  realiased new_name a b /\ tableless (database_of users) a /\ by_value users /\ forallb hashable (m_args a) = true /\
  executes users [VInt "int" 1] "SELECT u.id, v.id FROM users AS u INNER JOIN users AS v ON v.n=u.n WHERE u.id>?" [[2; 2]; [3; 1]; [3; 3]]%Z /\
  executes users [VInt "int" 1] "SELECT users.id, u.id FROM users INNER JOIN users AS u ON u.n=users.n WHERE users.id>?" [[2; 2]; [3; 1]; [3; 3]]%Z.
Proof.
  cbv zeta. apply conj; [ok_pair|]. apply conj; [ok_pair|]. apply conj; [named_pair|]. apply conj; [named_pair|].
  do 2 (apply conj; [unfold describes; do 10 (apply conj; [reflexivity|]); reflexivity|]).
  apply conj; [repeat split; constructor; [repeat split|constructor]|]. apply conj; [intros c g g' _ _; reflexivity|]. apply conj; [apply c108_example|]. apply conj; [reflexivity|].
  apply conj; runs [([2; 2], [] : list Z); ([3; 1], [] : list Z); ([3; 3], [] : list Z)]%Z; apply Permutation_refl.
Qed.
