(** Property C117: the order of joins.  The vocabulary is in Spec_exec.v and
    Spec_joinorder.v; the proofs are in Joinorder_proofs.v. *)
From Coq Require Import Strings.String Strings.Ascii NArith ZArith List Bool Lia Sorting.Permutation Sorting.Sorted.
From Verif Require Import GoStr GoNum Syntax Value Util Model Sqlf Sqlb Spec_syntax RefSem Spec_build Spec_util Spec_eval Spec_query Spec_sql Spec_interp Spec_answer
  Joinorder_proofs Prop_pages Spec_sqltok Spec_read Spec_exec Spec_joinorder.
Import ListNotations.
Open Scope string_scope.

(** C117: calls of InnerJoin, LeftJoin and LeftJoinOptional whose conditions do
    not mention each other's tables can change places without changing an
    answer, if what is selected and ordered by is grouped by (if anything is). *)
Theorem c117_question : forall m m' os os' style, style <> style_dollar -> stmt_ok m -> named m -> describes os m -> stmt_ok m' -> named m' -> describes os' m' -> joins_moved m m' -> by_groups m ->
  exists q q', apply_ops os new_qb = ROk q /\ apply_ops os' new_qb = ROk q' /\ forall n, 5 + m_size m <= n -> 5 + m_size m' <= n -> exists s args s' args',
    fst (build_query n style [q] (BQuery (Some 0))) = ROk (s, args) /\ fst (build_query n style [q'] (BQuery (Some 0))) = ROk (s', args') /\
    forall E rows, tableless (database_of E) m -> executes E args' s' rows <-> executes E args s rows.
Proof. exact joins_question. Qed.
Print Assumptions c117_question.
Theorem c117_dollar : forall m m' os os', stmt_ok m -> named m -> describes os m -> stmt_ok m' -> named m' -> describes os' m' -> joins_moved m m' -> by_groups m -> forallb hashable (m_args m) = true ->
  exists q q', apply_ops os new_qb = ROk q /\ apply_ops os' new_qb = ROk q' /\ forall n, 5 + m_size m <= n -> 5 + m_size m' <= n -> exists s args s' args',
    fst (build_query n style_dollar [q] (BQuery (Some 0))) = ROk (s, args) /\ fst (build_query n style_dollar [q'] (BQuery (Some 0))) = ROk (s', args') /\
    forall E rows, by_value E -> tableless (database_of E) m -> executes E args' s' rows <-> executes E args s rows.
Proof. exact joins_dollar. Qed.
Print Assumptions c117_dollar.

(** Users with others of the same number and those whose identifier it is. *)
Definition jv : join := mkJoin JInner ("users", "v") ("v", "n") ("u", "n").
Definition jw : join := mkJoin JLeft ("users", "w") ("w", "id") ("u", "n").
Definition three (js : list join) : stmt :=
  mkStmt false [("u", "id"); ("v", "id"); ("w", "id")] ("users", "u") js [Compare ("u", "id") ">" (VInt "int" 1)] [] [] 0 0.
Definition three_calls (js : list qop) : list qop :=
  ([OSelect [column "u" "id"; column "v" "id"; column "w" "id"]; OFrom ("users", "u")] ++ js ++ [OWhere2 (column "u" "id") ">" (VInt "int" 1)])%list.
Definition call_v : qop := OInnerJoin ("users", "v") (join_on jv).
Definition call_w : qop := OLeftJoin ("users", "w") (join_on jw).
Ltac ok_three := split; [apply conj; [discriminate|]; apply conj; [reflexivity|]; apply conj; [repeat constructor|]; apply conj; [repeat (constructor; [cbn; intuition discriminate|]); constructor|];
    apply conj; [cbn; repeat (constructor; [split; [reflexivity|right; cbn; tauto]|]); constructor|]; apply conj; [repeat constructor|constructor]|intros j [<-|[<-|[]]]; (split; [intros _; exact Logic.I|reflexivity])].
Ltac named_three := unfold three, jv, jw; apply conj; [discriminate|]; apply conj; [repeat (constructor; [is_col|]); constructor|]; apply conj; [split; [is_name|right; is_name]|];
    apply conj; [do 2 (constructor; [apply conj; [split; [is_name|right; is_name]|split; is_col]|]); constructor|];
    apply conj; [constructor; [split; [is_col|left; split; reflexivity]|constructor]|]; apply conj; [constructor|constructor].
Example c117_example :
  let a := three [jv; jw] in let b := three [jw; jv] in
  stmt_ok a /\ stmt_ok b /\ named a /\ named b /\ describes (three_calls [call_v; call_w]) a /\ describes (three_calls [call_w; call_v]) b /\
  joins_moved a b /\ by_groups a /\ tableless (database_of users) a /\ by_value users /\ forallb hashable (m_args a) = true /\
  executes users [VInt "int" 1] "SELECT u.id, v.id, w.id FROM users AS u INNER JOIN users AS v ON v.n=u.n LEFT JOIN users AS w ON w.id=u.n WHERE u.id>?" [[2; 2; 0]; [3; 1; 0]; [3; 3; 0]]%Z /\
  executes users [VInt "int" 1] "SELECT u.id, v.id, w.id FROM users AS u LEFT JOIN users AS w ON w.id=u.n INNER JOIN users AS v ON v.n=u.n WHERE u.id>?" [[2; 2; 0]; [3; 1; 0]; [3; 3; 0]]%Z.
Proof.
  cbv zeta. apply conj; [ok_three|]. apply conj; [ok_three|]. apply conj; [named_three|]. apply conj; [named_three|].
  do 2 (apply conj; [unfold describes; do 10 (apply conj; [reflexivity|]); reflexivity|]).
  apply conj; [do 3 (split; [reflexivity|]); split; [|repeat split]; apply (rj_swap [] jv jw []); [exact Logic.I|exact Logic.I|intros [K|K]; discriminate K|intros [K|K]; discriminate K]|].
  apply conj; [left; reflexivity|]. apply conj; [intros c g g' _ _; reflexivity|]. apply conj; [apply c108_example|]. apply conj; [reflexivity|].
  apply conj; runs [([2; 2; 0], [] : list Z); ([3; 1; 0], [] : list Z); ([3; 3; 0], [] : list Z)]%Z; apply Permutation_refl.
Qed.

(** Not so with RightJoin: it adds rows, which an inner join after it removes and
    one before it does not. *)
Definition jr : join := mkJoin JRight ("users", "w") ("w", "id") ("u", "id").
Definition ji : join := mkJoin JInner ("users", "v") ("v", "id") ("u", "n").
Definition right_stmt (js : list join) : stmt := mkStmt false [("w", "id")] ("users", "u") js [] [] [] 0 0.
Definition right_calls (js : list qop) : list qop := ([OSelect [column "w" "id"]; OFrom ("users", "u")] ++ js)%list.
Definition call_r : qop := ORightJoin ("users", "w") (join_on jr).
Definition call_i : qop := OInnerJoin ("users", "v") (join_on ji).
Theorem c117_right_refuted : exists q q' s s',
  describes (right_calls [call_i; call_r]) (right_stmt [ji; jr]) /\ describes (right_calls [call_r; call_i]) (right_stmt [jr; ji]) /\
  ~ mentions jr (known_as (j_table ji)) /\ ~ mentions ji (known_as (j_table jr)) /\
  apply_ops (right_calls [call_i; call_r]) new_qb = ROk q /\ apply_ops (right_calls [call_r; call_i]) new_qb = ROk q' /\
  fst (build_query 20 style_question [q] (BQuery (Some 0))) = ROk (s, []) /\ fst (build_query 20 style_question [q'] (BQuery (Some 0))) = ROk (s', []) /\
  executes users [] s [[1]; [2]; [3]]%Z /\ executes users [] s' [] /\ ~ executes users [] s' [[1]; [2]; [3]]%Z.
Proof.
  do 4 eexists. do 2 (apply conj; [unfold describes; do 10 (apply conj; [reflexivity|]); reflexivity|]).
  do 2 (apply conj; [intros [K|K]; discriminate K|]).
  do 2 (apply conj; [cbv; reflexivity|]). do 2 (apply conj; [vm_compute; reflexivity|]).
  apply conj.
  - runs [([1], [] : list Z); ([2], [] : list Z); ([3], [] : list Z)]%Z. apply Permutation_refl.
  - apply conj.
    { do 4 eexists. split; [vm_compute; reflexivity|]. split; [vm_compute; reflexivity|]. split; [cbn; reflexivity|]. split; [exists []|]. 2: { instantiate (1 := []). reflexivity. }
      split; [cbn; apply Permutation_refl|split; [constructor|reflexivity]]. }
    intros (r & m & ts & l & R & M & T & (s & P & _ & C) & E). vm_compute in R. injection R as <-. vm_compute in M. injection M as <-. cbn in T. injection T as <-.
    cbn in P. apply Permutation_length in P. cbn in C. subst l. apply (f_equal (@List.length _)) in E. rewrite map_length in E. pose proof (eq_trans E P) as K. discriminate K.
Qed.
Print Assumptions c117_right_refuted.
