(** Property C116: grouping.  The vocabulary is in Spec_exec.v and
    Spec_regroup.v; the proofs are in Regroup_proofs.v. *)
From Coq Require Import Strings.String Strings.Ascii NArith ZArith List Bool Lia Sorting.Permutation Sorting.Sorted.
From Verif Require Import GoStr GoNum Syntax Value Util Model Sqlf Sqlb Spec_syntax RefSem Spec_build Spec_util Spec_eval Spec_query Spec_sql Spec_interp Spec_answer
  Regroup_proofs Prop_pages Spec_sqltok Spec_read Spec_exec Spec_dedup Spec_regroup.
Import ListNotations.
Open Scope string_scope.

(** C116: the order of the columns given to GroupBy, and whether one is given
    again, changes no answer ... *)
Theorem c116_regroup_question : forall m m' os os' style, style <> style_dollar -> stmt_ok m -> named m -> describes os m -> stmt_ok m' -> named m' -> describes os' m' -> regroups m m' ->
  exists q q', apply_ops os new_qb = ROk q /\ apply_ops os' new_qb = ROk q' /\ forall n, 5 + m_size m <= n -> 5 + m_size m' <= n -> exists s args s' args',
    fst (build_query n style [q] (BQuery (Some 0))) = ROk (s, args) /\ fst (build_query n style [q'] (BQuery (Some 0))) = ROk (s', args') /\
    forall E rows, executes E args' s' rows <-> executes E args s rows.
Proof. exact regroup_question. Qed.
Print Assumptions c116_regroup_question.
Theorem c116_regroup_dollar : forall m m' os os', stmt_ok m -> named m -> describes os m -> stmt_ok m' -> named m' -> describes os' m' -> regroups m m' -> forallb hashable (m_args m) = true ->
  exists q q', apply_ops os new_qb = ROk q /\ apply_ops os' new_qb = ROk q' /\ forall n, 5 + m_size m <= n -> 5 + m_size m' <= n -> exists s args s' args',
    fst (build_query n style_dollar [q] (BQuery (Some 0))) = ROk (s, args) /\ fst (build_query n style_dollar [q'] (BQuery (Some 0))) = ROk (s', args') /\
    forall E rows, by_value E -> executes E args' s' rows <-> executes E args s rows.
Proof. exact regroup_dollar. Qed.
Print Assumptions c116_regroup_dollar.

(** ... and grouping by what is selected and ordered by gives the answers of
    Distinct (which also shows the values ordered by), with any bounds. *)
Theorem c116_instead_question : forall m m' os os' style, style <> style_dollar -> stmt_ok m -> named m -> describes os m -> stmt_ok m' -> named m' -> describes os' m' -> groups_instead m m' -> closed m ->
  exists q q', apply_ops os new_qb = ROk q /\ apply_ops os' new_qb = ROk q' /\ forall n, 5 + m_size m <= n -> 5 + m_size m' <= n -> exists s args s' args',
    fst (build_query n style [q] (BQuery (Some 0))) = ROk (s, args) /\ fst (build_query n style [q'] (BQuery (Some 0))) = ROk (s', args') /\
    forall E rows', tableless (database_of E) m ->
      executes E args' s' rows' <-> exists rows, executes E args s rows /\ rows' = map (firstn (List.length (m_cols m))) rows.
Proof. exact instead_question. Qed.
Print Assumptions c116_instead_question.
Theorem c116_instead_dollar : forall m m' os os', stmt_ok m -> named m -> describes os m -> stmt_ok m' -> named m' -> describes os' m' -> groups_instead m m' -> closed m -> forallb hashable (m_args m) = true ->
  exists q q', apply_ops os new_qb = ROk q /\ apply_ops os' new_qb = ROk q' /\ forall n, 5 + m_size m <= n -> 5 + m_size m' <= n -> exists s args s' args',
    fst (build_query n style_dollar [q] (BQuery (Some 0))) = ROk (s, args) /\ fst (build_query n style_dollar [q'] (BQuery (Some 0))) = ROk (s', args') /\
    forall E rows', by_value E -> tableless (database_of E) m ->
      executes E args' s' rows' <-> exists rows, executes E args s rows /\ rows' = map (firstn (List.length (m_cols m))) rows.
Proof. exact instead_dollar. Qed.
Print Assumptions c116_instead_dollar.

(** The users of C108 in groups, and their first number with Distinct and with
    GroupBy. *)
Definition in_groups (gs : list col) : stmt := mkStmt false [("u", "n")] ("users", "u") [] [Compare ("u", "id") ">" (VInt "int" 0)] gs [] 0 0.
Definition group_calls (gs : list col) : list qop :=
  [OSelect [column "u" "n"]; OFrom ("users", "u"); OWhere2 (column "u" "id") ">" (VInt "int" 0); OGroupBy (map (fun c => column (fst c) (snd c)) gs)].
Definition top (d : bool) (gs : list col) : stmt := mkStmt d [("u", "n")] ("users", "u") [] [Compare ("u", "id") ">" (VInt "int" 0)] gs [(("u", "n"), 3%N)] 1 0.
Definition top_calls (os : list qop) : list qop :=
  (os ++ [OSelect [column "u" "n"]; OFrom ("users", "u"); OWhere2 (column "u" "id") ">" (VInt "int" 0); OOrderBy (column "u" "n") 3; OLimit 1])%list.
Ltac ok_top := split; [apply conj; [discriminate|]; apply conj; [reflexivity|]; apply conj; [constructor|]; apply conj; [repeat constructor; intros []|];
    apply conj; [cbn; repeat (constructor; [split; [reflexivity|right; left; reflexivity]|]); constructor|]; apply conj; [repeat constructor|cbn; repeat (constructor; [discriminate|]); constructor]|intros j []].
Ltac named_top := unfold top, in_groups; apply conj; [discriminate|]; apply conj; [repeat (constructor; [is_col|]); constructor|]; apply conj; [split; [is_name|right; is_name]|]; apply conj; [constructor|];
    apply conj; [constructor; [split; [is_col|left; split; reflexivity]|constructor]|]; apply conj; [repeat (constructor; [is_col|]); constructor|repeat (constructor; [split; [is_col|discriminate]|]); constructor].
Example c116_example :
  let n := ("u", "n") in let i := ("u", "id") in let a := in_groups [n; i] in let b := in_groups [i; n; i] in let c := top true [] in let d := top false [n] in
  stmt_ok a /\ stmt_ok b /\ stmt_ok c /\ stmt_ok d /\ named a /\ named b /\ named c /\ named d /\
  describes (group_calls [n; i]) a /\ describes (group_calls [i; n; i]) b /\ describes (top_calls [ODistinct]) c /\ describes (top_calls [OGroupBy [column "u" "n"]]) d /\
  regroups a b /\ groups_instead c d /\ closed c /\ tableless (database_of users) c /\ by_value users /\ forallb hashable (m_args a) = true /\ forallb hashable (m_args c) = true /\
  executes users [VInt "int" 0] "SELECT u.n FROM users AS u WHERE u.id>? GROUP BY u.n, u.id" [[7]; [5]; [7]]%Z /\
  executes users [VInt "int" 0] "SELECT u.n FROM users AS u WHERE u.id>? GROUP BY u.id, u.n, u.id" [[7]; [5]; [7]]%Z /\
  executes users [VInt "int" 0] "SELECT DISTINCT u.n, u.n AS _order_1 FROM users AS u WHERE u.id>? ORDER BY _order_1 DESC LIMIT 1" [[7; 7]]%Z /\
  executes users [VInt "int" 0] "SELECT u.n FROM users AS u WHERE u.id>? GROUP BY u.n ORDER BY u.n DESC LIMIT 1" [[7]]%Z.
Proof.
  cbv zeta. do 4 (apply conj; [ok_top|]). do 4 (apply conj; [named_top|]).
  do 4 (apply conj; [unfold describes; do 10 (apply conj; [reflexivity|]); reflexivity|]).
  apply conj; [repeat (split; [reflexivity|]); split; [intros c; cbn; tauto|repeat split]|].
  apply conj; [do 4 (split; [reflexivity|]); split; [constructor|]; do 2 (split; [reflexivity|]); split; [intros c; cbn; tauto|repeat split]|].
  apply conj; [intros j i []|]. apply conj; [intros c g g' _ _; reflexivity|]. apply conj; [apply c108_example|]. do 2 (apply conj; [reflexivity|]).
  do 2 (apply conj; [runs [([7], [] : list Z); ([5], [] : list Z); ([7], [] : list Z)]%Z; apply Permutation_refl|]).
  apply conj.
  - do 4 eexists. split; [vm_compute; reflexivity|]. split; [vm_compute; reflexivity|]. split; [cbn; reflexivity|]. split; [exists [([7; 7], [7]); ([5; 5], [5])]%Z|]. 2: { instantiate (1 := [([7; 7], [7])]%Z). reflexivity. }
    cbn [m_distinct]. split; [split|split; [repeat constructor; cbn; lia|reflexivity]]; [repeat constructor; cbn; intuition discriminate|intros x; cbn; tauto].
  - do 4 eexists. split; [vm_compute; reflexivity|]. split; [vm_compute; reflexivity|]. split; [cbn; reflexivity|]. split; [exists [([7], [7]); ([5], [5])]%Z|]. 2: { instantiate (1 := [([7], [7])]%Z). reflexivity. }
    cbn [m_distinct]. split; [cbn; apply Permutation_refl|split; [repeat constructor; cbn; lia|reflexivity]].
Qed.
