(** Property C112: Select only chooses the columns, and OrderBy the order, of the
    same rows.  The vocabulary is in Spec_exec.v and Spec_pick.v; the proofs are
    in Pick_proofs.v. *)
From Coq Require Import Strings.String Strings.Ascii NArith ZArith List Bool Lia Sorting.Permutation Sorting.Sorted.
From Verif Require Import GoStr GoNum Syntax Value Util Model Sqlf Sqlb Spec_syntax RefSem Spec_build Spec_util Spec_eval Spec_query Spec_sql Spec_interp Spec_answer
  Pick_proofs Prop_pages Spec_sqltok Spec_read Spec_exec Spec_pick.
Import ListNotations.
Open Scope string_scope.

(** C112: for calls that differ in the selected columns, without Distinct, every
    answer of one statement belongs to one of the other, row by row with the same
    values in the same columns ... *)
Theorem c112_select_question : forall m m' os os' style, style <> style_dollar -> stmt_ok m -> named m -> describes os m -> stmt_ok m' -> named m' -> describes os' m' ->
  m_distinct m = false -> reselects m m' ->
  exists q q', apply_ops os new_qb = ROk q /\ apply_ops os' new_qb = ROk q' /\ forall n, 5 + m_size m <= n -> 5 + m_size m' <= n -> exists s args s' args',
    fst (build_query n style [q] (BQuery (Some 0))) = ROk (s, args) /\ fst (build_query n style [q'] (BQuery (Some 0))) = ROk (s', args') /\
    forall E rows, executes E args s rows -> exists rows', executes E args' s' rows' /\ Forall2 (row_agrees m m') rows rows'.
Proof. exact select_question. Qed.
Print Assumptions c112_select_question.
Theorem c112_select_dollar : forall m m' os os', stmt_ok m -> named m -> describes os m -> stmt_ok m' -> named m' -> describes os' m' ->
  m_distinct m = false -> reselects m m' -> forallb hashable (m_args m) = true ->
  exists q q', apply_ops os new_qb = ROk q /\ apply_ops os' new_qb = ROk q' /\ forall n, 5 + m_size m <= n -> 5 + m_size m' <= n -> exists s args s' args',
    fst (build_query n style_dollar [q] (BQuery (Some 0))) = ROk (s, args) /\ fst (build_query n style_dollar [q'] (BQuery (Some 0))) = ROk (s', args') /\
    forall E rows, by_value E -> executes E args s rows -> exists rows', executes E args' s' rows' /\ Forall2 (row_agrees m m') rows rows'.
Proof. exact select_dollar. Qed.
Print Assumptions c112_select_dollar.

(** ... and for calls that differ in their orders the answers have the same rows,
    without Distinct and bounds. *)
Theorem c112_order_question : forall m m' os os' style, style <> style_dollar -> stmt_ok m -> named m -> describes os m -> stmt_ok m' -> named m' -> describes os' m' ->
  m_distinct m = false -> m_limit m = 0%Z -> m_offset m = 0%Z -> reorders m m' ->
  exists q q', apply_ops os new_qb = ROk q /\ apply_ops os' new_qb = ROk q' /\ forall n, 5 + m_size m <= n -> 5 + m_size m' <= n -> exists s args s' args',
    fst (build_query n style [q] (BQuery (Some 0))) = ROk (s, args) /\ fst (build_query n style [q'] (BQuery (Some 0))) = ROk (s', args') /\
    forall E rows rows', executes E args s rows -> executes E args' s' rows' -> Permutation rows rows'.
Proof. exact reorder_question. Qed.
Print Assumptions c112_order_question.
Theorem c112_order_dollar : forall m m' os os', stmt_ok m -> named m -> describes os m -> stmt_ok m' -> named m' -> describes os' m' ->
  m_distinct m = false -> m_limit m = 0%Z -> m_offset m = 0%Z -> reorders m m' -> forallb hashable (m_args m) = true ->
  exists q q', apply_ops os new_qb = ROk q /\ apply_ops os' new_qb = ROk q' /\ forall n, 5 + m_size m <= n -> 5 + m_size m' <= n -> exists s args s' args',
    fst (build_query n style_dollar [q] (BQuery (Some 0))) = ROk (s, args) /\ fst (build_query n style_dollar [q'] (BQuery (Some 0))) = ROk (s', args') /\
    forall E rows rows', by_value E -> executes E args s rows -> executes E args' s' rows' -> Permutation rows rows'.
Proof. exact reorder_dollar. Qed.
Print Assumptions c112_order_dollar.

(** The users of C108 by their identifiers, selected or not. *)
Definition picks (cols : list col) (orders : list (col * N)) : stmt := mkStmt false cols ("users", "u") [] [Compare ("u", "id") ">" (VInt "int" 1)] [] orders 0 0.
Definition pick_calls (d : list qop) (cols : list col) (orders : list (col * N)) : list qop :=
  (d ++ [OSelect (map (fun c => column (fst c) (snd c)) cols); OFrom ("users", "u"); OWhere2 (column "u" "id") ">" (VInt "int" 1)] ++ map (fun o => OOrderBy (column (fst (fst o)) (snd (fst o))) (snd o)) orders)%list.
Definition id_col : col := ("u", "id").
Definition n_col : col := ("u", "n").
Ltac ok_pick := split; [apply conj; [discriminate|]; apply conj; [reflexivity|]; apply conj; [constructor|]; apply conj; [repeat constructor; intros []|];
    apply conj; [cbn; repeat (constructor; [split; [reflexivity|right; left; reflexivity]|]); constructor|]; apply conj; [repeat constructor|cbn; repeat (constructor; [discriminate|]); constructor]|intros j []].
Ltac named_pick := unfold picks, id_col, n_col; apply conj; [discriminate|]; apply conj; [repeat (constructor; [is_col|]); constructor|]; apply conj; [split; [is_name|right; is_name]|]; apply conj; [constructor|];
    apply conj; [constructor; [split; [is_col|left; split; reflexivity]|constructor]|]; apply conj; [constructor|repeat (constructor; [split; [is_col|discriminate]|]); constructor].
Example c112_example :
  let a := picks [id_col; n_col] [(id_col, 3%N)] in let b := picks [n_col] [(id_col, 3%N)] in let c := picks [n_col] [] in
  stmt_ok a /\ stmt_ok b /\ stmt_ok c /\ named a /\ named b /\ named c /\
  describes (pick_calls [] [id_col; n_col] [(id_col, 3%N)]) a /\ describes (pick_calls [] [n_col] [(id_col, 3%N)]) b /\ describes (pick_calls [] [n_col] []) c /\
  reselects a b /\ reorders b c /\
  executes users [VInt "int" 1] "SELECT u.id, u.n FROM users AS u WHERE u.id>? ORDER BY u.id DESC" [[3; 7]; [2; 5]]%Z /\
  executes users [VInt "int" 1] "SELECT u.n FROM users AS u WHERE u.id>? ORDER BY u.id DESC" [[7]; [5]]%Z /\
  executes users [VInt "int" 1] "SELECT u.n FROM users AS u WHERE u.id>?" [[5]; [7]]%Z.
Proof.
  cbv zeta. apply conj; [ok_pick|]. apply conj; [ok_pick|]. apply conj; [ok_pick|]. apply conj; [named_pick|]. apply conj; [named_pick|]. apply conj; [named_pick|].
  do 3 (apply conj; [unfold describes; do 10 (apply conj; [reflexivity|]); reflexivity|]). apply conj; [repeat split|]. apply conj; [repeat split|].
  apply conj; [runs [([3; 7], [3]); ([2; 5], [2])]%Z; apply perm_swap|]. apply conj; [runs [([7], [3]); ([5], [2])]%Z; apply perm_swap|]. runs [([5], [] : list Z); ([7], [] : list Z)]%Z. apply Permutation_refl.
Qed.

(** Not so with Distinct: other columns give another number of rows. *)
Definition distinct_picks (cols : list col) : stmt := mkStmt true cols ("users", "u") [] [] [] [] 0 0.
Definition distinct_calls (cols : list col) : list qop := [ODistinct; OSelect (map (fun c => column (fst c) (snd c)) cols); OFrom ("users", "u")].
Theorem c112_distinct_refuted : exists q q' s s',
  describes (distinct_calls [id_col; n_col]) (distinct_picks [id_col; n_col]) /\ describes (distinct_calls [n_col]) (distinct_picks [n_col]) /\
  reselects (distinct_picks [id_col; n_col]) (distinct_picks [n_col]) /\
  apply_ops (distinct_calls [id_col; n_col]) new_qb = ROk q /\ apply_ops (distinct_calls [n_col]) new_qb = ROk q' /\
  fst (build_query 20 style_question [q] (BQuery (Some 0))) = ROk (s, []) /\ fst (build_query 20 style_question [q'] (BQuery (Some 0))) = ROk (s', []) /\
  executes users [] s [[1; 7]; [2; 5]; [3; 7]]%Z /\ forall rows', executes users [] s' rows' -> List.length rows' = 2.
Proof.
  do 4 eexists. do 2 (apply conj; [unfold describes; do 10 (apply conj; [reflexivity|]); reflexivity|]). apply conj; [repeat split|].
  do 2 (apply conj; [cbv; reflexivity|]). do 2 (apply conj; [vm_compute; reflexivity|]).
  apply conj.
  - do 4 eexists. split; [vm_compute; reflexivity|]. split; [vm_compute; reflexivity|]. split; [cbn; reflexivity|]. split; [exists [([1; 7], [] : list Z); ([2; 5], [] : list Z); ([3; 7], [] : list Z)]%Z|]. 2: { instantiate (1 := [([1; 7], [] : list Z); ([2; 5], [] : list Z); ([3; 7], [] : list Z)]%Z). reflexivity. }
    cbn [m_distinct]. split; [split|split; [repeat constructor|reflexivity]]; [repeat constructor; cbn; intuition discriminate|intros x; cbn; tauto].
  - intros rows' (r & m & ts & l & R & M & T & A & ->). vm_compute in R. injection R as <-. vm_compute in M. injection M as <-. cbn in T. injection T as <-.
    destruct A as (t & (N & I) & _ & ->). cbn in I. rewrite map_length. change (List.length t = List.length [([7], [] : list Z); ([5], [] : list Z)]%Z). apply Permutation_length, NoDup_Permutation; [exact N|repeat constructor; cbn; intuition discriminate|].
    intros x. rewrite I. cbn. tauto.
Qed.
Print Assumptions c112_distinct_refuted.
