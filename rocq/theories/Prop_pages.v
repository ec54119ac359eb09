(** Property C108: pages by Limit and Offset.  The vocabulary is in Spec_exec.v
    and Spec_pages.v; the proofs are in Pages_proofs.v. *)
From Coq Require Import Strings.String Strings.Ascii NArith ZArith List Bool Lia Sorting.Permutation Sorting.Sorted.
From Verif Require Import GoStr GoNum Syntax Value Util Model Sqlf Sqlb Spec_syntax RefSem Spec_build Spec_util Spec_eval Spec_query Spec_sql Spec_interp Spec_answer
  Pages_proofs Spec_sqltok Spec_read Spec_exec Spec_pages.
Import ListNotations.
Open Scope string_scope.

(** C108: Limit(k) and Offset(i*k) added to any calls without bounds: the
    statement built gives, when executed, page [i] of what the statement without
    them gives (of one of its possible answers, when there are several) ... *)
Theorem c108_question : forall m os style k i, style <> style_dollar -> 0 < k -> stmt_ok m -> named m -> describes os m -> m_limit m = 0%Z -> m_offset m = 0%Z ->
  exists q q', apply_ops os new_qb = ROk q /\ apply_ops (page_calls os k i) new_qb = ROk q' /\ forall n, 5 + m_size m <= n -> exists s args s' args',
    fst (build_query n style [q] (BQuery (Some 0))) = ROk (s, args) /\ fst (build_query n style [q'] (BQuery (Some 0))) = ROk (s', args') /\
    forall E rows, executes E args' s' rows <-> exists all, executes E args s all /\ rows = page k i all.
Proof. exact pages_question. Qed.
Print Assumptions c108_question.
Theorem c108_dollar : forall m os k i, 0 < k -> stmt_ok m -> named m -> describes os m -> m_limit m = 0%Z -> m_offset m = 0%Z -> forallb hashable (m_args m) = true ->
  exists q q', apply_ops os new_qb = ROk q /\ apply_ops (page_calls os k i) new_qb = ROk q' /\ forall n, 5 + m_size m <= n -> exists s args s' args',
    fst (build_query n style_dollar [q] (BQuery (Some 0))) = ROk (s, args) /\ fst (build_query n style_dollar [q'] (BQuery (Some 0))) = ROk (s', args') /\
    forall E rows, by_value E -> executes E args' s' rows <-> exists all, executes E args s all /\ rows = page k i all.
Proof. exact pages_dollar. Qed.
Print Assumptions c108_dollar.

(** ... and the pages together, one after the other, are the first rows, each
    once, if the statement has no more than one answer ... *)
Theorem c108_all_question : forall m os style k, style <> style_dollar -> 0 < k -> stmt_ok m -> named m -> describes os m -> m_limit m = 0%Z -> m_offset m = 0%Z ->
  exists q, apply_ops os new_qb = ROk q /\ forall n, 5 + m_size m <= n -> exists s args,
    fst (build_query n style [q] (BQuery (Some 0))) = ROk (s, args) /\
    forall E all pages p, settled E (trimmed m) -> executes E args s all ->
      (forall i, i < p -> exists q' s' args', apply_ops (page_calls os k i) new_qb = ROk q' /\
        fst (build_query n style [q'] (BQuery (Some 0))) = ROk (s', args') /\ executes E args' s' (pages i)) ->
      concat (map pages (seq 0 p)) = firstn (p * k) all.
Proof. exact all_pages_question. Qed.
Print Assumptions c108_all_question.
Theorem c108_all_dollar : forall m os k, 0 < k -> stmt_ok m -> named m -> describes os m -> m_limit m = 0%Z -> m_offset m = 0%Z -> forallb hashable (m_args m) = true ->
  exists q, apply_ops os new_qb = ROk q /\ forall n, 5 + m_size m <= n -> exists s args,
    fst (build_query n style_dollar [q] (BQuery (Some 0))) = ROk (s, args) /\
    forall E all pages p, by_value E -> settled E (trimmed m) -> executes E args s all ->
      (forall i, i < p -> exists q' s' args', apply_ops (page_calls os k i) new_qb = ROk q' /\
        fst (build_query n style_dollar [q'] (BQuery (Some 0))) = ROk (s', args') /\ executes E args' s' (pages i)) ->
      concat (map pages (seq 0 p)) = firstn (p * k) all.
Proof. exact all_pages_dollar. Qed.
Print Assumptions c108_all_dollar.

(** ... as it does if its order never leaves two different rows equal. *)
Theorem c108_ordered : forall E m, ordered_fully E m -> settled E m.
Proof. exact ordered_settled. Qed.
Print Assumptions c108_ordered.

(** Three users, by falling number or in no order. *)
Definition user (i n : Z) : row_of Z := fun c => if String.eqb c "id" then i else n.
Definition down (os : list N) (a b : list Z) : Prop := match os with 3%N :: _ => (hd 0 b <= hd 0 a)%Z | _ => True end.
Definition users : engine :=
  mkEngine (mkDB Z 0%Z Z.eqb (fun _ => [user 1 7; user 2 5; user 3 7]) Z.eqb (fun _ _ => true) (fun _ _ => 0%Z) down Z.eqb_eq)
    (fun v => match v with VInt _ z => z | _ => 0%Z end) (fun _ => 0%Z) (fun _ v l => existsb (fun w => (w <? v)%Z) l).
Definition by_col (c : string) : stmt := mkStmt false [("u", "id")] ("users", "u") [] [Compare ("u", "id") ">" (VInt "int" 0)] [] [(("u", c), 3%N)] 0 0.
Definition calls (c : string) : list qop :=
  [OSelect [column "u" "id"]; OFrom ("users", "u"); OWhere2 (column "u" "id") ">" (VInt "int" 0); OOrderBy (column "u" c) 3].
Definition text (c rest : string) : string := "SELECT u.id FROM users AS u WHERE u.id>? ORDER BY u." ++ c ++ " DESC" ++ rest.
Ltac is_name := split; [reflexivity|split; [reflexivity|cbn; intuition discriminate]].
Ltac is_col := split; [first [left; reflexivity|right; is_name]|first [left; reflexivity|right; is_name]].
Ltac runs s := do 4 eexists; apply conj; [vm_compute; reflexivity|]; apply conj; [vm_compute; reflexivity|]; apply conj; [cbn; reflexivity|];
  apply conj; [exists s; apply conj; [cbn|apply conj; [repeat constructor; cbn; lia|reflexivity]]|reflexivity].
Example c108_example :
  stmt_ok (by_col "id") /\ named (by_col "id") /\ describes (calls "id") (by_col "id") /\ forallb hashable (m_args (by_col "id")) = true /\ by_value users /\
  ordered_fully users (trimmed (by_col "id")) /\
  (exists q, apply_ops (page_calls (calls "id") 2 1) new_qb = ROk q /\ fst (build_query 20 style_question [q] (BQuery (Some 0))) = ROk (text "id" " LIMIT 2 OFFSET 2", [VInt "int" 0])) /\
  executes users [VInt "int" 0] (text "id" "") [[3%Z]; [2%Z]; [1%Z]] /\
  executes users [VInt "int" 0] (text "id" " LIMIT 2") [[3%Z]; [2%Z]] /\ executes users [VInt "int" 0] (text "id" " LIMIT 2 OFFSET 2") [[1%Z]].
Proof.
  apply conj.
  { apply conj; [|intros j []]. apply conj; [discriminate|]. apply conj; [reflexivity|]. apply conj; [constructor|].
    apply conj; [cbn; repeat constructor; cbn; intuition discriminate|].
    apply conj; [cbn [m_used by_col m_cols m_conds m_groups m_orders m_joins map app cond_col fst snd flat_map]; repeat (constructor; [split; [reflexivity|cbn; tauto]|]); constructor|].
    apply conj; [cbn [by_col m_conds]; repeat constructor|]. repeat (constructor; [discriminate|]). constructor. }
  apply conj.
  { apply conj; [discriminate|]. apply conj; [repeat (constructor; [is_col|]); constructor|]. apply conj; [split; [is_name|right; is_name]|].
    apply conj; [constructor|]. apply conj; [cbn [by_col m_conds]; repeat (constructor; [split; [is_col|first [exact Logic.I|left; split; reflexivity]]|]); constructor|].
    apply conj; [constructor|]. constructor; [split; [is_col|discriminate]|constructor]. }
  apply conj; [unfold describes; do 10 (apply conj; [reflexivity|]); reflexivity|]. apply conj; [reflexivity|].
  apply conj.
  { intros v w [->|H]; [reflexivity|]. destruct v, w; try reflexivity; cbn in H |- *; try discriminate. apply andb_prop in H. destruct H as [_ H]. apply Z.eqb_eq in H. exact H. }
  apply conj.
  { intros x y Hx Hy. cbn in Hx, Hy. destruct Hx as [<-|[<-|[<-|[]]]], Hy as [<-|[<-|[<-|[]]]]; cbn; intros; first [reflexivity|lia]. }
  apply conj; [eexists; split; [cbv; reflexivity|vm_compute; reflexivity]|].
  assert (P : Permutation [([3%Z], [3%Z]); ([2%Z], [2%Z]); ([1%Z], [1%Z])] [([1%Z], [1%Z]); ([2%Z], [2%Z]); ([3%Z], [3%Z])]).
  { change [([1%Z], [1%Z]); ([2%Z], [2%Z]); ([3%Z], [3%Z])] with (rev [([3%Z], [3%Z]); ([2%Z], [2%Z]); ([1%Z], [1%Z])]). apply Permutation_rev. }
  apply conj; [|apply conj]; runs [([3%Z], [3%Z]); ([2%Z], [2%Z]); ([1%Z], [1%Z])]; exact P.
Qed.

(** Not so in general: with rows that are equal in order, the first row may be on
    two pages, and another row on none. *)
Theorem c108_equal_refuted : exists q q0 q1 q2 s s0 s1 s2 args args0 args1 args2,
  describes (calls "n") (by_col "n") /\ apply_ops (calls "n") new_qb = ROk q /\
  apply_ops (page_calls (calls "n") 1 0) new_qb = ROk q0 /\ apply_ops (page_calls (calls "n") 1 1) new_qb = ROk q1 /\ apply_ops (page_calls (calls "n") 1 2) new_qb = ROk q2 /\
  fst (build_query 20 style_question [q] (BQuery (Some 0))) = ROk (s, args) /\ fst (build_query 20 style_question [q0] (BQuery (Some 0))) = ROk (s0, args0) /\
  fst (build_query 20 style_question [q1] (BQuery (Some 0))) = ROk (s1, args1) /\ fst (build_query 20 style_question [q2] (BQuery (Some 0))) = ROk (s2, args2) /\
  executes users args s [[1%Z]; [3%Z]; [2%Z]] /\
  executes users args0 s0 [[1%Z]] /\ executes users args1 s1 [[1%Z]] /\ executes users args2 s2 [[2%Z]].
Proof.
  do 12 eexists. apply conj; [unfold describes; do 10 (apply conj; [reflexivity|]); reflexivity|]. do 4 (apply conj; [cbv; reflexivity|]). do 4 (apply conj; [vm_compute; reflexivity|]).
  assert (P : Permutation [([1%Z], [7%Z]); ([3%Z], [7%Z]); ([2%Z], [5%Z])] [([1%Z], [7%Z]); ([2%Z], [5%Z]); ([3%Z], [7%Z])]) by (apply perm_skip, perm_swap).
  assert (Q : Permutation [([3%Z], [7%Z]); ([1%Z], [7%Z]); ([2%Z], [5%Z])] [([1%Z], [7%Z]); ([2%Z], [5%Z]); ([3%Z], [7%Z])]) by (eapply perm_trans; [apply perm_swap|exact P]).
  apply conj; [runs [([1%Z], [7%Z]); ([3%Z], [7%Z]); ([2%Z], [5%Z])]; exact P|]. apply conj; [runs [([1%Z], [7%Z]); ([3%Z], [7%Z]); ([2%Z], [5%Z])]; exact P|].
  apply conj; [runs [([3%Z], [7%Z]); ([1%Z], [7%Z]); ([2%Z], [5%Z])]; exact Q|runs [([1%Z], [7%Z]); ([3%Z], [7%Z]); ([2%Z], [5%Z])]; exact P].
Qed.
Print Assumptions c108_equal_refuted.

(** Nor can one go back to the first page with the same builder: Offset(0) leaves
    the offset as it is. *)
Theorem c108_back_refuted : exists q q', apply_ops (page_calls (page_calls (calls "id") 2 1) 2 0) new_qb = ROk q /\ apply_ops (page_calls (calls "id") 2 0) new_qb = ROk q' /\
  fst (build_query 20 style_question [q] (BQuery (Some 0))) = ROk (text "id" " LIMIT 2 OFFSET 2", [VInt "int" 0]) /\
  fst (build_query 20 style_question [q'] (BQuery (Some 0))) = ROk (text "id" " LIMIT 2", [VInt "int" 0]).
Proof. do 2 eexists. apply conj; [cbv; reflexivity|]. apply conj; [cbv; reflexivity|]. apply conj; vm_compute; reflexivity. Qed.
Print Assumptions c108_back_refuted.
