(** Property C115: Distinct only removes repeated rows.  The vocabulary is in
    Spec_exec.v and Spec_dedup.v; the proofs are in Dedup_proofs.v. *)
From Coq Require Import Strings.String Strings.Ascii NArith ZArith List Bool Lia Sorting.Permutation Sorting.Sorted.
From Verif Require Import GoStr GoNum Syntax Value Util Model Sqlf Sqlb Spec_syntax RefSem Spec_build Spec_util Spec_eval Spec_query Spec_sql Spec_interp Spec_answer
  Dedup_proofs Prop_pages Spec_sqltok Spec_read Spec_exec Spec_dedup.
Import ListNotations.
Open Scope string_scope.

(** C115: for calls with and without Distinct, the answers of the former have no
    row twice, and have the same rows as those of the latter, followed by the
    values ordered by; although unneeded optional joins are left out with
    Distinct.  (Conditions on these joins and on groups as in C76.) *)
Theorem c115_question : forall m m' os os' style, style <> style_dollar -> stmt_ok m -> named m -> describes os m -> stmt_ok m' -> named m' -> describes os' m' ->
  but_distinct m m' -> closed m -> by_groups m -> m_limit m = 0%Z -> m_offset m = 0%Z ->
  exists q q', apply_ops os new_qb = ROk q /\ apply_ops os' new_qb = ROk q' /\ forall n, 5 + m_size m <= n -> 5 + m_size m' <= n -> exists s args s' args',
    fst (build_query n style [q] (BQuery (Some 0))) = ROk (s, args) /\ fst (build_query n style [q'] (BQuery (Some 0))) = ROk (s', args') /\
    forall E rows rows', tableless (database_of E) m -> executes E args s rows -> executes E args' s' rows' ->
      NoDup rows /\ (forall r, In r rows' <-> In r (map (firstn (List.length (m_cols m))) rows)).
Proof. exact dedup_question. Qed.
Print Assumptions c115_question.
Theorem c115_dollar : forall m m' os os', stmt_ok m -> named m -> describes os m -> stmt_ok m' -> named m' -> describes os' m' ->
  but_distinct m m' -> closed m -> by_groups m -> m_limit m = 0%Z -> m_offset m = 0%Z -> forallb hashable (m_args m) = true ->
  exists q q', apply_ops os new_qb = ROk q /\ apply_ops os' new_qb = ROk q' /\ forall n, 5 + m_size m <= n -> 5 + m_size m' <= n -> exists s args s' args',
    fst (build_query n style_dollar [q] (BQuery (Some 0))) = ROk (s, args) /\ fst (build_query n style_dollar [q'] (BQuery (Some 0))) = ROk (s', args') /\
    forall E rows rows', by_value E -> tableless (database_of E) m -> executes E args s rows -> executes E args' s' rows' ->
      NoDup rows /\ (forall r, In r rows' <-> In r (map (firstn (List.length (m_cols m))) rows)).
Proof. exact dedup_dollar. Qed.
Print Assumptions c115_dollar.

(** The numbers of the users of C108, with an optional join that is not needed. *)
Definition numbers (d : bool) : stmt :=
  mkStmt d [("u", "n")] ("users", "u") [mkJoin (JOptional (negb d)) ("users", "v") ("v", "n") ("u", "n")] [Compare ("u", "id") ">" (VInt "int" 0)] [] [] 0 0.
Definition number_calls (d : list qop) : list qop :=
  (d ++ [OSelect [column "u" "n"]; OFrom ("users", "u"); OLeftJoinOptional ("users", "v") (join_on (mkJoin JLeft ("users", "v") ("v", "n") ("u", "n"))); OWhere2 (column "u" "id") ">" (VInt "int" 0)])%list.
Ltac ok_numbers := apply conj; [discriminate|]; apply conj; [reflexivity|]; apply conj; [constructor; [reflexivity|constructor]|]; apply conj; [constructor; [cbn; intuition discriminate|constructor; [intros []|constructor]]|];
    apply conj; [cbn; repeat (constructor; [split; [reflexivity|right; cbn; tauto]|]); constructor|]; apply conj; [repeat constructor|constructor].
Ltac named_numbers := unfold numbers; apply conj; [discriminate|]; apply conj; [repeat (constructor; [is_col|]); constructor|]; apply conj; [split; [is_name|right; is_name]|];
    apply conj; [constructor; [apply conj; [split; [is_name|right; is_name]|split; is_col]|constructor]|];
    apply conj; [constructor; [split; [is_col|left; split; reflexivity]|constructor]|]; apply conj; [constructor|constructor].
Example c115_example :
  stmt_ok (numbers true) /\ stmt_ok (numbers false) /\ named (numbers true) /\ named (numbers false) /\
  describes (number_calls [ODistinct]) (numbers true) /\ describes (number_calls []) (numbers false) /\
  but_distinct (numbers true) (numbers false) /\ closed (numbers true) /\ by_groups (numbers true) /\ tableless (database_of users) (numbers true) /\ by_value users /\
  forallb hashable (m_args (numbers true)) = true /\
  executes users [VInt "int" 0] "SELECT DISTINCT u.n FROM users AS u WHERE u.id>?" [[7]; [5]]%Z /\
  executes users [VInt "int" 0] "SELECT u.n FROM users AS u LEFT JOIN users AS v ON v.n=u.n WHERE u.id>?" [[7]; [7]; [5]; [7]; [7]]%Z.
Proof.
  assert (U : forall cs t, (forall c, In c cs -> fst c = "u") -> needs (numbers true) cs t -> t = "u").
  { intros cs t Hcs H. induction H as [c Hc _|j c _ IH Hj _ _].
    - destruct Hc as [<-|Hc]; [reflexivity|]. change (In c (cs ++ [])) in Hc. rewrite app_nil_r in Hc. apply Hcs, Hc.
    - destruct Hj as [<-|[]]. discriminate IH. }
  apply conj. { split; [ok_numbers|]. intros j [<-|[]]. split; [discriminate|]. intros K. specialize (K eq_refl). apply U in K; [discriminate K|]. intros c [<-|[]]. reflexivity. }
  apply conj. { split; [ok_numbers|]. intros j [<-|[]]. split; [intros _ K; discriminate K|reflexivity]. }
  apply conj; [named_numbers|]. apply conj; [named_numbers|].
  do 2 (apply conj; [unfold describes; do 10 (apply conj; [reflexivity|]); reflexivity|]).
  apply conj; [repeat split; constructor; [repeat split|constructor]|]. apply conj; [intros j i [<-|[]] _ []|]. apply conj; [left; reflexivity|]. apply conj; [intros c g g' _ _; reflexivity|].
  apply conj; [apply c108_example|]. apply conj; [reflexivity|].
  apply conj; [|runs [([7], [] : list Z); ([7], [] : list Z); ([5], [] : list Z); ([7], [] : list Z); ([7], [] : list Z)]%Z; apply Permutation_refl].
  runs [([7], [] : list Z); ([5], [] : list Z)]%Z. split; [repeat constructor; cbn; intuition discriminate|]. intros x. cbn. tauto.
Qed.

(** With an order the selected values may come twice: the values ordered by are
    selected as well, and tell them apart. *)
Definition ordered_numbers : stmt := mkStmt true [("u", "n")] ("users", "u") [] [] [] [(("u", "id"), 0%N)] 0 0.
Definition ordered_calls : list qop := [ODistinct; OSelect [column "u" "n"]; OFrom ("users", "u"); OOrderBy (column "u" "id") 0].
Theorem c115_order_refuted : exists q s,
  describes ordered_calls ordered_numbers /\ apply_ops ordered_calls new_qb = ROk q /\ fst (build_query 20 style_question [q] (BQuery (Some 0))) = ROk (s, []) /\
  executes users [] s [[7; 1]; [5; 2]; [7; 3]]%Z /\ ~ NoDup (map (firstn 1) [[7; 1]; [5; 2]; [7; 3]]%Z).
Proof.
  do 2 eexists. apply conj; [unfold describes; do 10 (apply conj; [reflexivity|]); reflexivity|].
  apply conj; [cbv; reflexivity|]. apply conj; [vm_compute; reflexivity|]. apply conj.
  - do 4 eexists. split; [vm_compute; reflexivity|]. split; [vm_compute; reflexivity|]. split; [cbn; reflexivity|]. split; [exists [([7; 1], [1]); ([5; 2], [2]); ([7; 3], [3])]%Z|]. 2: { instantiate (1 := [([7; 1], [1]); ([5; 2], [2]); ([7; 3], [3])]%Z). reflexivity. }
    cbn [m_distinct]. split; [split|split; [repeat constructor|reflexivity]]; [repeat constructor; cbn; intuition discriminate|intros x; cbn; tauto].
  - intros N. inversion N as [|? ? K _]; subst. apply K. right. left. reflexivity.
Qed.
Print Assumptions c115_order_refuted.
