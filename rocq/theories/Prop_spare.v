(** Property C121: joins that can be left out.  The vocabulary is in
    Spec_exec.v and Spec_spare.v; the proofs are in Spare_proofs.v. *)
From Coq Require Import Strings.String Strings.Ascii NArith ZArith List Bool Lia Sorting.Permutation Sorting.Sorted.
From Verif Require Import GoStr GoNum Syntax Value Util Model Sqlf Sqlb Spec_syntax RefSem Spec_build Spec_util Spec_eval Spec_query Spec_sql Spec_interp Spec_answer
  Spare_proofs Prop_sides Prop_pages Spec_sqltok Spec_read Spec_exec Spec_joinorder Spec_spare.
Import ListNotations.
Open Scope string_scope.

(** C121: LeftJoin (or LeftJoinOptional) of a table that nothing else mentions
    changes no answer if it finds at most one row for each row joined before, and
    InnerJoin if it finds exactly one. *)
Theorem c121_question : forall pre j m m' os os' style, style <> style_dollar -> stmt_ok m -> named m -> describes os m -> stmt_ok m' -> named m' -> describes os' m' -> join_spared pre j m m' ->
  exists q q', apply_ops os new_qb = ROk q /\ apply_ops os' new_qb = ROk q' /\ forall n, 5 + m_size m <= n -> 5 + m_size m' <= n -> exists s args s' args',
    fst (build_query n style [q] (BQuery (Some 0))) = ROk (s, args) /\ fst (build_query n style [q'] (BQuery (Some 0))) = ROk (s', args') /\
    forall E rows, tableless (database_of E) m -> finds_one (database_of E) m pre j -> executes E args' s' rows <-> executes E args s rows.
Proof. exact spared_question. Qed.
Print Assumptions c121_question.
Theorem c121_dollar : forall pre j m m' os os', stmt_ok m -> named m -> describes os m -> stmt_ok m' -> named m' -> describes os' m' -> join_spared pre j m m' -> forallb hashable (m_args m) = true ->
  exists q q', apply_ops os new_qb = ROk q /\ apply_ops os' new_qb = ROk q' /\ forall n, 5 + m_size m <= n -> 5 + m_size m' <= n -> exists s args s' args',
    fst (build_query n style_dollar [q] (BQuery (Some 0))) = ROk (s, args) /\ fst (build_query n style_dollar [q'] (BQuery (Some 0))) = ROk (s', args') /\
    forall E rows, by_value E -> tableless (database_of E) m -> finds_one (database_of E) m pre j -> executes E args' s' rows <-> executes E args s rows.
Proof. exact spared_dollar. Qed.
Print Assumptions c121_dollar.

(** The orders of C118, with and without their users. *)
Definition ju : join := mkJoin JLeft tu ("u", "id") ("o", "user").
Definition jui : join := mkJoin JInner tu ("u", "id") ("o", "user").
(** One user with two orders. *)
Definition twice : engine :=
  mkEngine (mkDB Z 0%Z Z.eqb (fun t => if String.eqb t "users" then [account 1] else [purchase 1 5; purchase 1 6]) Z.eqb (fun _ _ => true) (fun _ _ => 0%Z) (fun _ _ _ => True) Z.eqb_eq)
    (fun _ => 0%Z) (fun _ => 0%Z) (fun _ _ _ => true).
Definition orders_of (js : list join) : stmt := mkStmt false [("o", "total")] tord js [] [] [] 0 0.
Definition orders_calls (js : list qop) : list qop := ([OSelect [column "o" "total"]; OFrom tord] ++ js)%list.
Ltac named_spare := unfold orders_of, ju, jui, tu, tord; apply conj; [discriminate|]; apply conj; [repeat (constructor; [is_col|]); constructor|]; apply conj; [split; [is_name|right; is_name]|];
    apply conj; [repeat (constructor; [apply conj; [split; [is_name|right; is_name]|split; is_col]|]); constructor|]; apply conj; [constructor|]; apply conj; [constructor|constructor].
Example c121_example :
  let a := orders_of [ju] in let b := orders_of [] in
  stmt_ok a /\ stmt_ok b /\ named a /\ named b /\ describes (orders_calls [OLeftJoin tu (join_on ju)]) a /\ describes (orders_calls []) b /\
  join_spared [] ju a b /\ tableless (database_of shop) a /\ finds_one (database_of shop) a [] ju /\ by_value shop /\ forallb hashable (m_args a) = true /\
  executes shop [] "SELECT o.total FROM orders AS o LEFT JOIN users AS u ON u.id=o.user" [[5]; [6]]%Z /\ executes shop [] "SELECT o.total FROM orders AS o" [[5]; [6]]%Z /\
  let c := orders_of [jui] in
  stmt_ok c /\ named c /\ describes (orders_calls [OInnerJoin tu (join_on jui)]) c /\ join_spared [] jui c b /\ tableless (database_of twice) c /\ finds_one (database_of twice) c [] jui /\
  executes twice [] "SELECT o.total FROM orders AS o INNER JOIN users AS u ON u.id=o.user" [[5]; [6]]%Z /\ executes twice [] "SELECT o.total FROM orders AS o" [[5]; [6]]%Z.
Proof.
  cbv zeta. apply conj; [ok_with|].
  apply conj. { split; [apply conj; [discriminate|]; apply conj; [reflexivity|]; apply conj; [repeat constructor|]; apply conj; [repeat (constructor; [cbn; intuition discriminate|]); constructor|];
    apply conj; [cbn; repeat (constructor; [split; [reflexivity|right; cbn; tauto]|]); constructor|]; apply conj; [constructor|constructor]|intros j []]. }
  do 2 (apply conj; [named_spare|]).
  do 2 (apply conj; [unfold describes; do 10 (apply conj; [reflexivity|]); reflexivity|]).
  apply conj. { split; [exact Logic.I|]. split; [exists []; split; [reflexivity|]; split; [reflexivity|intros i []]|]. split; [intros c [<-|[]]; discriminate|repeat split]. }
  apply conj; [intros c g g' _ _; reflexivity|].
  apply conj. { intros e _. change (List.length (filter (on_holds (database_of shop) ju e) [account 1; account 2]) <= 1). cbn [filter].
    change (on_holds (database_of shop) ju e (account 1)) with (Z.eqb 1 (e "o" "user")). change (on_holds (database_of shop) ju e (account 2)) with (Z.eqb 2 (e "o" "user")).
    destruct (Z.eqb 1 (e "o" "user")) eqn:K1, (Z.eqb 2 (e "o" "user")) eqn:K2; cbn [List.length]; lia. }
  apply conj. { intros v w [->|H]; [reflexivity|]. destruct v, w; try reflexivity; cbn in H |- *; try discriminate. apply andb_prop in H. destruct H as [_ H]. apply Z.eqb_eq in H. exact H. }
  apply conj; [reflexivity|].
  do 2 (apply conj; [all_rows [([5], [] : list Z); ([6], [] : list Z)]%Z; apply Permutation_refl|]).
  apply conj; [ok_with|]. apply conj; [named_spare|]. apply conj; [unfold describes; do 10 (apply conj; [reflexivity|]); reflexivity|].
  apply conj. { split; [exact Logic.I|]. split; [exists []; split; [reflexivity|]; split; [reflexivity|intros i []]|]. split; [intros c [<-|[]]; discriminate|repeat split]. }
  apply conj; [intros c g g' _ _; reflexivity|]. apply conj; [intros e [<-|[<-|[]]]; reflexivity|].
  apply conj; all_rows [([5], [] : list Z); ([6], [] : list Z)]%Z; apply Permutation_refl.
Qed.

(** Not so if more rows are found: a user with two orders comes twice. *)
Definition jo : join := mkJoin JLeft tord ("u", "id") ("o", "user").
Definition users_of (js : list join) : stmt := mkStmt false [("u", "id")] tu js [] [] [] 0 0.
Definition users_calls (js : list qop) : list qop := ([OSelect [column "u" "id"]; OFrom tu] ++ js)%list.
Theorem c121_many_refuted : exists q q' s s',
  join_spared [] jo (users_of [jo]) (users_of []) /\ tableless (database_of twice) (users_of [jo]) /\ ~ finds_one (database_of twice) (users_of [jo]) [] jo /\
  describes (users_calls [OLeftJoin tord (join_on jo)]) (users_of [jo]) /\ describes (users_calls []) (users_of []) /\
  apply_ops (users_calls [OLeftJoin tord (join_on jo)]) new_qb = ROk q /\ apply_ops (users_calls []) new_qb = ROk q' /\
  fst (build_query 20 style_question [q] (BQuery (Some 0))) = ROk (s, []) /\ fst (build_query 20 style_question [q'] (BQuery (Some 0))) = ROk (s', []) /\
  executes twice [] s [[1]; [1]]%Z /\ ~ executes twice [] s' [[1]; [1]]%Z.
Proof.
  do 4 eexists.
  apply conj. { split; [exact Logic.I|]. split; [exists []; split; [reflexivity|]; split; [reflexivity|intros i []]|]. split; [intros c [<-|[]]; discriminate|repeat split]. }
  apply conj; [intros c g g' _ _; reflexivity|].
  apply conj. { intros O. specialize (O (bind (database_of twice) "u" (account 1) (no_rows (database_of twice))) (or_introl eq_refl)). vm_compute in O. inversion O as [|? O']. inversion O'. }
  do 2 (apply conj; [unfold describes; do 10 (apply conj; [reflexivity|]); reflexivity|]).
  do 2 (apply conj; [cbv; reflexivity|]). do 2 (apply conj; [vm_compute; reflexivity|]).
  apply conj; [all_rows [([1], [] : list Z); ([1], [] : list Z)]%Z; apply Permutation_refl|].
  intros (r & m & ts & l & R & M & T & (s & P & _ & C) & E). vm_compute in R. injection R as <-. vm_compute in M. injection M as <-. cbn in T. injection T as <-.
  cbn in P. apply Permutation_length in P. cbn in C. subst l. apply (f_equal (@List.length _)) in E. rewrite map_length in E. pose proof (eq_trans E P) as K. discriminate K.
Qed.
Print Assumptions c121_many_refuted.
