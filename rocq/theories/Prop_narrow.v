(** Property C110: the conditions of a query are independent of their order, and
    a further one only removes rows.  The vocabulary is in Spec_exec.v and
    Spec_narrow.v; the proofs are in Narrow_proofs.v. *)
From Coq Require Import Strings.String Strings.Ascii NArith ZArith List Bool Lia Sorting.Permutation Sorting.Sorted.
From Verif Require Import GoStr GoNum Syntax Value Util Model Sqlf Sqlb Spec_syntax RefSem Spec_build Spec_util Spec_eval Spec_query Spec_sql Spec_interp Spec_answer
  Narrow_proofs Prop_pages Spec_sqltok Spec_read Spec_exec Spec_narrow.
Import ListNotations.
Open Scope string_scope.

(** C110: calls that give the same conditions in another order give, when
    executed, the same answers ... *)
Theorem c110_order_question : forall m m' os os' style, style <> style_dollar -> stmt_ok m -> named m -> describes os m -> stmt_ok m' -> named m' -> describes os' m' -> adds [] m m' ->
  exists q q', apply_ops os new_qb = ROk q /\ apply_ops os' new_qb = ROk q' /\ forall n, 5 + m_size m <= n -> 5 + m_size m' <= n -> exists s args s' args',
    fst (build_query n style [q] (BQuery (Some 0))) = ROk (s, args) /\ fst (build_query n style [q'] (BQuery (Some 0))) = ROk (s', args') /\
    forall E rows, executes E args' s' rows <-> executes E args s rows.
Proof. exact order_question. Qed.
Print Assumptions c110_order_question.
Theorem c110_order_dollar : forall m m' os os', stmt_ok m -> named m -> describes os m -> stmt_ok m' -> named m' -> describes os' m' -> adds [] m m' ->
  forallb hashable (m_args m) = true -> forallb hashable (m_args m') = true ->
  exists q q', apply_ops os new_qb = ROk q /\ apply_ops os' new_qb = ROk q' /\ forall n, 5 + m_size m <= n -> 5 + m_size m' <= n -> exists s args s' args',
    fst (build_query n style_dollar [q] (BQuery (Some 0))) = ROk (s, args) /\ fst (build_query n style_dollar [q'] (BQuery (Some 0))) = ROk (s', args') /\
    forall E rows, by_value E -> executes E args' s' rows <-> executes E args s rows.
Proof. exact order_dollar. Qed.
Print Assumptions c110_order_dollar.

(** ... and calls that give further conditions give a part of the rows, also if
    joins appear that did not before (under the conditions of C76), without
    groups and bounds. *)
Theorem c110_narrow_question : forall cs m m' os os' style, style <> style_dollar -> stmt_ok m -> named m -> describes os m -> stmt_ok m' -> named m' -> describes os' m' -> adds cs m m' ->
  closed m -> closed m' -> m_groups m = [] -> m_limit m = 0%Z -> m_offset m = 0%Z ->
  exists q q', apply_ops os new_qb = ROk q /\ apply_ops os' new_qb = ROk q' /\ forall n, 5 + m_size m <= n -> 5 + m_size m' <= n -> exists s args s' args',
    fst (build_query n style [q] (BQuery (Some 0))) = ROk (s, args) /\ fst (build_query n style [q'] (BQuery (Some 0))) = ROk (s', args') /\
    forall E rows rows', tableless (database_of E) m -> tableless (database_of E) m' -> executes E args s rows -> executes E args' s' rows' -> exists rest, Permutation (rows' ++ rest)%list rows.
Proof. exact narrow_question. Qed.
Print Assumptions c110_narrow_question.
Theorem c110_narrow_dollar : forall cs m m' os os', stmt_ok m -> named m -> describes os m -> stmt_ok m' -> named m' -> describes os' m' -> adds cs m m' ->
  closed m -> closed m' -> m_groups m = [] -> m_limit m = 0%Z -> m_offset m = 0%Z -> forallb hashable (m_args m) = true -> forallb hashable (m_args m') = true ->
  exists q q', apply_ops os new_qb = ROk q /\ apply_ops os' new_qb = ROk q' /\ forall n, 5 + m_size m <= n -> 5 + m_size m' <= n -> exists s args s' args',
    fst (build_query n style_dollar [q] (BQuery (Some 0))) = ROk (s, args) /\ fst (build_query n style_dollar [q'] (BQuery (Some 0))) = ROk (s', args') /\
    forall E rows rows', by_value E -> tableless (database_of E) m -> tableless (database_of E) m' -> executes E args s rows -> executes E args' s' rows' -> exists rest, Permutation (rows' ++ rest)%list rows.
Proof. exact narrow_dollar. Qed.
Print Assumptions c110_narrow_dollar.

(** A condition that is given again changes nothing. *)
Theorem c110_repeat_question : forall cs m m' os os' style, style <> style_dollar -> stmt_ok m -> named m -> describes os m -> stmt_ok m' -> named m' -> describes os' m' -> adds cs m m' -> incl cs (m_conds m) ->
  exists q q', apply_ops os new_qb = ROk q /\ apply_ops os' new_qb = ROk q' /\ forall n, 5 + m_size m <= n -> 5 + m_size m' <= n -> exists s args s' args',
    fst (build_query n style [q] (BQuery (Some 0))) = ROk (s, args) /\ fst (build_query n style [q'] (BQuery (Some 0))) = ROk (s', args') /\
    forall E rows, executes E args' s' rows <-> executes E args s rows.
Proof. exact repeat_question. Qed.
Print Assumptions c110_repeat_question.
Theorem c110_repeat_dollar : forall cs m m' os os', stmt_ok m -> named m -> describes os m -> stmt_ok m' -> named m' -> describes os' m' -> adds cs m m' -> incl cs (m_conds m) ->
  forallb hashable (m_args m) = true -> forallb hashable (m_args m') = true ->
  exists q q', apply_ops os new_qb = ROk q /\ apply_ops os' new_qb = ROk q' /\ forall n, 5 + m_size m <= n -> 5 + m_size m' <= n -> exists s args s' args',
    fst (build_query n style_dollar [q] (BQuery (Some 0))) = ROk (s, args) /\ fst (build_query n style_dollar [q'] (BQuery (Some 0))) = ROk (s', args') /\
    forall E rows, by_value E -> executes E args' s' rows <-> executes E args s rows.
Proof. exact repeat_dollar. Qed.
Print Assumptions c110_repeat_dollar.

(** The users of C108, those after the first, and those with a number above 5
    among them; the number is that of a table joined only if needed. *)
Definition after_first : cond := Compare ("u", "id") ">" (VInt "int" 1).
Definition above_five : cond := Compare ("v", "n") ">" (VInt "int" 5).
Definition with_conds (shown : bool) (cs : list cond) : stmt :=
  mkStmt true [("u", "id")] ("users", "u") [mkJoin (JOptional shown) ("users", "v") ("u", "id") ("v", "id")] cs [] [] 0 0.
Definition few : stmt := with_conds false [after_first].
Definition fewer : stmt := with_conds true [above_five; after_first].
Definition fewer' : stmt := with_conds true [after_first; above_five].
Definition cond_call (x : cond) : qop := match x with Compare c o v => OWhere2 (column (fst c) (snd c)) o v | Among c l => OWhereIn (column (fst c) (snd c)) l | NotAmong c l => OWhereNotIn (column (fst c) (snd c)) l end.
Definition calls_with (cs : list cond) : list qop :=
  ([ODistinct; OSelect [column "u" "id"]; OFrom ("users", "u"); OLeftJoinOptional ("users", "v") (join_on (mkJoin JLeft ("users", "v") ("u", "id") ("v", "id")))] ++ map cond_call cs)%list.
Ltac is_ok := apply conj; [discriminate|]; apply conj; [reflexivity|]; apply conj; [repeat (constructor; [reflexivity|]); constructor|];
    apply conj; [cbn; repeat constructor; cbn; intuition discriminate|];
    apply conj; [cbn [m_used few fewer fewer' with_conds after_first above_five m_cols m_conds m_groups m_orders m_joins map app cond_col fst snd j_left j_right flat_map]; repeat (constructor; [split; [reflexivity|cbn; tauto]|]); constructor|];
    apply conj; [cbn; repeat constructor|constructor].
Ltac is_named := apply conj; [discriminate|]; apply conj; [repeat (constructor; [is_col|]); constructor|]; apply conj; [split; [is_name|right; is_name]|];
    apply conj; [constructor; [split; [split; [is_name|right; is_name]|split; is_col]|constructor]|];
    apply conj; [cbn [few fewer fewer' with_conds m_conds]; repeat (constructor; [split; [is_col|left; split; reflexivity]|]); constructor|];
    apply conj; constructor.
Example c110_example :
  stmt_ok few /\ stmt_ok fewer /\ stmt_ok fewer' /\ named few /\ named fewer /\ named fewer' /\
  describes (calls_with [after_first]) few /\ describes (calls_with [above_five; after_first]) fewer /\ describes (calls_with [after_first; above_five]) fewer' /\
  adds [] fewer fewer' /\ adds [above_five] few fewer /\ closed few /\ closed fewer /\ tableless (database_of users) few /\ tableless (database_of users) fewer /\
  executes users [VInt "int" 1] "SELECT DISTINCT u.id FROM users AS u WHERE u.id>?" [[3%Z]; [2%Z]] /\
  executes users [VInt "int" 5; VInt "int" 1] "SELECT DISTINCT u.id FROM users AS u LEFT JOIN users AS v ON u.id=v.id WHERE v.n>? AND u.id>?" [[3%Z]].
Proof.
  apply conj. { apply conj; [is_ok|]. intros j [<-|[]]. split; [discriminate|]. intros H. specialize (H eq_refl). cbn in H. exfalso. remember "v" as t eqn:T. induction H as [c Hc Hn|j c Hj IH Hi Hc Hn].
    - cbn in Hc. repeat (destruct Hc as [<-|Hc]; [discriminate T|]). destruct Hc.
    - destruct Hi as [<-|[]]. apply IH. reflexivity. }
  assert (Sh : forall cs, In above_five cs -> shown_ok (with_conds true cs) (map cond_col cs)).
  { intros cs Hc j [<-|[]]. split; [|reflexivity]. intros _ _. apply (ns_col _ _ ("v", "n")); [|discriminate]. apply in_or_app. right. apply in_or_app. left. apply (in_map cond_col) in Hc. exact Hc. }
  apply conj; [apply conj; [is_ok|apply Sh; left; reflexivity]|]. apply conj; [apply conj; [is_ok|apply Sh; right; left; reflexivity]|].
  apply conj; [is_named|]. apply conj; [is_named|]. apply conj; [is_named|].
  do 3 (apply conj; [unfold describes; do 10 (apply conj; [reflexivity|]); reflexivity|]).
  apply conj; [unfold adds; do 4 (apply conj; [reflexivity|]); apply conj; [apply perm_swap|repeat split]|].
  apply conj; [unfold adds; do 4 (apply conj; [reflexivity|]); apply conj; [apply perm_swap|repeat split]|].
  do 2 (apply conj; [intros j i [<-|[]] [<-|[]] []|]). do 2 (apply conj; [intros c g g' _ _; reflexivity|]).
  apply conj.
  - do 4 eexists. split; [vm_compute; reflexivity|]. split; [vm_compute; reflexivity|]. split; [cbn; reflexivity|]. split; [exists [([3%Z], []); ([2%Z], [])]|]. 2: { instantiate (1 := [([3%Z], []); ([2%Z], [])]). reflexivity. }
    cbn [m_distinct]. split; [split|split; [repeat constructor|reflexivity]]; [repeat constructor; cbn; intuition discriminate|intros x; cbn; tauto].
  - do 4 eexists. split; [vm_compute; reflexivity|]. split; [vm_compute; reflexivity|]. split; [cbn; reflexivity|]. split; [exists [([3%Z], [])]|]. 2: { instantiate (1 := [([3%Z], [])]). reflexivity. }
    cbn [m_distinct]. split; [split|split; [repeat constructor|reflexivity]]; [repeat constructor; cbn; intuition discriminate|intros x; cbn; tauto].
Qed.

(** The first condition given once more at the end. *)
Definition fewest : stmt := with_conds true [above_five; after_first; above_five].
Example c110_repeat_example :
  stmt_ok fewest /\ named fewest /\ describes (calls_with [above_five; after_first; above_five]) fewest /\ adds [above_five] fewer fewest /\ incl [above_five] (m_conds fewer).
Proof.
  apply conj. { apply conj; [unfold fewest; is_ok|]. intros j [<-|[]]. split; [|reflexivity]. intros _ _. apply (ns_col _ _ ("v", "n")); [|discriminate]. right. left. reflexivity. }
  apply conj; [unfold fewest; is_named|]. apply conj; [unfold describes; do 10 (apply conj; [reflexivity|]); reflexivity|].
  apply conj; [unfold adds; do 4 (apply conj; [reflexivity|]); apply conj; [reflexivity|repeat split]|]. intros x [<-|[]]. left. reflexivity.
Qed.

(** Not so with bounds: the second user is not the second one among those with a
    number above 5. *)
Definition second (cs : list cond) : stmt := mkStmt false [("u", "id")] ("users", "u") [] cs [] [(("u", "id"), 3%N)] 1 1.
Definition u_above : cond := Compare ("u", "n") ">" (VInt "int" 5).
Definition calls_second (cs : list cond) : list qop := ([OSelect [column "u" "id"]; OFrom ("users", "u"); OOrderBy (column "u" "id") 3; OLimit 1; OOffset 1] ++ map cond_call cs)%list.
Theorem c110_bounds_refuted : exists q q' s args s' args',
  describes (calls_second []) (second []) /\ describes (calls_second [u_above]) (second [u_above]) /\ adds [u_above] (second []) (second [u_above]) /\
  apply_ops (calls_second []) new_qb = ROk q /\ apply_ops (calls_second [u_above]) new_qb = ROk q' /\
  fst (build_query 20 style_question [q] (BQuery (Some 0))) = ROk (s, args) /\ fst (build_query 20 style_question [q'] (BQuery (Some 0))) = ROk (s', args') /\
  executes users args s [[2%Z]] /\ executes users args' s' [[1%Z]] /\ ~ exists rest, Permutation ([[1%Z]] ++ rest)%list [[2%Z]].
Proof.
  do 6 eexists. do 2 (apply conj; [unfold describes; do 10 (apply conj; [reflexivity|]); reflexivity|]). apply conj; [unfold adds; repeat split; apply Permutation_refl|].
  do 2 (apply conj; [cbv; reflexivity|]). do 2 (apply conj; [vm_compute; reflexivity|]).
  apply conj; [runs [([3%Z], [3%Z]); ([2%Z], [2%Z]); ([1%Z], [1%Z])]|].
  { change [([1%Z], [1%Z]); ([2%Z], [2%Z]); ([3%Z], [3%Z])] with (rev [([3%Z], [3%Z]); ([2%Z], [2%Z]); ([1%Z], [1%Z])]). apply Permutation_rev. }
  apply conj; [runs [([3%Z], [3%Z]); ([1%Z], [1%Z])]; apply perm_swap|].
  intros (rest & P). assert (K : In [1%Z] [[2%Z]]) by (apply (Permutation_in _ P); left; reflexivity). destruct K as [K|[]]. discriminate K.
Qed.
Print Assumptions c110_bounds_refuted.
