(** Proofs for Prop_nonnull.v: outer joins whose missing rows are refused. *)
From Coq Require Import Strings.String Strings.Ascii NArith ZArith List Bool Lia Sorting.Permutation Sorting.Sorted.
From Verif Require Import GoStr GoNum Syntax Value Util Model Sqlf Sqlb Spec_syntax RefSem Spec_build
  Spec_util Spec_eval Spec_query Spec_sql Spec_interp Sql_proofs Spec_answer Answer_proofs Exec_proofs Joinorder_proofs Spec_sqltok Spec_read Spec_exec Spec_joinorder Spec_nonnull.
Import ListNotations.
Open Scope string_scope.
Open Scope list_scope.

Section Db.
Variable D : database.
Local Notation rows := (rows_of (d_val D)).
Variable b : string.
(** The table [b] has no row. *)
Definition missing (e : rows) : Prop := e b = no_row D.
Variable p : rows -> bool.
Hypothesis Hp : forall e, missing e -> p e = false.
Lemma bind_missing : forall a r e, a <> b -> missing e -> missing (bind D a r e).
Proof. intros a r e N M. unfold missing, bind. destruct (String.eqb b a) eqn:E; [apply String.eqb_eq in E; congruence|exact M]. Qed.
Lemma join_missing : forall j es, one_sided j -> known_as (j_table j) <> b -> Forall missing es -> Forall missing (join_rows D es j).
Proof.
  intros j es O N F. rewrite (join_choices D j es O). apply Forall_forall. intros e He. apply in_flat_map in He. destruct He as (e0 & H0 & He).
  apply in_map_iff in He. destruct He as (r & <- & _). apply bind_missing; [exact N|]. rewrite Forall_forall in F. apply F. exact H0.
Qed.
Lemma joins_missing : forall js es, Forall one_sided js -> ~ In b (map (fun j => known_as (j_table j)) js) -> Forall missing es -> Forall missing (fold_left (join_rows D) js es).
Proof.
  induction js as [|j js IH]; intros es O N F; [exact F|]. inversion O; subst. cbn [fold_left]. cbn [map In] in N. apply IH; [assumption|tauto|]. apply join_missing; [assumption|tauto|exact F].
Qed.
Lemma joins_app : forall js es es', Forall one_sided js -> fold_left (join_rows D) js (es ++ es') = fold_left (join_rows D) js es ++ fold_left (join_rows D) js es'.
Proof.
  induction js as [|j js IH]; intros es es' O; [reflexivity|]. inversion O as [|? ? O1 O2]; subst. cbn [fold_left]. rewrite <- (IH _ _ O2). f_equal.
  rewrite !(join_choices D j _ O1). apply flat_map_app.
Qed.
Lemma all_refused : forall es, Forall missing es -> filter p es = [].
Proof. intros es F. induction F as [|e es M F IH]; [reflexivity|]. cbn [filter]. rewrite (Hp e M). exact IH. Qed.
(** Rows left out, all without a row of the table. *)
Inductive thinned : list rows -> list rows -> Prop :=
| th_nil : thinned [] []
| th_keep e l l' : thinned l l' -> thinned (e :: l) (e :: l')
| th_drop e l l' : missing e -> thinned l l' -> thinned (e :: l) l'.
Lemma th_refl : forall l, thinned l l.
Proof. induction l; [apply th_nil|apply th_keep; assumption]. Qed.
Lemma th_app : forall a a' c c', thinned a a' -> thinned c c' -> thinned (a ++ c) (a' ++ c').
Proof. intros a a' c c' T T'. induction T; cbn [app]; [exact T'|apply th_keep; exact IHT|apply th_drop; assumption]. Qed.
Lemma th_tail : forall l l', Forall missing l' -> thinned (l ++ l') l.
Proof.
  intros l l' F. rewrite <- (app_nil_r l) at 2. apply th_app; [apply th_refl|]. induction F; [apply th_nil|apply th_drop; assumption].
Qed.
Lemma thinned_joins : forall js l l', Forall one_sided js -> ~ In b (map (fun j => known_as (j_table j)) js) -> thinned l l' ->
  filter p (fold_left (join_rows D) js l') = filter p (fold_left (join_rows D) js l).
Proof.
  intros js l l' O N T. induction T as [|e l l' T IH|e l l' M T IH]; [reflexivity| |].
  - change (e :: l') with ([e] ++ l'). change (e :: l) with ([e] ++ l). rewrite !(joins_app js _ _ O), !filter_app, IH. reflexivity.
  - change (e :: l) with ([e] ++ l). rewrite (joins_app js _ _ O), filter_app, IH.
    rewrite (all_refused (fold_left (join_rows D) js [e])); [reflexivity|]. apply joins_missing; try assumption. constructor; [exact M|constructor].
Qed.
Lemma matched_thinned : forall j es, known_as (j_table j) = b -> thinned (matched_or_null D j es) (matched D j es).
Proof.
  intros j es E. unfold matched_or_null, matched. induction es as [|e es IH]; [apply th_nil|]. cbn [flat_map]. apply th_app; [|exact IH].
  destruct (partners D j e) as [|r rs]; [|apply th_refl]. apply th_drop; [|apply th_nil]. unfold missing, bind. rewrite E, String.eqb_refl. reflexivity.
Qed.
Lemma strangers_missing : forall j es, known_as (j_table j) <> b -> Forall missing (strangers D j es).
Proof.
  intros j es N. unfold strangers. apply Forall_forall. intros e He. apply in_map_iff in He. destruct He as (r & <- & _). apply bind_missing; [exact N|reflexivity].
Qed.
Lemma narrowed_thinned : forall k k' t l r es, (joined_there k k' /\ b = known_as t) \/ (before_there k k' /\ known_as t <> b) ->
  thinned (join_rows D es (mkJoin k t l r)) (join_rows D es (mkJoin k' t l r)).
Proof.
  intros k k' t l r es H. destruct H as [[K E]|[K N]].
  - pose proof (matched_thinned (mkJoin k t l r) es (eq_sym E)) as T. unfold join_rows. destruct k as [| | | |[|]], k' as [| | | |[|]]; try (destruct K; fail); cbn [j_kind];
      first [exact T|apply th_app; [exact T|apply th_refl]].
  - pose proof (strangers_missing (mkJoin k t l r) es N) as T. unfold join_rows. destruct k as [| | | |[|]], k' as [| | | |[|]]; try (destruct K; fail); cbn [j_kind]; apply th_tail; exact T.
Qed.
End Db.
Lemma narrowed_where : forall D m m' x pre post k k' t l r, refuses_null D x -> In x (m_conds m) -> fst (cond_col x) <> "" ->
  m_joins m = pre ++ mkJoin k t l r :: post -> m_joins m' = pre ++ mkJoin k' t l r :: post -> Forall one_sided post -> m_main m' = m_main m -> m_conds m' = m_conds m ->
  (joined_there k k' /\ fst (cond_col x) = known_as t) \/ (before_there k k' /\ known_as t <> fst (cond_col x)) ->
  ~ In (fst (cond_col x)) (map (fun j => known_as (j_table j)) post) ->
  where_rows D m' (tests D m') = where_rows D m (tests D m).
Proof.
  intros D m m' x pre post k k' t l r R Hx Ne Ej Ej' O Em Ec K N. unfold where_rows, from_rows, tests. rewrite Ej, Ej', Em, Ec, !fold_left_app. cbn [fold_left].
  apply (thinned_joins D (fst (cond_col x))); try assumption.
  - intros e M. apply not_true_iff_false. intros H. rewrite forallb_forall in H. specialize (H (cond_col x, d_holds D x) (in_map (fun x => (cond_col x, d_holds D x)) _ _ Hx)). cbn [fst snd] in H.
    assert (V : col_value D [e] (cond_col x) = d_null D).
    { unfold col_value. destruct (is_empty (fst (cond_col x))) eqn:E; [apply empty_eq in E; contradiction|]. cbn [hd]. unfold missing in M. rewrite M. reflexivity. }
    rewrite V in H. unfold refuses_null in R. congruence.
  - apply narrowed_thinned. exact K.
Qed.
Lemma nodup_after : forall (l : list string) a b x, NoDup (l ++ a :: b) -> In x l -> a <> x /\ ~ In x b.
Proof.
  intros l a b x N H. apply in_split in H. destruct H as (u & v & ->). rewrite <- app_assoc in N. cbn [app] in N. apply NoDup_remove_2 in N.
  split; [intros ->|intros K]; apply N; rewrite !in_app_iff; cbn [In]; tauto.
Qed.
Lemma kept_kind : forall k k', joined_there k k' \/ before_there k k' -> forall t l r, appears (mkJoin k t l r) = true /\ appears (mkJoin k' t l r) = true.
Proof. intros k k' H t l r. unfold appears. cbn [j_kind]. destruct k as [| | | |[|]], k' as [| | | |[|]]; destruct H as [[]|[]]; split; reflexivity. Qed.
Lemma narrowed_results : forall D x m m', stmt_ok m -> join_narrowed x m m' -> refuses_null D x -> results D (trimmed m') = results D (trimmed m).
Proof.
  intros D x m m' [N _] (Hx & Ne & (pre & post & k & k' & t & l & r & Ej & Ej' & O & K) & Ed & Es & Em & Ec & Eg & Eo & El & Ef) R.
  destruct N as (_ & _ & _ & N & _). unfold m_tables in N. rewrite Ej, map_app in N. cbn [map j_table] in N.
  assert (Kk : joined_there k k' \/ before_there k k') by tauto. destruct (kept_kind k k' Kk t l r) as [A A'].
  assert (P : ((joined_there k k' /\ fst (cond_col x) = known_as t) \/ (before_there k k' /\ known_as t <> fst (cond_col x))) /\ ~ In (fst (cond_col x)) (map (fun j => known_as (j_table j)) post)).
  { rewrite app_comm_cons in N. destruct K as [[K E]|[K I]].
    - split; [left; split; assumption|]. rewrite E. apply NoDup_remove_2 in N. intros H. apply N. apply in_or_app. right. exact H.
    - destruct (nodup_after _ _ _ _ N I) as [N1 N2]. split; [right; split; assumption|exact N2]. }
  destruct P as [P Np].
  assert (W : where_rows D (trimmed m') (tests D (trimmed m')) = where_rows D (trimmed m) (tests D (trimmed m))).
  { apply (narrowed_where D (trimmed m) (trimmed m') x (filter appears pre) (filter appears post) k k' t l r); try assumption.
    - unfold trimmed, m_shown. cbn [m_joins]. rewrite Ej, filter_app. cbn [filter]. rewrite A. reflexivity.
    - unfold trimmed, m_shown. cbn [m_joins]. rewrite Ej', filter_app. cbn [filter]. rewrite A'. reflexivity.
    - apply Forall_forall. intros j Hj. apply filter_In in Hj. rewrite Forall_forall in O. apply O. tauto.
    - intros H. apply Np. apply in_map_iff in H. destruct H as (j & Hj & H). apply filter_In in H. apply in_map_iff. exists j. tauto. }
  unfold results, results_where, groups_of. rewrite W. cbn [trimmed m_cols m_groups m_orders]. rewrite Es, Eg, Eo. reflexivity.
Qed.
Lemma listed_narrowed : forall E x m m' rows, stmt_ok m -> join_narrowed x m m' -> refuses_null (database_of E) x -> listed_answers E (trimmed m') rows <-> listed_answers E (trimmed m) rows.
Proof.
  intros E x m m' rows S B Rn. pose proof (narrowed_results (database_of E) x m m' S B Rn) as R.
  destruct B as (_ & _ & _ & Ed & Es & Em & Ec & Eg & Eo & El & Ef).
  assert (C : forall s : list (result_row (database_of E)), cut (trimmed m') s = cut (trimmed m) s) by (intros s; unfold cut; cbn [trimmed m_limit m_offset]; rewrite El, Ef; reflexivity).
  assert (A : forall l, answers (database_of E) (trimmed m') l <-> answers (database_of E) (trimmed m) l).
  { intros l. unfold answers, answers_where. fold (results (database_of E) (trimmed m')). fold (results (database_of E) (trimmed m)). rewrite R. cbn [trimmed m_distinct m_orders]. rewrite Ed, Eo.
    split; intros (s & H1 & H2 & ->); exists s; (split; [exact H1|split; [exact H2|]]); [apply C|symmetry; apply C]. }
  unfold listed_answers. split; intros (l & H & ->); exists l; (split; [apply A; exact H|]); unfold wide_row; cbn [trimmed m_distinct]; rewrite Ed; reflexivity.
Qed.
Lemma narrowed_args : forall x m m', join_narrowed x m m' -> m_args m' = m_args m.
Proof. intros x m m' (_ & _ & _ & _ & _ & _ & E & _). unfold m_args. rewrite E. reflexivity. Qed.
Theorem narrowed_question : forall x m m' os os' style, style <> style_dollar -> stmt_ok m -> named m -> describes os m -> stmt_ok m' -> named m' -> describes os' m' -> join_narrowed x m m' ->
  exists q q', apply_ops os new_qb = ROk q /\ apply_ops os' new_qb = ROk q' /\ forall n, 5 + m_size m <= n -> 5 + m_size m' <= n -> exists s args s' args',
    fst (build_query n style [q] (BQuery (Some 0))) = ROk (s, args) /\ fst (build_query n style [q'] (BQuery (Some 0))) = ROk (s', args') /\
    forall E rows, refuses_null (database_of E) x -> executes E args' s' rows <-> executes E args s rows.
Proof.
  intros x m m' os os' style Hs S Nm D S' Nm' D' B. destruct (exec_question m os style Hs S Nm D) as (q & A1 & H). destruct (exec_question m' os' style Hs S' Nm' D') as (q' & A1' & H').
  exists q, q'. split; [exact A1|]. split; [exact A1'|]. intros n Hn Hn'. destruct (H n Hn) as (s & args & B1 & X). destruct (H' n Hn') as (s' & args' & B1' & X').
  exists s, args, s', args'. split; [exact B1|]. split; [exact B1'|]. intros E rows Rn. rewrite (X E rows), (X' E rows). apply (listed_narrowed E x); assumption.
Qed.
Theorem narrowed_dollar : forall x m m' os os', stmt_ok m -> named m -> describes os m -> stmt_ok m' -> named m' -> describes os' m' -> join_narrowed x m m' -> forallb hashable (m_args m) = true ->
  exists q q', apply_ops os new_qb = ROk q /\ apply_ops os' new_qb = ROk q' /\ forall n, 5 + m_size m <= n -> 5 + m_size m' <= n -> exists s args s' args',
    fst (build_query n style_dollar [q] (BQuery (Some 0))) = ROk (s, args) /\ fst (build_query n style_dollar [q'] (BQuery (Some 0))) = ROk (s', args') /\
    forall E rows, by_value E -> refuses_null (database_of E) x -> executes E args' s' rows <-> executes E args s rows.
Proof.
  intros x m m' os os' S Nm D S' Nm' D' B Hh. assert (Hh' : forallb hashable (m_args m') = true) by (rewrite (narrowed_args x m m' B); exact Hh).
  destruct (exec_dollar m os S Nm D Hh) as (q & A1 & H). destruct (exec_dollar m' os' S' Nm' D' Hh') as (q' & A1' & H').
  exists q, q'. split; [exact A1|]. split; [exact A1'|]. intros n Hn Hn'. destruct (H n Hn) as (s & args & B1 & X). destruct (H' n Hn') as (s' & args' & B1' & X').
  exists s, args, s', args'. split; [exact B1|]. split; [exact B1'|]. intros E rows Hv Rn. rewrite (X E rows Hv), (X' E rows Hv). apply (listed_narrowed E x); assumption.
Qed.
