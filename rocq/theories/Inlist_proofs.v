(** Proofs for Prop_inlist.v: conditions on lists of values. *)
From Coq Require Import Strings.String Strings.Ascii NArith ZArith List Bool Lia Sorting.Permutation Sorting.Sorted.
From Verif Require Import GoStr GoNum Syntax Value Util Model Sqlf Sqlb Spec_syntax RefSem Spec_build
  Spec_util Spec_eval Spec_query Spec_sql Spec_interp Sql_proofs Spec_answer Answer_proofs Exec_proofs Regroup_proofs Spec_sqltok Spec_read Spec_exec Spec_inlist.
Import ListNotations.
Open Scope string_scope.
Open Scope list_scope.

Lemma existsb_set : forall A (p : A -> bool) l l', (forall x, In x l <-> In x l') -> existsb p l = existsb p l'.
Proof.
  intros A p l l' H. apply eq_true_iff_eq. rewrite !existsb_exists. split; intros (x & I & P); exists x; (split; [apply H; exact I|exact P]).
Qed.
Lemma map_set : forall A B (f : A -> B) l l', (forall x, In x l <-> In x l') -> forall y, In y (map f l) <-> In y (map f l').
Proof. intros A B f l l' H y. rewrite !in_map_iff. split; intros (x & E & I); exists x; (split; [exact E|apply H; exact I]). Qed.
Lemma forallb_map : forall A B (f : A -> B) p l, forallb p (map f l) = forallb (fun x => p (f x)) l.
Proof. intros A B f p l. induction l as [|x l IH]; [reflexivity|]. cbn [map forallb]. rewrite IH. reflexivity. Qed.
Section Eng.
Variable E : engine.
Hypothesis L : lists_compare E.
Definition met (e : rows_of (d_val (e_data E))) (x : cond) : bool := d_holds (database_of E) x (col_value (database_of E) [e] (cond_col x)).
Lemma alike_met : forall xs xs', alike xs xs' -> forall e, forallb (met e) xs' = forallb (met e) xs.
Proof.
  destruct L as [Li Ln]. intros xs xs' A e. induction A as [|x xs xs' A IH|c l l' xs xs' H A IH|c l l' xs xs' H A IH|c l v xs xs' H A IH|c l xs xs' A IH]; [reflexivity| | | | |].
  - cbn [forallb]. rewrite IH. reflexivity.
  - cbn [forallb]. rewrite IH. f_equal. unfold met. cbn [d_holds database_of test_said cond_args cond_col]. rewrite !Li. symmetry. apply existsb_set. apply map_set. exact H.
  - cbn [forallb]. rewrite IH. f_equal. unfold met. cbn [d_holds database_of test_said cond_args cond_col]. rewrite !Ln. symmetry. apply forallb_set. apply map_set. exact H.
  - cbn [forallb]. rewrite IH. f_equal. unfold met. cbn [d_holds database_of test_said cond_args cond_col]. rewrite Li, H. cbn [map existsb]. rewrite orb_false_r. reflexivity.
  - rewrite forallb_app, IH. cbn [forallb]. f_equal. rewrite forallb_map. unfold met. cbn [d_holds database_of test_said cond_args cond_col map]. rewrite Ln, forallb_map. reflexivity.
Qed.
Lemma tests_met : forall m e, forallb (fun t => snd t (col_value (database_of E) [e] (fst t))) (tests (database_of E) m) = forallb (met e) (m_conds m).
Proof. intros m e. unfold tests. rewrite forallb_map. reflexivity. Qed.
Lemma alike_results : forall m m', conds_alike m m' -> results (database_of E) m' = results (database_of E) m.
Proof.
  intros m m' (A & _ & Es & Em & Ej & Eg & Eo & _).
  assert (W : where_rows (database_of E) m' (tests (database_of E) m') = where_rows (database_of E) m (tests (database_of E) m)).
  { unfold where_rows, from_rows. rewrite Em, Ej. apply filter_ext. intros e. etransitivity; [apply tests_met|]. etransitivity; [apply alike_met; exact A|]. symmetry. apply tests_met. }
  unfold results, results_where, groups_of. rewrite W, Es, Eg, Eo. reflexivity.
Qed.
Lemma listed_alike : forall m m' rows, conds_alike m m' -> listed_answers E (trimmed m') rows <-> listed_answers E (trimmed m) rows.
Proof.
  intros m m' rows B.
  assert (T : conds_alike (trimmed m) (trimmed m')).
  { destruct B as (A & Ed & Es & Em & Ej & Eg & Eo & El & Ef). unfold conds_alike, trimmed, m_shown. cbn [m_distinct m_cols m_main m_joins m_conds m_groups m_orders m_limit m_offset]. rewrite Ej.
    repeat (apply conj; [first [assumption|reflexivity]|]). assumption. }
  pose proof (alike_results _ _ T) as R. destruct T as (_ & Ed & Es & Em & Ej & Eg & Eo & El & Ef).
  assert (C : forall s : list (result_row (database_of E)), cut (trimmed m') s = cut (trimmed m) s) by (intros s; unfold cut; rewrite El, Ef; reflexivity).
  assert (A : forall l, answers (database_of E) (trimmed m') l <-> answers (database_of E) (trimmed m) l).
  { intros l. unfold answers, answers_where. fold (results (database_of E) (trimmed m')). fold (results (database_of E) (trimmed m)). rewrite Ed, Eo, R.
    split; intros (s & H1 & H2 & ->); exists s; (split; [exact H1|split; [exact H2|]]); [apply C|symmetry; apply C]. }
  unfold listed_answers. split; intros (l & H & ->); exists l; (split; [apply A; exact H|]); unfold wide_row; rewrite Ed; reflexivity.
Qed.
End Eng.
Theorem alike_question : forall m m' os os' style, style <> style_dollar -> stmt_ok m -> named m -> describes os m -> stmt_ok m' -> named m' -> describes os' m' -> conds_alike m m' ->
  exists q q', apply_ops os new_qb = ROk q /\ apply_ops os' new_qb = ROk q' /\ forall n, 5 + m_size m <= n -> 5 + m_size m' <= n -> exists s args s' args',
    fst (build_query n style [q] (BQuery (Some 0))) = ROk (s, args) /\ fst (build_query n style [q'] (BQuery (Some 0))) = ROk (s', args') /\
    forall E rows, lists_compare E -> executes E args' s' rows <-> executes E args s rows.
Proof.
  intros m m' os os' style Hs S Nm D S' Nm' D' B. destruct (exec_question m os style Hs S Nm D) as (q & A1 & H). destruct (exec_question m' os' style Hs S' Nm' D') as (q' & A1' & H').
  exists q, q'. split; [exact A1|]. split; [exact A1'|]. intros n Hn Hn'. destruct (H n Hn) as (s & args & B1 & X). destruct (H' n Hn') as (s' & args' & B1' & X').
  exists s, args, s', args'. split; [exact B1|]. split; [exact B1'|]. intros E rows L. rewrite (X E rows), (X' E rows). apply listed_alike; assumption.
Qed.
Theorem alike_dollar : forall m m' os os', stmt_ok m -> named m -> describes os m -> stmt_ok m' -> named m' -> describes os' m' -> conds_alike m m' -> forallb hashable (m_args m) = true -> forallb hashable (m_args m') = true ->
  exists q q', apply_ops os new_qb = ROk q /\ apply_ops os' new_qb = ROk q' /\ forall n, 5 + m_size m <= n -> 5 + m_size m' <= n -> exists s args s' args',
    fst (build_query n style_dollar [q] (BQuery (Some 0))) = ROk (s, args) /\ fst (build_query n style_dollar [q'] (BQuery (Some 0))) = ROk (s', args') /\
    forall E rows, by_value E -> lists_compare E -> executes E args' s' rows <-> executes E args s rows.
Proof.
  intros m m' os os' S Nm D S' Nm' D' B Hh Hh'.
  destruct (exec_dollar m os S Nm D Hh) as (q & A1 & H). destruct (exec_dollar m' os' S' Nm' D' Hh') as (q' & A1' & H').
  exists q, q'. split; [exact A1|]. split; [exact A1'|]. intros n Hn Hn'. destruct (H n Hn) as (s & args & B1 & X). destruct (H' n Hn') as (s' & args' & B1' & X').
  exists s, args, s', args'. split; [exact B1|]. split; [exact B1'|]. intros E rows Hv L. rewrite (X E rows Hv), (X' E rows Hv). apply listed_alike; assumption.
Qed.
