(** Proofs for Prop_turned.v: ON conditions turned round. *)
From Coq Require Import Strings.String Strings.Ascii NArith ZArith List Bool Lia Sorting.Permutation Sorting.Sorted.
From Verif Require Import GoStr GoNum Syntax Value Util Model Sqlf Sqlb Spec_syntax RefSem Spec_build
  Spec_util Spec_eval Spec_query Spec_sql Spec_interp Sql_proofs Spec_answer Answer_proofs Exec_proofs Spec_sqltok Spec_read Spec_exec Spec_turned.
Import ListNotations.
Open Scope string_scope.
Open Scope list_scope.

Section Db.
Variable D : database.
Hypothesis Sy : symmetric D.
Lemma turned_on : forall j j' e r, turned j j' -> on_holds D j' e r = on_holds D j e r.
Proof. intros j j' e r [->| ->]; [reflexivity|]. unfold on_holds. cbn [j_table j_left j_right]. apply Sy. Qed.
Lemma turned_partners : forall j j' e, turned j j' -> partners D j' e = partners D j e.
Proof.
  intros j j' e T. unfold partners. replace (j_table j') with (j_table j) by (destruct T as [->| ->]; reflexivity).
  apply filter_ext. intros r. apply turned_on. exact T.
Qed.
Lemma flat_same : forall A C (f g : A -> list C) l, (forall x, f x = g x) -> flat_map f l = flat_map g l.
Proof. intros A C f g l H. induction l as [|x l IH]; [reflexivity|]. cbn [flat_map]. rewrite H, IH. reflexivity. Qed.
Lemma exists_same : forall A (f g : A -> bool) l, (forall x, f x = g x) -> existsb f l = existsb g l.
Proof. intros A f g l H. induction l as [|x l IH]; [reflexivity|]. cbn [existsb]. rewrite H, IH. reflexivity. Qed.
Lemma turned_rows : forall j j' es, turned j j' -> join_rows D es j' = join_rows D es j.
Proof.
  intros j j' es T. assert (Et : j_table j' = j_table j) by (destruct T as [->| ->]; reflexivity). assert (Ek : j_kind j' = j_kind j) by (destruct T as [->| ->]; reflexivity).
  assert (M : matched D j' es = matched D j es) by (unfold matched; rewrite Et; apply flat_same; intros e; rewrite (turned_partners j j' e T); reflexivity).
  assert (N : matched_or_null D j' es = matched_or_null D j es) by (unfold matched_or_null; rewrite Et; apply flat_same; intros e; rewrite (turned_partners j j' e T); reflexivity).
  assert (S : strangers D j' es = strangers D j es).
  { unfold strangers. rewrite Et. f_equal. apply filter_ext. intros r. f_equal. apply exists_same. intros e. apply turned_on. exact T. }
  unfold join_rows. rewrite Ek, M, N, S. reflexivity.
Qed.
Lemma turned_fold : forall js js', Forall2 turned js js' -> forall es, fold_left (join_rows D) js' es = fold_left (join_rows D) js es.
Proof. intros js js' F. induction F as [|j j' js js' T F IH]; intros es; [reflexivity|]. cbn [fold_left]. rewrite (turned_rows j j' es T). apply IH. Qed.
End Db.
Lemma turned_shown : forall js js', Forall2 turned js js' -> Forall2 turned (filter appears js) (filter appears js').
Proof.
  intros js js' F. induction F as [|j j' js js' T F IH]; [constructor|]. cbn [filter].
  replace (appears j') with (appears j) by (destruct T as [->| ->]; reflexivity). destruct (appears j); [constructor; assumption|exact IH].
Qed.
Lemma turned_results : forall D m m', symmetric D -> joins_turned m m' -> results D m' = results D m.
Proof.
  intros D m m' Sy (_ & Es & Em & Fj & Ec & Eg & Eo & _).
  assert (F : from_rows D m' = from_rows D m) by (unfold from_rows; rewrite Em; apply turned_fold; assumption).
  unfold results, results_where, groups_of, where_rows, tests. rewrite Es, Ec, Eg, Eo, F. reflexivity.
Qed.
Lemma listed_turned : forall E m m' rows, symmetric (database_of E) -> joins_turned m m' -> listed_answers E (trimmed m') rows <-> listed_answers E (trimmed m) rows.
Proof.
  intros E m m' rows Sy B.
  assert (T : joins_turned (trimmed m) (trimmed m')).
  { destruct B as (Ed & Es & Em & Fj & Ec & Eg & Eo & El & Ef). unfold joins_turned, trimmed. cbn [m_distinct m_cols m_main m_joins m_conds m_groups m_orders m_limit m_offset].
    repeat (apply conj; [assumption|]). apply conj; [apply turned_shown; exact Fj|]. repeat (apply conj; [assumption|]). assumption. }
  pose proof (turned_results (database_of E) _ _ Sy T) as R. destruct T as (Ed & Es & Em & Fj & Ec & Eg & Eo & El & Ef).
  assert (C : forall s : list (result_row (database_of E)), cut (trimmed m') s = cut (trimmed m) s) by (intros s; unfold cut; rewrite El, Ef; reflexivity).
  assert (A : forall l, answers (database_of E) (trimmed m') l <-> answers (database_of E) (trimmed m) l).
  { intros l. unfold answers, answers_where. fold (results (database_of E) (trimmed m')). fold (results (database_of E) (trimmed m)). rewrite Ed, Eo, R.
    split; intros (s & H1 & H2 & ->); exists s; (split; [exact H1|split; [exact H2|]]); [apply C|symmetry; apply C]. }
  unfold listed_answers. split; intros (l & H & ->); exists l; (split; [apply A; exact H|]); unfold wide_row; rewrite Ed; reflexivity.
Qed.
Lemma turned_args : forall m m', joins_turned m m' -> m_args m' = m_args m.
Proof. intros m m' (_ & _ & _ & _ & E & _). unfold m_args. rewrite E. reflexivity. Qed.
Theorem turned_question : forall m m' os os' style, style <> style_dollar -> stmt_ok m -> named m -> describes os m -> stmt_ok m' -> named m' -> describes os' m' -> joins_turned m m' ->
  exists q q', apply_ops os new_qb = ROk q /\ apply_ops os' new_qb = ROk q' /\ forall n, 5 + m_size m <= n -> 5 + m_size m' <= n -> exists s args s' args',
    fst (build_query n style [q] (BQuery (Some 0))) = ROk (s, args) /\ fst (build_query n style [q'] (BQuery (Some 0))) = ROk (s', args') /\
    forall E rows, symmetric (database_of E) -> executes E args' s' rows <-> executes E args s rows.
Proof.
  intros m m' os os' style Hs S Nm D S' Nm' D' B. destruct (exec_question m os style Hs S Nm D) as (q & A1 & H). destruct (exec_question m' os' style Hs S' Nm' D') as (q' & A1' & H').
  exists q, q'. split; [exact A1|]. split; [exact A1'|]. intros n Hn Hn'. destruct (H n Hn) as (s & args & B1 & X). destruct (H' n Hn') as (s' & args' & B1' & X').
  exists s, args, s', args'. split; [exact B1|]. split; [exact B1'|]. intros E rows Sy. rewrite (X E rows), (X' E rows). apply listed_turned; assumption.
Qed.
Theorem turned_dollar : forall m m' os os', stmt_ok m -> named m -> describes os m -> stmt_ok m' -> named m' -> describes os' m' -> joins_turned m m' -> forallb hashable (m_args m) = true ->
  exists q q', apply_ops os new_qb = ROk q /\ apply_ops os' new_qb = ROk q' /\ forall n, 5 + m_size m <= n -> 5 + m_size m' <= n -> exists s args s' args',
    fst (build_query n style_dollar [q] (BQuery (Some 0))) = ROk (s, args) /\ fst (build_query n style_dollar [q'] (BQuery (Some 0))) = ROk (s', args') /\
    forall E rows, by_value E -> symmetric (database_of E) -> executes E args' s' rows <-> executes E args s rows.
Proof.
  intros m m' os os' S Nm D S' Nm' D' B Hh. assert (Hh' : forallb hashable (m_args m') = true) by (rewrite (turned_args m m' B); exact Hh).
  destruct (exec_dollar m os S Nm D Hh) as (q & A1 & H). destruct (exec_dollar m' os' S' Nm' D' Hh') as (q' & A1' & H').
  exists q, q'. split; [exact A1|]. split; [exact A1'|]. intros n Hn Hn'. destruct (H n Hn) as (s & args & B1 & X). destruct (H' n Hn') as (s' & args' & B1' & X').
  exists s, args, s', args'. split; [exact B1|]. split; [exact B1'|]. intros E rows Hv Sy. rewrite (X E rows Hv), (X' E rows Hv). apply listed_turned; assumption.
Qed.
