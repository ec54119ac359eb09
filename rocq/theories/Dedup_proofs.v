(** Proofs for Prop_dedup.v: Distinct. *)
From Coq Require Import Strings.String Strings.Ascii NArith ZArith List Bool Lia Sorting.Permutation Sorting.Sorted.
From Verif Require Import GoStr GoNum Syntax Value Util Model Sqlf Sqlb Spec_syntax RefSem Spec_build
  Spec_util Spec_eval Spec_query Spec_sql Spec_interp Sql_proofs Spec_answer Answer_proofs Exec_proofs Spec_sqltok Spec_read Spec_exec Spec_dedup.
Import ListNotations.
Open Scope string_scope.
Open Scope list_scope.

Section Db.
Variable D : database.
Lemma same_join_rows : forall j j' es, same_join j j' -> join_rows D es j' = join_rows D es j.
Proof.
  intros [k t l r] [k' t' l' r'] es (Et & El & Er & K). cbn [j_table j_left j_right j_kind] in *. subst t' l' r'.
  destruct k, k'; try discriminate K; try (destruct K; fail); reflexivity.
Qed.
Lemma distinct_from : forall m m', but_distinct m m' -> from_rows D m' = from_rows D m.
Proof.
  intros m m' (_ & _ & _ & Em & Ej & _). unfold from_rows. rewrite Em. generalize (map (fun r => bind D (known_as (m_main m)) r (no_rows D)) (d_rows D (fst (m_main m)))).
  induction Ej as [|j j' js js' S Ej IH]; intros es; [reflexivity|]. cbn [fold_left]. rewrite (same_join_rows j j' es S). apply IH.
Qed.
Lemma distinct_results : forall m m', but_distinct m m' -> results D m' = results D m.
Proof.
  intros m m' B. pose proof (distinct_from m m' B) as F. destruct B as (_ & _ & Es & _ & _ & Ec & Eg & Eo & _). unfold results, results_where, groups_of, where_rows, tests. rewrite Es, Ec, Eg, Eo, F. reflexivity.
Qed.
Lemma result_size : forall m x, In x (results D m) -> List.length (fst x) = List.length (m_cols m).
Proof. intros m x H. unfold results, results_where in H. apply in_map_iff in H. destruct H as (g & <- & _). apply map_length. Qed.
Lemma trimmed_results' : forall m, stmt_ok m -> closed m -> by_groups m -> tableless D m -> forall x, In x (results D (trimmed m)) <-> In x (results D m).
Proof.
  intros m [_ Hs] Hc Hg Hl x. assert (E : map fst (tests D m) = map cond_col (m_conds m)) by (unfold tests; rewrite map_map; reflexivity).
  unfold results. change (tests D (trimmed m)) with (tests D m). apply trimmed_results; [rewrite E; exact Hs|exact Hc| |exact Hg].
  rewrite E. intros c g g' Hi. apply Hl. apply in_app_or in Hi as [Hi|Hi]; [exact Hi|]. unfold m_used. apply in_or_app; right; apply in_or_app; left; exact Hi.
Qed.
Lemma cut_none : forall A m (l : list A), m_limit m = 0%Z -> m_offset m = 0%Z -> cut m l = l.
Proof. intros A m l E E'. unfold cut. rewrite E, E'. reflexivity. Qed.
Lemma firstn_whole : forall A (a b : list A) n, List.length a = n -> firstn n (a ++ b) = a.
Proof. intros A a b n <-. induction a as [|x a IH]; [reflexivity|]. cbn [List.length app firstn]. rewrite IH. reflexivity. Qed.
End Db.
Lemma nodup_map_in : forall A C (f : A -> C) l, (forall a b, In a l -> In b l -> f a = f b -> a = b) -> NoDup l -> NoDup (map f l).
Proof.
  intros A C f l. induction l as [|x l IH]; intros H N; [constructor|]. inversion N as [|? ? Nx N']; subst. cbn [map]. constructor.
  - intros K. apply in_map_iff in K. destruct K as (y & E & Hy). apply Nx. replace x with y; [exact Hy|]. apply H; [right; exact Hy|left; reflexivity|exact E].
  - apply IH; [|exact N']. intros a b Ha Hb. apply H; right; assumption.
Qed.
Lemma app_parts : forall A (a b c d : list A), List.length a = List.length c -> a ++ b = c ++ d -> a = c /\ b = d.
Proof. intros A a. induction a as [|x a IH]; intros b [|y c] d L E; try discriminate L; [split; [reflexivity|exact E]|]. cbn [app] in E. injection E as -> E. injection L as L. destruct (IH b c d L E) as [-> ->]. split; reflexivity. Qed.

Lemma listed_dedup : forall E m m' rows rows', stmt_ok m -> stmt_ok m' -> closed m -> by_groups m -> but_distinct m m' -> m_limit m = 0%Z -> m_offset m = 0%Z -> tableless (database_of E) m ->
  listed_answers E (trimmed m) rows -> listed_answers E (trimmed m') rows' ->
  NoDup rows /\ (forall r, In r rows' <-> In r (map (firstn (List.length (m_cols m))) rows)).
Proof.
  intros E m m' rows rows' S S' Hc Hg B L0 O0 Tl (l & (s & A1 & _ & ->) & ->) (l' & (s' & A1' & _ & ->) & ->).
  pose proof B as (Hd & Hd' & _ & _ & _ & _ & _ & _ & El & Eo).
  rewrite (trimmed_plain m' _ (proj2 S') Hd') in *.
  cbn [trimmed m_distinct] in A1. rewrite Hd in A1. rewrite Hd' in A1'. destruct A1 as [N I].
  change (cut (trimmed m) s) with (cut m s). rewrite (cut_none _ m s L0 O0), (cut_none _ m' s'); [|rewrite El; exact L0|rewrite Eo; exact O0].
  assert (R : forall x, In x s' <-> In x s).
  { intros x. rewrite I. assert (X : In x s' <-> In x (results (database_of E) m')) by (split; intros K; [exact (Permutation_in x A1' K)|exact (Permutation_in x (Permutation_sym A1') K)]).
    rewrite X, (distinct_results (database_of E) m m' B). symmetry. exact (trimmed_results' (database_of E) m S Hc Hg Tl x). }
  assert (Z : forall x, In x s -> List.length (fst x) = List.length (m_cols m)) by (intros x Hx; apply I in Hx; exact (result_size (database_of E) (trimmed m) x Hx)).
  split.
  - apply nodup_map_in; [|exact N]. intros [a1 a2] [b1 b2] Ha Hb K. unfold wide_row in K. cbn [trimmed m_distinct] in K. rewrite Hd in K. cbn [fst snd] in K.
    destruct (app_parts _ a1 a2 b1 b2) as [-> ->]; [rewrite (Z _ Ha : List.length a1 = _), (Z _ Hb : List.length b1 = _); reflexivity|exact K|reflexivity].
  - intros r. rewrite map_map, !in_map_iff. split; intros (x & <- & Hx); exists x.
    + apply R in Hx. split; [|exact Hx]. unfold wide_row. cbn [trimmed m_distinct]. rewrite Hd, Hd', app_nil_r. apply firstn_whole. apply (Z x Hx).
    + split; [|apply R; exact Hx]. unfold wide_row. cbn [trimmed m_distinct]. rewrite Hd, Hd', app_nil_r. symmetry. apply firstn_whole. apply (Z x Hx).
Qed.
Lemma distinct_args : forall m m', but_distinct m m' -> m_args m' = m_args m.
Proof. intros m m' (_ & _ & _ & _ & _ & E & _). unfold m_args. rewrite E. reflexivity. Qed.
Theorem dedup_question : forall m m' os os' style, style <> style_dollar -> stmt_ok m -> named m -> describes os m -> stmt_ok m' -> named m' -> describes os' m' ->
  but_distinct m m' -> closed m -> by_groups m -> m_limit m = 0%Z -> m_offset m = 0%Z ->
  exists q q', apply_ops os new_qb = ROk q /\ apply_ops os' new_qb = ROk q' /\ forall n, 5 + m_size m <= n -> 5 + m_size m' <= n -> exists s args s' args',
    fst (build_query n style [q] (BQuery (Some 0))) = ROk (s, args) /\ fst (build_query n style [q'] (BQuery (Some 0))) = ROk (s', args') /\
    forall E rows rows', tableless (database_of E) m -> executes E args s rows -> executes E args' s' rows' ->
      NoDup rows /\ (forall r, In r rows' <-> In r (map (firstn (List.length (m_cols m))) rows)).
Proof.
  intros m m' os os' style Hs S Nm D S' Nm' D' B Hc Hg L0 O0. destruct (exec_question m os style Hs S Nm D) as (q & A1 & H). destruct (exec_question m' os' style Hs S' Nm' D') as (q' & A1' & H').
  exists q, q'. split; [exact A1|]. split; [exact A1'|]. intros n Hn Hn'. destruct (H n Hn) as (s & args & B1 & X). destruct (H' n Hn') as (s' & args' & B1' & X').
  exists s, args, s', args'. split; [exact B1|]. split; [exact B1'|]. intros E rows rows' Tl R R'. apply (listed_dedup E m m'); try assumption; [apply X; exact R|apply X'; exact R'].
Qed.
Theorem dedup_dollar : forall m m' os os', stmt_ok m -> named m -> describes os m -> stmt_ok m' -> named m' -> describes os' m' ->
  but_distinct m m' -> closed m -> by_groups m -> m_limit m = 0%Z -> m_offset m = 0%Z -> forallb hashable (m_args m) = true ->
  exists q q', apply_ops os new_qb = ROk q /\ apply_ops os' new_qb = ROk q' /\ forall n, 5 + m_size m <= n -> 5 + m_size m' <= n -> exists s args s' args',
    fst (build_query n style_dollar [q] (BQuery (Some 0))) = ROk (s, args) /\ fst (build_query n style_dollar [q'] (BQuery (Some 0))) = ROk (s', args') /\
    forall E rows rows', by_value E -> tableless (database_of E) m -> executes E args s rows -> executes E args' s' rows' ->
      NoDup rows /\ (forall r, In r rows' <-> In r (map (firstn (List.length (m_cols m))) rows)).
Proof.
  intros m m' os os' S Nm D S' Nm' D' B Hc Hg L0 O0 Hh. assert (Hh' : forallb hashable (m_args m') = true) by (rewrite (distinct_args m m' B); exact Hh).
  destruct (exec_dollar m os S Nm D Hh) as (q & A1 & H). destruct (exec_dollar m' os' S' Nm' D' Hh') as (q' & A1' & H').
  exists q, q'. split; [exact A1|]. split; [exact A1'|]. intros n Hn Hn'. destruct (H n Hn) as (s & args & B1 & X). destruct (H' n Hn') as (s' & args' & B1' & X').
  exists s, args, s', args'. split; [exact B1|]. split; [exact B1'|]. intros E rows rows' Hv Tl R R'. apply (listed_dedup E m m'); try assumption; [apply (X E rows Hv); exact R|apply (X' E rows' Hv); exact R'].
Qed.
