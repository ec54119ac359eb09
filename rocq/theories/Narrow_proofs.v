(** Proofs for Prop_narrow.v: the conditions of a statement. *)
From Coq Require Import Strings.String Strings.Ascii NArith ZArith List Bool Lia Sorting.Permutation Sorting.Sorted.
From Verif Require Import GoStr GoNum Syntax Value Util Model Sqlf Sqlb Spec_syntax RefSem Spec_build
  Spec_util Spec_eval Spec_query Spec_sql Spec_interp Sql_proofs Spec_answer Answer_proofs Exec_proofs Spec_sqltok Spec_read Spec_exec Spec_narrow.
Import ListNotations.
Open Scope string_scope.
Open Scope list_scope.

(** ** Joins that differ only in whether they appear *)
Lemma bare_in : forall js js' j, map bare js = map bare js' -> In j js -> exists j', In j' js' /\ bare j' = bare j.
Proof. intros js js' j E H. apply (in_map bare) in H. rewrite E in H. apply in_map_iff in H. destruct H as (j' & E' & H). exists j'. split; [exact H|exact E']. Qed.
Lemma bare_parts : forall j j', bare j = bare j' -> j_table j = j_table j' /\ j_left j = j_left j' /\ j_right j = j_right j'.
Proof. intros [k t a b] [k' t' a' b'] E. injection E as _ -> -> ->. auto. Qed.
Lemma needs_more : forall cs m m' t, adds cs m m' -> needs m (map cond_col (m_conds m)) t -> needs m' (map cond_col (m_conds m')) t.
Proof.
  intros cs m m' t (_ & Ec & _ & Ej & P & Eg & Eo & _) H. induction H as [c Hc Hn|j c Hj IH Hi Hc Hn].
  - apply ns_col; [|exact Hn]. rewrite Ec, Eg, Eo. rewrite !in_app_iff in *. destruct Hc as [K|[K|K]]; [left; exact K| |right; right; exact K]. right. left.
    apply (Permutation_in c (Permutation_map cond_col (Permutation_sym P))). rewrite map_app. apply in_or_app. left. exact K.
  - destruct (bare_in _ _ j (eq_sym Ej) Hi) as (j' & Hi' & Eb). destruct (bare_parts _ _ Eb) as (E1 & E2 & E3). apply (ns_join m' _ j'); [rewrite E1; exact IH|exact Hi'|rewrite E2, E3; exact Hc|exact Hn].
Qed.
Lemma adds_none : forall m m', adds [] m m' -> adds [] m' m.
Proof. intros m m' (H1 & H2 & H3 & H4 & H5 & H6 & H7 & H8 & H9). rewrite app_nil_r in H5. unfold adds. rewrite app_nil_r. repeat split; auto using Permutation_sym. Qed.
Lemma joins_same : forall js js', map bare js = map bare js' -> (forall j j', In j js -> In j' js' -> bare j = bare j' -> appears j = appears j') -> js = js'.
Proof.
  induction js as [|j js IH]; intros [|j' js'] E H; try discriminate E; [reflexivity|]. cbn [map] in E. pose proof (f_equal (@tl join) E) as E2. pose proof (f_equal (@hd join j) E) as E1. cbn in E1, E2. f_equal.
  - pose proof (H j j' (or_introl eq_refl) (or_introl eq_refl) E1) as A. destruct j as [k t a b], j' as [k' t' a' b']. injection E1 as K -> -> ->. f_equal. unfold appears in A. cbn in A. destruct k, k'; congruence.
  - apply IH; [exact E2|]. intros i i' Hi Hi'. apply H; right; assumption.
Qed.
Lemma shown_same : forall m m', stmt_ok m -> stmt_ok m' -> adds [] m m' -> m_joins m' = m_joins m.
Proof.
  intros m m' [_ S] [_ S'] A. pose proof A as (Ed & _ & _ & Ej & _). apply joins_same; [exact Ej|]. intros j j' Hj Hj' Eb. pose proof (S' j Hj) as X. pose proof (S j' Hj') as X'.
  destruct (bare_parts _ _ Eb) as (E1 & _ & _). assert (K : (appears j = true) <-> (appears j' = true)).
  { rewrite X, X'. destruct j as [k t a b], j' as [k' t' a' b']. injection Eb as K -> -> ->. cbn [j_kind j_table] in *. rewrite Ed.
    destruct k, k'; try discriminate K; try tauto. split; intros H D; [apply (needs_more [] m' m _ (adds_none _ _ A)), H, D|apply (needs_more [] m m' _ A), H, D]. }
  destruct (appears j), (appears j'); intuition congruence.
Qed.
(** ** Rows *)
Lemma forallb_perm : forall A (f : A -> bool) l l', Permutation l l' -> forallb f l = forallb f l'.
Proof. intros A f l l' P. induction P as [|x l l' P IH|x y l|l l1 l2 P1 IH1 P2 IH2]; cbn [forallb]; [reflexivity|rewrite IH; reflexivity|destruct (f x), (f y); reflexivity|rewrite IH1; exact IH2]. Qed.
Lemma forallb_map : forall A B (f : B -> bool) (g : A -> B) l, forallb f (map g l) = forallb (fun x => f (g x)) l.
Proof. intros A B f g l. induction l as [|x l IH]; [reflexivity|]. cbn [map forallb]. rewrite IH. reflexivity. Qed.
Section Rows.
Variable D : database.
Lemma bare_rows : forall js js' es, map bare js = map bare js' -> fold_left (join_rows D) js es = fold_left (join_rows D) js' es.
Proof.
  induction js as [|j js IH]; intros [|j' js'] es E; try discriminate E; [reflexivity|]. cbn [map] in E. pose proof (f_equal (@tl join) E) as E2. pose proof (f_equal (@hd join j) E) as E1. cbn in E1, E2.
  cbn [fold_left]. rewrite <- (IH js' _ E2). f_equal. destruct j as [k t a b], j' as [k' t' a' b']. injection E1 as K -> -> ->. destruct k, k'; try discriminate K; reflexivity.
Qed.
Definition passes (cs : list cond) (e : rows_of (d_val D)) : bool := forallb (fun x => d_holds D x (col_value D [e] (cond_col x))) cs.
Lemma from_same : forall cs m m', adds cs m m' -> from_rows D m' = from_rows D m.
Proof. intros cs m m' (_ & _ & Em & Ej & _). unfold from_rows. rewrite Em. apply bare_rows. exact Ej. Qed.
Lemma where_more : forall cs m m', adds cs m m' -> where_rows D m' (tests D m') = filter (passes cs) (where_rows D m (tests D m)).
Proof.
  intros cs m m' A. unfold where_rows. rewrite (from_same cs m m' A). destruct A as (_ & _ & _ & _ & P & _). induction (from_rows D m) as [|e l IH]; [reflexivity|]. cbn [filter].
  assert (K : forallb (fun t : Spec_answer.test D => snd t (col_value D [e] (fst t))) (tests D m') = forallb (fun t : Spec_answer.test D => snd t (col_value D [e] (fst t))) (tests D m) && passes cs e).
  { unfold tests, passes. rewrite !forallb_map. cbn [fst snd]. rewrite (forallb_perm _ _ _ _ P), forallb_app. reflexivity. }
  match goal with |- (if ?a then _ else _) = filter _ (if ?b then _ else _) => replace a with (b && passes cs e) by (symmetry; exact K); destruct b end; cbn [andb filter]; [destruct (passes cs e); rewrite IH; reflexivity|exact IH].
Qed.
Lemma filter_all : forall A (l : list A), filter (fun _ => true) l = l.
Proof. intros A l. induction l as [|x l IH]; [reflexivity|]. cbn. rewrite IH. reflexivity. Qed.
Lemma results_same : forall m m', adds [] m m' -> results D m' = results D m.
Proof.
  intros m m' A. pose proof (where_more [] m m' A) as W. change (passes []) with (fun _ : rows_of (d_val D) => true) in W. rewrite filter_all in W.
  destruct A as (_ & Ec & _ & _ & _ & Eg & Eo & _). unfold results, results_where, groups_of. rewrite Ec, Eg, Eo, W. reflexivity.
Qed.
Lemma answers_same : forall m m' l, adds [] m m' -> answers D m' l <-> answers D m l.
Proof.
  intros m m' l A. pose proof (results_same m m' A) as R. destruct A as (Ed & _ & _ & _ & _ & _ & Eo & El & Ef). unfold answers, answers_where. unfold results in R. rewrite R, Ed, Eo.
  assert (C : forall s : list (result_row D), cut m' s = cut m s) by (intros s; unfold cut; rewrite El, Ef; reflexivity).
  split; intros (s & H1 & H2 & ->); exists s; (split; [exact H1|split; [exact H2|]]); [apply C|symmetry; apply C].
Qed.
Lemma filter_parts : forall A (f : A -> bool) l, Permutation (filter f l ++ filter (fun x => negb (f x)) l) l.
Proof.
  intros A f l. induction l as [|x l IH]; [constructor|]. cbn [filter]. destruct (f x); cbn [negb app]; [constructor; exact IH|]. apply Permutation_sym, Permutation_cons_app, Permutation_sym. exact IH.
Qed.
Lemma results_more : forall cs m m', adds cs m m' -> m_groups m = [] -> exists rest, Permutation (results D m' ++ rest) (results D m).
Proof.
  intros cs m m' A G. pose proof (where_more cs m m' A) as W. destruct A as (_ & Ec & _ & _ & _ & Eg & Eo & _). unfold results, results_where, groups_of. rewrite Ec, Eg, Eo, G, W.
  set (w := where_rows D m (tests D m)). eexists. rewrite !map_map, <- map_app. apply Permutation_map. apply filter_parts.
Qed.
Lemma nodup_rest : forall A (dec : forall x y : A, {x = y} + {x <> y}) (s t : list A), NoDup s -> NoDup t -> incl s t -> exists rest, Permutation (s ++ rest) t.
Proof.
  intros A dec s. induction s as [|x s IH]; intros t Ns Nt I; [exists t; reflexivity|]. inversion Ns as [|? ? Nx Ns']; subst.
  destruct (in_split x t (I x (or_introl eq_refl))) as (t1 & t2 & ->). destruct (IH (t1 ++ t2) Ns') as (rest & P).
  - eapply NoDup_remove_1. exact Nt.
  - intros y Hy. assert (K : In y (t1 ++ x :: t2)) by (apply I; right; exact Hy). apply in_app_iff in K. apply in_or_app. destruct K as [K|[K|K]]; [left; exact K|subst y; contradiction|right; exact K].
  - exists rest. cbn [app]. apply Permutation_cons_app. exact P.
Qed.
Lemma answers_more : forall cs m m' l l', adds cs m m' -> m_groups m = [] -> m_limit m = 0%Z -> m_offset m = 0%Z -> answers D m l -> answers D m' l' -> exists rest, Permutation (l' ++ rest) l.
Proof.
  intros cs m m' l l' A G L O (s & H1 & _ & E) (t & K1 & _ & E'). destruct (results_more cs m m' A G) as (rest & P). destruct A as (Ed & _ & _ & _ & _ & _ & _ & El & Ef).
  assert (C : cut m s = s) by (unfold cut; rewrite L, O; reflexivity). assert (C' : cut m' t = t) by (unfold cut; rewrite El, Ef, L, O; reflexivity). subst l l'. rewrite C, C'. rewrite Ed in K1.
  unfold results in P. destruct (m_distinct m).
  - destruct H1 as [N1 H1], K1 as [N2 K1]. assert (I : incl t s). { intros x Hx. apply H1, (Permutation_in x P), in_or_app. left. apply K1, Hx. }
    assert (dec : forall x y : result_row D, {x = y} + {x <> y}).
    { assert (dv : forall a b : d_val D, {a = b} + {a <> b}) by (intros a b; destruct (d_same D a b) eqn:S; [left; apply (d_same_ok D), S|right; intros Q; apply (d_same_ok D) in Q; congruence]).
      decide equality; apply list_eq_dec, dv. }
    apply (nodup_rest _ dec); assumption.
  - exists rest. transitivity (results_where D m' (tests D m') ++ rest); [apply Permutation_app_tail; exact K1|]. transitivity (results_where D m (tests D m)); [exact P|symmetry; exact H1].
Qed.
End Rows.

Lemma trimmed_adds : forall m m', stmt_ok m -> stmt_ok m' -> adds [] m m' -> adds [] (trimmed m) (trimmed m').
Proof.
  intros m m' S S' A. pose proof (shown_same m m' S S' A) as J. destruct A as (H1 & H2 & H3 & _ & H5 & H6 & H7 & H8 & H9). unfold adds. cbn [trimmed m_distinct m_cols m_main m_joins m_conds m_groups m_orders m_limit m_offset].
  unfold m_shown. rewrite J. repeat split; auto.
Qed.
Lemma listed_same : forall E m m' rows, stmt_ok m -> stmt_ok m' -> adds [] m m' -> listed_answers E (trimmed m') rows <-> listed_answers E (trimmed m) rows.
Proof.
  intros E m m' rows S S' A. pose proof (trimmed_adds m m' S S' A) as T. assert (W : forall r, wide_row (trimmed m') r = wide_row (trimmed m) (V := d_val (e_data E)) r).
  { intros r. unfold wide_row. destruct T as (-> & _). reflexivity. }
  unfold listed_answers. split; intros (l & H & ->); exists l; (split; [apply (answers_same (database_of E) _ _ _ T); exact H|apply map_ext; intros r; rewrite W; reflexivity]).
Qed.
Lemma listed_more : forall E cs m m' rows rows', adds cs m m' -> m_groups m = [] -> m_limit m = 0%Z -> m_offset m = 0%Z ->
  listed_answers E m rows -> listed_answers E m' rows' -> exists rest, Permutation (rows' ++ rest) rows.
Proof.
  intros E cs m m' rows rows' A G L O (l & H & ->) (l' & H' & ->). destruct (answers_more (database_of E) cs m m' l l' A G L O H H') as (rest & P). exists (map (wide_row m) rest).
  assert (W : map (wide_row m') l' = map (wide_row m) l') by (apply map_ext; intros r; unfold wide_row; destruct A as (-> & _); reflexivity).
  rewrite W. rewrite <- map_app. apply Permutation_map. exact P.
Qed.

(** ** Built statements *)
Theorem order_question : forall m m' os os' style, style <> style_dollar -> stmt_ok m -> named m -> describes os m -> stmt_ok m' -> named m' -> describes os' m' -> adds [] m m' ->
  exists q q', apply_ops os new_qb = ROk q /\ apply_ops os' new_qb = ROk q' /\ forall n, 5 + m_size m <= n -> 5 + m_size m' <= n -> exists s args s' args',
    fst (build_query n style [q] (BQuery (Some 0))) = ROk (s, args) /\ fst (build_query n style [q'] (BQuery (Some 0))) = ROk (s', args') /\
    forall E rows, executes E args' s' rows <-> executes E args s rows.
Proof.
  intros m m' os os' style Hs S Nm D S' Nm' D' A. destruct (exec_question m os style Hs S Nm D) as (q & A1 & H). destruct (exec_question m' os' style Hs S' Nm' D') as (q' & A1' & H').
  exists q, q'. split; [exact A1|]. split; [exact A1'|]. intros n Hn Hn'. destruct (H n Hn) as (s & args & B & X). destruct (H' n Hn') as (s' & args' & B' & X').
  exists s, args, s', args'. split; [exact B|]. split; [exact B'|]. intros E rows. rewrite X, X'. apply listed_same; assumption.
Qed.
Theorem order_dollar : forall m m' os os', stmt_ok m -> named m -> describes os m -> stmt_ok m' -> named m' -> describes os' m' -> adds [] m m' ->
  forallb hashable (m_args m) = true -> forallb hashable (m_args m') = true ->
  exists q q', apply_ops os new_qb = ROk q /\ apply_ops os' new_qb = ROk q' /\ forall n, 5 + m_size m <= n -> 5 + m_size m' <= n -> exists s args s' args',
    fst (build_query n style_dollar [q] (BQuery (Some 0))) = ROk (s, args) /\ fst (build_query n style_dollar [q'] (BQuery (Some 0))) = ROk (s', args') /\
    forall E rows, by_value E -> executes E args' s' rows <-> executes E args s rows.
Proof.
  intros m m' os os' S Nm D S' Nm' D' A Hh Hh'. destruct (exec_dollar m os S Nm D Hh) as (q & A1 & H). destruct (exec_dollar m' os' S' Nm' D' Hh') as (q' & A1' & H').
  exists q, q'. split; [exact A1|]. split; [exact A1'|]. intros n Hn Hn'. destruct (H n Hn) as (s & args & B & X). destruct (H' n Hn') as (s' & args' & B' & X').
  exists s, args, s', args'. split; [exact B|]. split; [exact B'|]. intros E rows Hv. rewrite (X E rows Hv), (X' E rows Hv). apply listed_same; assumption.
Qed.
Theorem narrow_question : forall cs m m' os os' style, style <> style_dollar -> stmt_ok m -> named m -> describes os m -> stmt_ok m' -> named m' -> describes os' m' -> adds cs m m' ->
  closed m -> closed m' -> m_groups m = [] -> m_limit m = 0%Z -> m_offset m = 0%Z ->
  exists q q', apply_ops os new_qb = ROk q /\ apply_ops os' new_qb = ROk q' /\ forall n, 5 + m_size m <= n -> 5 + m_size m' <= n -> exists s args s' args',
    fst (build_query n style [q] (BQuery (Some 0))) = ROk (s, args) /\ fst (build_query n style [q'] (BQuery (Some 0))) = ROk (s', args') /\
    forall E rows rows', tableless (database_of E) m -> tableless (database_of E) m' -> executes E args s rows -> executes E args' s' rows' -> exists rest, Permutation (rows' ++ rest) rows.
Proof.
  intros cs m m' os os' style Hs S Nm D S' Nm' D' A Cl Cl' G L O. destruct (exec_question m os style Hs S Nm D) as (q & A1 & H). destruct (exec_question m' os' style Hs S' Nm' D') as (q' & A1' & H').
  exists q, q'. split; [exact A1|]. split; [exact A1'|]. intros n Hn Hn'. destruct (H n Hn) as (s & args & B & X). destruct (H' n Hn') as (s' & args' & B' & X').
  exists s, args, s', args'. split; [exact B|]. split; [exact B'|]. intros E rows rows' T T' R R'. apply X in R. apply X' in R'.
  assert (G' : m_groups m' = []) by (destruct A as (_ & _ & _ & _ & _ & -> & _); exact G).
  apply (listed_trimmed m S Cl (or_introl G) E T) in R. apply (listed_trimmed m' S' Cl' (or_introl G') E T') in R'. apply (listed_more E cs m m'); assumption.
Qed.
Theorem narrow_dollar : forall cs m m' os os', stmt_ok m -> named m -> describes os m -> stmt_ok m' -> named m' -> describes os' m' -> adds cs m m' ->
  closed m -> closed m' -> m_groups m = [] -> m_limit m = 0%Z -> m_offset m = 0%Z -> forallb hashable (m_args m) = true -> forallb hashable (m_args m') = true ->
  exists q q', apply_ops os new_qb = ROk q /\ apply_ops os' new_qb = ROk q' /\ forall n, 5 + m_size m <= n -> 5 + m_size m' <= n -> exists s args s' args',
    fst (build_query n style_dollar [q] (BQuery (Some 0))) = ROk (s, args) /\ fst (build_query n style_dollar [q'] (BQuery (Some 0))) = ROk (s', args') /\
    forall E rows rows', by_value E -> tableless (database_of E) m -> tableless (database_of E) m' -> executes E args s rows -> executes E args' s' rows' -> exists rest, Permutation (rows' ++ rest) rows.
Proof.
  intros cs m m' os os' S Nm D S' Nm' D' A Cl Cl' G L O Hh Hh'. destruct (exec_dollar m os S Nm D Hh) as (q & A1 & H). destruct (exec_dollar m' os' S' Nm' D' Hh') as (q' & A1' & H').
  exists q, q'. split; [exact A1|]. split; [exact A1'|]. intros n Hn Hn'. destruct (H n Hn) as (s & args & B & X). destruct (H' n Hn') as (s' & args' & B' & X').
  exists s, args, s', args'. split; [exact B|]. split; [exact B'|]. intros E rows rows' Hv T T' R R'. apply (X E _ Hv) in R. apply (X' E _ Hv) in R'.
  assert (G' : m_groups m' = []) by (destruct A as (_ & _ & _ & _ & _ & -> & _); exact G).
  apply (listed_trimmed m S Cl (or_introl G) E T) in R. apply (listed_trimmed m' S' Cl' (or_introl G') E T') in R'. apply (listed_more E cs m m'); assumption.
Qed.

(** ** Repeated conditions *)
Lemma needs_less : forall cs m m' t, adds cs m m' -> incl cs (m_conds m) -> needs m' (map cond_col (m_conds m')) t -> needs m (map cond_col (m_conds m)) t.
Proof.
  intros cs m m' t (_ & Ec & _ & Ej & P & Eg & Eo & _) I H. induction H as [c Hc Hn|j c Hj IH Hi Hc Hn].
  - apply ns_col; [|exact Hn]. rewrite Ec, Eg, Eo in Hc. rewrite !in_app_iff in *. destruct Hc as [K|[K|K]]; [left; exact K| |right; right; exact K]. right. left.
    apply (Permutation_in c (Permutation_map cond_col P)) in K. rewrite map_app in K. apply in_app_iff in K. destruct K as [K|K]; [exact K|].
    apply in_map_iff in K. destruct K as (x & E & K). apply in_map_iff. exists x. split; [exact E|apply I, K].
  - destruct (bare_in _ _ j Ej Hi) as (j' & Hi' & Eb). destruct (bare_parts _ _ Eb) as (E1 & E2 & E3). apply (ns_join m _ j'); [rewrite E1; exact IH|exact Hi'|rewrite E2, E3; exact Hc|exact Hn].
Qed.
Lemma shown_repeat : forall cs m m', stmt_ok m -> stmt_ok m' -> adds cs m m' -> incl cs (m_conds m) -> m_joins m' = m_joins m.
Proof.
  intros cs m m' [_ S] [_ S'] A I. pose proof A as (Ed & _ & _ & Ej & _). apply joins_same; [exact Ej|]. intros j j' Hj Hj' Eb. pose proof (S' j Hj) as X. pose proof (S j' Hj') as X'.
  assert (K : (appears j = true) <-> (appears j' = true)).
  { rewrite X, X'. destruct j as [k t a b], j' as [k' t' a' b']. injection Eb as K -> -> ->. cbn [j_kind j_table] in *. rewrite Ed.
    destruct k, k'; try discriminate K; try tauto. split; intros H D; [apply (needs_less cs m m' _ A I), H, D|apply (needs_more cs m m' _ A), H, D]. }
  destruct (appears j), (appears j'); intuition congruence.
Qed.
Lemma filter_id : forall A (f : A -> bool) l, (forall x, In x l -> f x = true) -> filter f l = l.
Proof. intros A f l H. induction l as [|x l IH]; [reflexivity|]. cbn [filter]. rewrite (H x (or_introl eq_refl)), IH; [reflexivity|]. intros y Hy. apply H. right. exact Hy. Qed.
Lemma where_repeat : forall D cs m m', adds cs m m' -> incl cs (m_conds m) -> where_rows D m' (tests D m') = where_rows D m (tests D m).
Proof.
  intros D cs m m' A I. rewrite (where_more D cs m m' A). apply filter_id. intros e He. unfold where_rows in He. apply filter_In in He. destruct He as [_ He].
  unfold passes. rewrite forallb_forall in *. intros x Hx. apply (He (cond_col x, d_holds D x)). unfold tests. apply in_map_iff. exists x. split; [reflexivity|apply I, Hx].
Qed.
Lemma answers_repeat : forall D cs m m' l, adds cs m m' -> incl cs (m_conds m) -> answers D m' l <-> answers D m l.
Proof.
  intros D cs m m' l A I. pose proof (where_repeat D cs m m' A I) as W. destruct A as (Ed & Ec & _ & _ & _ & Eg & Eo & El & Ef).
  assert (R : results_where D m' (tests D m') = results_where D m (tests D m)) by (unfold results_where, groups_of; rewrite Ec, Eg, Eo, W; reflexivity).
  unfold answers, answers_where. rewrite R, Ed, Eo.
  assert (C : forall s : list (result_row D), cut m' s = cut m s) by (intros s; unfold cut; rewrite El, Ef; reflexivity).
  split; intros (s & H1 & H2 & ->); exists s; (split; [exact H1|split; [exact H2|]]); [apply C|symmetry; apply C].
Qed.
Lemma listed_repeat : forall E cs m m' rows, stmt_ok m -> stmt_ok m' -> adds cs m m' -> incl cs (m_conds m) -> listed_answers E (trimmed m') rows <-> listed_answers E (trimmed m) rows.
Proof.
  intros E cs m m' rows S S' A I.
  assert (T : adds cs (trimmed m) (trimmed m')).
  { pose proof (shown_repeat cs m m' S S' A I) as J. destruct A as (H1 & H2 & H3 & _ & H5 & H6 & H7 & H8 & H9). unfold adds.
    cbn [trimmed m_distinct m_cols m_main m_joins m_conds m_groups m_orders m_limit m_offset]. unfold m_shown. rewrite J. repeat split; auto. }
  assert (W : forall r, wide_row (trimmed m') r = wide_row (trimmed m) (V := d_val (e_data E)) r).
  { intros r. unfold wide_row. destruct T as (-> & _). reflexivity. }
  unfold listed_answers. split; intros (l & H & ->); exists l; (split; [apply (answers_repeat (database_of E) cs _ _ _ T I); exact H|apply map_ext; intros r; rewrite W; reflexivity]).
Qed.
Theorem repeat_question : forall cs m m' os os' style, style <> style_dollar -> stmt_ok m -> named m -> describes os m -> stmt_ok m' -> named m' -> describes os' m' -> adds cs m m' -> incl cs (m_conds m) ->
  exists q q', apply_ops os new_qb = ROk q /\ apply_ops os' new_qb = ROk q' /\ forall n, 5 + m_size m <= n -> 5 + m_size m' <= n -> exists s args s' args',
    fst (build_query n style [q] (BQuery (Some 0))) = ROk (s, args) /\ fst (build_query n style [q'] (BQuery (Some 0))) = ROk (s', args') /\
    forall E rows, executes E args' s' rows <-> executes E args s rows.
Proof.
  intros cs m m' os os' style Hs S Nm D S' Nm' D' A I. destruct (exec_question m os style Hs S Nm D) as (q & A1 & H). destruct (exec_question m' os' style Hs S' Nm' D') as (q' & A1' & H').
  exists q, q'. split; [exact A1|]. split; [exact A1'|]. intros n Hn Hn'. destruct (H n Hn) as (s & args & B & X). destruct (H' n Hn') as (s' & args' & B' & X').
  exists s, args, s', args'. split; [exact B|]. split; [exact B'|]. intros E rows. rewrite X, X'. apply (listed_repeat E cs); assumption.
Qed.
Theorem repeat_dollar : forall cs m m' os os', stmt_ok m -> named m -> describes os m -> stmt_ok m' -> named m' -> describes os' m' -> adds cs m m' -> incl cs (m_conds m) ->
  forallb hashable (m_args m) = true -> forallb hashable (m_args m') = true ->
  exists q q', apply_ops os new_qb = ROk q /\ apply_ops os' new_qb = ROk q' /\ forall n, 5 + m_size m <= n -> 5 + m_size m' <= n -> exists s args s' args',
    fst (build_query n style_dollar [q] (BQuery (Some 0))) = ROk (s, args) /\ fst (build_query n style_dollar [q'] (BQuery (Some 0))) = ROk (s', args') /\
    forall E rows, by_value E -> executes E args' s' rows <-> executes E args s rows.
Proof.
  intros cs m m' os os' S Nm D S' Nm' D' A I Hh Hh'. destruct (exec_dollar m os S Nm D Hh) as (q & A1 & H). destruct (exec_dollar m' os' S' Nm' D' Hh') as (q' & A1' & H').
  exists q, q'. split; [exact A1|]. split; [exact A1'|]. intros n Hn Hn'. destruct (H n Hn) as (s & args & B & X). destruct (H' n Hn') as (s' & args' & B' & X').
  exists s, args, s', args'. split; [exact B|]. split; [exact B'|]. intros E rows Hv. rewrite (X E rows Hv), (X' E rows Hv). apply (listed_repeat E cs); assumption.
Qed.
