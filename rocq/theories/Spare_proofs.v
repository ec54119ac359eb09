(** Proofs for Prop_spare.v: joins that can be left out. *)
From Coq Require Import Strings.String Strings.Ascii NArith ZArith List Bool Lia Sorting.Permutation Sorting.Sorted.
From Verif Require Import GoStr GoNum Syntax Value Util Model Sqlf Sqlb Spec_syntax RefSem Spec_build
  Spec_util Spec_eval Spec_query Spec_sql Spec_interp Sql_proofs Spec_answer Answer_proofs Exec_proofs Spec_sqltok Spec_read Spec_exec Spec_joinorder Spec_spare.
Import ListNotations.
Open Scope string_scope.
Open Scope list_scope.

Lemma forall2_app : forall A B (R : A -> B -> Prop) a a' b b', Forall2 R a a' -> Forall2 R b b' -> Forall2 R (a ++ b) (a' ++ b').
Proof. intros A B R a a' b b' F G. induction F; [exact G|constructor; assumption]. Qed.
Lemma forall2_refl : forall A (R : A -> A -> Prop) l, (forall x, R x x) -> Forall2 R l l.
Proof. intros A R l H. induction l; constructor; [apply H|assumption]. Qed.
Section Db.
Variable D : database.
Local Notation rows := (rows_of (d_val D)).
Variable a : string.
(** The rows of all tables but [a]. *)
Definition but (e e' : rows) : Prop := forall x, x <> a -> e x = e' x.
Definition still_col (c : col) : Prop := fst c <> a /\ (fst c = "" -> forall g g', d_expr D (snd c) g = d_expr D (snd c) g').
Lemma but_col : forall c e e' g g', still_col c -> but e e' -> col_value D (e :: g) c = col_value D (e' :: g') c.
Proof.
  intros c e e' g g' [N S] B. unfold col_value. destruct (is_empty (fst c)) eqn:E; [apply S, empty_eq; exact E|]. cbn [hd]. rewrite (B (fst c) N). reflexivity.
Qed.
Lemma but_bind : forall b r e e', but e e' -> but (bind D b r e) (bind D b r e').
Proof. intros b r e e' B x N. unfold bind. destruct (String.eqb x b); [reflexivity|apply B; exact N]. Qed.
Lemma bind_but : forall r e, but (bind D a r e) e.
Proof. intros r e x N. unfold bind. destruct (String.eqb x a) eqn:E; [apply String.eqb_eq in E; contradiction|reflexivity]. Qed.
Definition apart (j : join) : Prop := still_col (j_left j) /\ still_col (j_right j).
Lemma but_on : forall j e e' r, apart j -> but e e' -> on_holds D j e r = on_holds D j e' r.
Proof. intros j e e' r [L R] B. unfold on_holds. cbv zeta. apply (f_equal2 (d_equal D)); apply but_col; try assumption; apply but_bind; exact B. Qed.
Lemma but_partners : forall j e e', apart j -> but e e' -> partners D j e = partners D j e'.
Proof. intros j e e' A B. apply filter_ext. intros r. apply but_on; assumption. Qed.
Lemma but_maps : forall b (rs : list (row_of (d_val D))) e e', but e e' -> Forall2 but (map (fun r => bind D b r e) rs) (map (fun r => bind D b r e') rs).
Proof. intros b rs e e' B. induction rs; constructor; [apply but_bind; exact B|assumption]. Qed.
Lemma but_exists : forall (p : rows -> bool) l l', (forall e e', but e e' -> p e = p e') -> Forall2 but l l' -> existsb p l = existsb p l'.
Proof. intros p l l' H F. induction F as [|e e' l l' B F IH]; [reflexivity|]. cbn [existsb]. rewrite (H e e' B), IH. reflexivity. Qed.
Lemma but_flat : forall (f : rows -> list rows) l l', (forall e e', but e e' -> Forall2 but (f e) (f e')) -> Forall2 but l l' -> Forall2 but (flat_map f l) (flat_map f l').
Proof. intros f l l' H F. induction F as [|e e' l l' B F IH]; [constructor|]. cbn [flat_map]. apply forall2_app; [apply H; exact B|exact IH]. Qed.
Lemma but_join : forall j es es', apart j -> Forall2 but es es' -> Forall2 but (join_rows D es j) (join_rows D es' j).
Proof.
  intros j es es' A F.
  assert (M : Forall2 but (matched D j es) (matched D j es')).
  { unfold matched. apply but_flat; [|exact F]. intros e e' B. rewrite (but_partners j e e' A B). apply but_maps. exact B. }
  assert (N : Forall2 but (matched_or_null D j es) (matched_or_null D j es')).
  { unfold matched_or_null. apply but_flat; [|exact F]. intros e e' B. rewrite (but_partners j e e' A B). destruct (partners D j e') as [|r rs].
    - constructor; [apply but_bind; exact B|constructor].
    - apply (but_maps _ (r :: rs)). exact B. }
  assert (S : Forall2 but (strangers D j es) (strangers D j es')).
  { replace (strangers D j es) with (strangers D j es'); [apply forall2_refl; intros e x _; reflexivity|].
    unfold strangers. f_equal. apply filter_ext. intros r. f_equal. symmetry. apply but_exists; [|exact F]. intros e e' B. apply but_on; assumption. }
  unfold join_rows. destruct (j_kind j); try assumption; apply forall2_app; assumption.
Qed.
Lemma but_joins : forall js es es', Forall apart js -> Forall2 but es es' -> Forall2 but (fold_left (join_rows D) js es) (fold_left (join_rows D) js es').
Proof. induction js as [|j js IH]; intros es es' A F; [exact F|]. inversion A; subst. cbn [fold_left]. apply IH; [assumption|]. apply but_join; assumption. Qed.
(** One row each. *)
Lemma one_each : forall j es, one_sided j -> known_as (j_table j) = a ->
  (forall e, In e es -> match j_kind j with JInner => List.length (partners D j e) = 1 | _ => List.length (partners D j e) <= 1 end) -> Forall2 but (join_rows D es j) es.
Proof.
  intros j es K E O. unfold one_sided in K. unfold join_rows, matched, matched_or_null. rewrite E.
  destruct (j_kind j) eqn:Kj; try (destruct K; fail); induction es as [|e es IH]; try constructor; cbn [flat_map];
    specialize (IH (fun x H => O x (or_intror H))); specialize (O e (or_introl eq_refl)); destruct (partners D j e) as [|r [|r' rs]]; cbn [List.length] in O; try lia;
    cbn [map app]; (constructor; [apply bind_but|exact IH]).
Qed.
Lemma but_filter : forall (p : rows -> bool) l l', (forall e e', but e e' -> p e = p e') -> Forall2 but l l' -> Forall2 but (filter p l) (filter p l').
Proof. intros p l l' H F. induction F as [|e e' l l' B F IH]; [constructor|]. cbn [filter]. rewrite (H e e' B). destruct (p e'); [constructor; assumption|exact IH]. Qed.
(** Groups. *)
Definition full2 (g g' : list rows) : Prop := g <> [] /\ Forall2 but g g'.
Lemma but_same_key : forall cs x x' y y', Forall still_col cs -> but x x' -> but y y' -> same_key D cs x y = same_key D cs x' y'.
Proof.
  intros cs x x' y y' F B B'. unfold same_key. induction F as [|c cs S F IH]; [reflexivity|]. cbn [forallb]. rewrite IH, (but_col c x x' [] [] S B), (but_col c y y' [] [] S B'). reflexivity.
Qed.
Lemma but_add : forall cs e e' gs gs', Forall still_col cs -> but e e' -> Forall2 full2 gs gs' -> Forall2 full2 (add_to D cs e gs) (add_to D cs e' gs').
Proof.
  intros cs e e' gs gs' S B F. induction F as [|g g' gs gs' [N G] F IH]; cbn [add_to].
  - constructor; [|constructor]. split; [discriminate|]. constructor; [exact B|constructor].
  - assert (H : but (hd (no_rows D) g) (hd (no_rows D) g')) by (destruct G; [contradiction|assumption]).
    rewrite (but_same_key cs _ _ e e' S H B). destruct (same_key D cs (hd (no_rows D) g') e').
    + constructor; [|exact F]. split; [destruct g; discriminate|]. apply forall2_app; [exact G|]. constructor; [exact B|constructor].
    + constructor; [split; assumption|exact IH].
Qed.
Lemma but_groups : forall cs es es' gs gs', Forall still_col cs -> Forall2 but es es' -> Forall2 full2 gs gs' ->
  Forall2 full2 (fold_left (fun gs e => add_to D cs e gs) es gs) (fold_left (fun gs e => add_to D cs e gs) es' gs').
Proof.
  intros cs es es' gs gs' S F. revert gs gs'. induction F as [|e e' es es' B F IH]; intros gs gs' G; [exact G|]. cbn [fold_left]. apply IH. apply but_add; assumption.
Qed.
Lemma but_results : forall m m', m_cols m' = m_cols m -> m_conds m' = m_conds m -> m_groups m' = m_groups m -> m_orders m' = m_orders m ->
  (forall c, In c (m_cols m ++ map cond_col (m_conds m) ++ m_groups m ++ map fst (m_orders m)) -> still_col c) ->
  Forall2 but (from_rows D m) (from_rows D m') -> results D m' = results D m.
Proof.
  intros m m' Es Ec Eg Eo S F.
  assert (W : Forall2 but (where_rows D m (tests D m)) (where_rows D m' (tests D m'))).
  { unfold where_rows, tests. rewrite Ec. apply but_filter; [|exact F]. intros e e' B.
    assert (H : forall x, In x (m_conds m) -> still_col (cond_col x)) by (intros x Hx; apply S; rewrite !in_app_iff; right; left; apply in_map; exact Hx).
    clear - H B. induction (m_conds m) as [|x xs IH]; [reflexivity|]. cbn [map forallb fst snd]. rewrite IH by (intros y Hy; apply H; right; exact Hy).
    rewrite (but_col (cond_col x) e e' [] [] (H x (or_introl eq_refl)) B). reflexivity. }
  assert (G : Forall2 full2 (groups_of D m (tests D m)) (groups_of D m' (tests D m'))).
  { assert (Sg : Forall still_col (m_groups m)) by (apply Forall_forall; intros c Hc; apply S; rewrite !in_app_iff; tauto).
    unfold groups_of. rewrite Eg. destruct (m_groups m) as [|c cs].
    - clear - W. induction W as [|e e' l l' B W IH]; [constructor|]. cbn [map]. constructor; [|exact IH]. split; [discriminate|]. constructor; [exact B|constructor].
    - apply but_groups; [exact Sg|exact W|constructor]. }
  unfold results, results_where. rewrite Es, Eo. clear - G S. induction G as [|g g' gs gs' [N B] G IH]; [reflexivity|]. cbn [map]. f_equal; [|exact IH].
  destruct B as [|e e' g g' B _]; [contradiction|]. f_equal; apply map_ext_in.
  - intros c Hc. symmetry. apply but_col; [apply S; rewrite !in_app_iff; tauto|exact B].
  - intros o Ho. symmetry. apply but_col; [apply S; rewrite !in_app_iff; do 3 right; apply in_map; exact Ho|exact B].
Qed.
End Db.
Lemma spared_results : forall D pre j m m', join_spared pre j m m' -> tableless D m -> finds_one D m pre j -> results D (trimmed m') = results D (trimmed m).
Proof.
  intros D pre j m m' (K & (post & Ej & Ej' & Np) & Nc & Ed & Es & Em & Ec & Eg & Eo & El & Ef) Tl O.
  destruct (appears j) eqn:Aj.
  2: { unfold results, results_where, groups_of, where_rows, from_rows, tests, trimmed, m_shown. cbn [m_cols m_main m_joins m_conds m_groups m_orders].
    rewrite Ej, Ej', Es, Em, Ec, Eg, Eo, !filter_app. cbn [filter]. rewrite Aj. reflexivity. }
  apply (but_results D (known_as (j_table j))); try assumption.
  - cbn [trimmed m_cols m_conds m_groups m_orders]. intros c Hc. split; [apply Nc; exact Hc|]. intros E g g'. apply Tl; [|exact E]. unfold m_used. rewrite !in_app_iff in *. tauto.
  - unfold from_rows, trimmed, m_shown. cbn [m_main m_joins]. rewrite Em, Ej, Ej', !filter_app. cbn [filter]. rewrite Aj, !fold_left_app. cbn [fold_left].
    apply but_joins; [|apply one_each; [exact K|reflexivity|]; intros e He; apply O; exact He]. apply Forall_forall. intros i Hi. apply filter_In in Hi. destruct Hi as [Hi _].
    assert (Ii : In i (m_joins m)) by (rewrite Ej; apply in_or_app; right; right; exact Hi).
    split; (split; [intros E; apply (Np i Hi); unfold mentions; tauto|]); intros E g g'; (apply Tl; [|exact E]); unfold m_used; rewrite !in_app_iff; do 4 right; [left|right]; apply in_map; exact Ii.
Qed.
Lemma listed_spared : forall E pre j m m' rows, join_spared pre j m m' -> tableless (database_of E) m -> finds_one (database_of E) m pre j -> listed_answers E (trimmed m') rows <-> listed_answers E (trimmed m) rows.
Proof.
  intros E pre j m m' rows B Tl O. pose proof (spared_results (database_of E) pre j m m' B Tl O) as R.
  destruct B as (_ & _ & _ & Ed & Es & Em & Ec & Eg & Eo & El & Ef).
  assert (C : forall s : list (result_row (database_of E)), cut (trimmed m') s = cut (trimmed m) s) by (intros s; unfold cut; cbn [trimmed m_limit m_offset]; rewrite El, Ef; reflexivity).
  assert (A : forall l, answers (database_of E) (trimmed m') l <-> answers (database_of E) (trimmed m) l).
  { intros l. unfold answers, answers_where. fold (results (database_of E) (trimmed m')). fold (results (database_of E) (trimmed m)). rewrite R. cbn [trimmed m_distinct m_orders]. rewrite Ed, Eo.
    split; intros (s & H1 & H2 & ->); exists s; (split; [exact H1|split; [exact H2|]]); [apply C|symmetry; apply C]. }
  unfold listed_answers. split; intros (l & H & ->); exists l; (split; [apply A; exact H|]); unfold wide_row; cbn [trimmed m_distinct]; rewrite Ed; reflexivity.
Qed.
Lemma spared_args : forall pre j m m', join_spared pre j m m' -> m_args m' = m_args m.
Proof. intros pre j m m' (_ & _ & _ & _ & _ & _ & E & _). unfold m_args. rewrite E. reflexivity. Qed.
Theorem spared_question : forall pre j m m' os os' style, style <> style_dollar -> stmt_ok m -> named m -> describes os m -> stmt_ok m' -> named m' -> describes os' m' -> join_spared pre j m m' ->
  exists q q', apply_ops os new_qb = ROk q /\ apply_ops os' new_qb = ROk q' /\ forall n, 5 + m_size m <= n -> 5 + m_size m' <= n -> exists s args s' args',
    fst (build_query n style [q] (BQuery (Some 0))) = ROk (s, args) /\ fst (build_query n style [q'] (BQuery (Some 0))) = ROk (s', args') /\
    forall E rows, tableless (database_of E) m -> finds_one (database_of E) m pre j -> executes E args' s' rows <-> executes E args s rows.
Proof.
  intros pre j m m' os os' style Hs S Nm D S' Nm' D' B. destruct (exec_question m os style Hs S Nm D) as (q & A1 & H). destruct (exec_question m' os' style Hs S' Nm' D') as (q' & A1' & H').
  exists q, q'. split; [exact A1|]. split; [exact A1'|]. intros n Hn Hn'. destruct (H n Hn) as (s & args & B1 & X). destruct (H' n Hn') as (s' & args' & B1' & X').
  exists s, args, s', args'. split; [exact B1|]. split; [exact B1'|]. intros E rows Tl O. rewrite (X E rows), (X' E rows). apply (listed_spared E pre j); assumption.
Qed.
Theorem spared_dollar : forall pre j m m' os os', stmt_ok m -> named m -> describes os m -> stmt_ok m' -> named m' -> describes os' m' -> join_spared pre j m m' -> forallb hashable (m_args m) = true ->
  exists q q', apply_ops os new_qb = ROk q /\ apply_ops os' new_qb = ROk q' /\ forall n, 5 + m_size m <= n -> 5 + m_size m' <= n -> exists s args s' args',
    fst (build_query n style_dollar [q] (BQuery (Some 0))) = ROk (s, args) /\ fst (build_query n style_dollar [q'] (BQuery (Some 0))) = ROk (s', args') /\
    forall E rows, by_value E -> tableless (database_of E) m -> finds_one (database_of E) m pre j -> executes E args' s' rows <-> executes E args s rows.
Proof.
  intros pre j m m' os os' S Nm D S' Nm' D' B Hh. assert (Hh' : forallb hashable (m_args m') = true) by (rewrite (spared_args pre j m m' B); exact Hh).
  destruct (exec_dollar m os S Nm D Hh) as (q & A1 & H). destruct (exec_dollar m' os' S' Nm' D' Hh') as (q' & A1' & H').
  exists q, q'. split; [exact A1|]. split; [exact A1'|]. intros n Hn Hn'. destruct (H n Hn) as (s & args & B1 & X). destruct (H' n Hn') as (s' & args' & B1' & X').
  exists s, args, s', args'. split; [exact B1|]. split; [exact B1'|]. intros E rows Hv Tl O. rewrite (X E rows Hv), (X' E rows Hv). apply (listed_spared E pre j); assumption.
Qed.
