(** Proofs for Prop_pages.v: reading the answers page by page. *)
From Coq Require Import Strings.String Strings.Ascii NArith ZArith List Bool Lia Sorting.Permutation Sorting.Sorted.
From Verif Require Import GoStr GoNum Syntax Value Util Model Sqlf Sqlb Spec_syntax RefSem Spec_build
  Spec_util Spec_eval Spec_query Spec_sql Spec_interp Sql_proofs Spec_answer Answer_proofs Exec_proofs Spec_sqltok Spec_read Spec_exec Spec_pages.
Import ListNotations.
Open Scope string_scope.
Open Scope list_scope.

Definition bounded (m : stmt) (li off : Z) : stmt := mkStmt (m_distinct m) (m_cols m) (m_main m) (m_joins m) (m_conds m) (m_groups m) (m_orders m) li off.
Lemma needs_bounded : forall m li off cs t, needs (bounded m li off) cs t <-> needs m cs t.
Proof.
  intros m li off cs t. split; intros H.
  - induction H as [c Hc Hn|j c Hj IH Hi Hc Hn]; [apply (ns_col m cs c); assumption|apply (ns_join m cs j c); assumption].
  - induction H as [c Hc Hn|j c Hj IH Hi Hc Hn]; [apply (ns_col (bounded m li off) cs c); assumption|apply (ns_join (bounded m li off) cs j c); assumption].
Qed.
Lemma bounded_ok : forall m li off, stmt_ok m -> stmt_ok (bounded m li off).
Proof. intros m li off [H1 H2]. split; [exact H1|]. intros j Hj. specialize (H2 j Hj). rewrite H2. cbn [bounded m_distinct m_conds]. destruct (j_kind j); try tauto. rewrite needs_bounded. tauto. Qed.
Lemma last_app_one : forall A (l : list A) x d, last (l ++ [x]) d = x.
Proof. intros A l x d. apply last_last. Qed.
Lemma bounded_describes : forall os m k i, 0 < k -> describes os m -> m_offset m = 0%Z -> describes (page_calls os k i) (bounded m (Z.of_nat k) (Z.of_nat (i * k))).
Proof.
  intros os m k i Hk (D1 & D2 & D3 & D4 & D5 & D6 & D7 & D8 & D9 & D10 & D11) Ho. unfold describes, page_calls, selected, grouped, ordered, limits, offsets, united, withs in *.
  rewrite !flat_map_app, !filter_app, !existsb_app. cbn [flat_map filter is_table_op is_where existsb is_distinct is_debug orb app]. rewrite !app_nil_r, !orb_false_r.
  cbn [bounded m_cols m_main m_joins m_conds m_groups m_orders m_limit m_offset m_distinct]. repeat (apply conj; [assumption|]). apply conj; [|apply conj; [|tauto]].
  - unfold last_positive. rewrite filter_app. cbn [filter]. destruct (Z.ltb_spec 0 (Z.of_nat k)); [apply last_app_one|lia].
  - unfold last_positive in *. rewrite filter_app. cbn [filter]. destruct (Z.ltb_spec 0 (Z.of_nat (i * k))); [apply last_app_one|]. rewrite app_nil_r, D7, Ho. lia.
Qed.
Lemma cut_none : forall A m (l : list A), m_limit m = 0%Z -> m_offset m = 0%Z -> cut m l = l.
Proof. intros A m l H1 H2. unfold cut. rewrite H1, H2. reflexivity. Qed.
Lemma cut_page : forall A m k i (l : list A), 0 < k -> cut (trimmed (bounded m (Z.of_nat k) (Z.of_nat (i * k)))) l = page k i l.
Proof.
  intros A m k i l Hk. unfold cut, page. cbn [trimmed bounded m_limit m_offset]. destruct (Z.ltb_spec 0 (Z.of_nat k)); [|lia]. rewrite !Nat2Z.id.
  destruct (Z.ltb_spec 0 (Z.of_nat (i * k))); [reflexivity|]. assert (Z0 : i * k = 0) by lia. rewrite Z0. reflexivity.
Qed.
Lemma page_map : forall A B (f : A -> B) k i l, page k i (map f l) = map f (page k i l).
Proof. intros A B f k i l. unfold page. rewrite skipn_map, firstn_map. reflexivity. Qed.
Theorem page_answers : forall E m k i rows, 0 < k -> m_limit m = 0%Z -> m_offset m = 0%Z ->
  listed_answers E (trimmed (bounded m (Z.of_nat k) (Z.of_nat (i * k)))) rows <-> exists all, listed_answers E (trimmed m) all /\ rows = page k i all.
Proof.
  intros E m k i rows Hk Hl Ho. unfold listed_answers, answers, answers_where. split.
  - intros (l & (s & H1 & H2 & ->) & ->). exists (map (wide_row (trimmed m)) s). split.
    + exists s. split; [|reflexivity]. exists s. split; [exact H1|]. split; [exact H2|]. symmetry. apply cut_none; assumption.
    + rewrite cut_page, page_map by exact Hk. reflexivity.
  - intros (all & (l & (s & H1 & H2 & ->) & ->) & ->). rewrite cut_none by assumption. exists (page k i s). split.
    + exists s. split; [exact H1|]. split; [exact H2|]. symmetry. apply cut_page, Hk.
    + symmetry. rewrite page_map. reflexivity.
Qed.
Theorem pages_question : forall m os style k i, style <> style_dollar -> 0 < k -> stmt_ok m -> named m -> describes os m -> m_limit m = 0%Z -> m_offset m = 0%Z ->
  exists q q', apply_ops os new_qb = ROk q /\ apply_ops (page_calls os k i) new_qb = ROk q' /\ forall n, 5 + m_size m <= n -> exists s args s' args',
    fst (build_query n style [q] (BQuery (Some 0))) = ROk (s, args) /\ fst (build_query n style [q'] (BQuery (Some 0))) = ROk (s', args') /\
    forall E rows, executes E args' s' rows <-> exists all, executes E args s all /\ rows = page k i all.
Proof.
  intros m os style k i Hs Hk Ok Nm D Hl Ho. destruct (exec_question m os style Hs Ok Nm D) as (q & A & H).
  destruct (exec_question (bounded m (Z.of_nat k) (Z.of_nat (i * k))) (page_calls os k i) style Hs (bounded_ok _ _ _ Ok) Nm (bounded_describes os m k i Hk D Ho)) as (q' & A' & H').
  exists q, q'. split; [exact A|]. split; [exact A'|]. intros n Hn. destruct (H n Hn) as (s & args & B & X). destruct (H' n Hn) as (s' & args' & B' & X').
  exists s, args, s', args'. split; [exact B|]. split; [exact B'|]. intros E rows. rewrite X', (page_answers E m k i rows Hk Hl Ho).
  split; intros (all & K & ->); exists all; (split; [apply X; exact K|reflexivity]).
Qed.
Theorem pages_dollar : forall m os k i, 0 < k -> stmt_ok m -> named m -> describes os m -> m_limit m = 0%Z -> m_offset m = 0%Z -> forallb hashable (m_args m) = true ->
  exists q q', apply_ops os new_qb = ROk q /\ apply_ops (page_calls os k i) new_qb = ROk q' /\ forall n, 5 + m_size m <= n -> exists s args s' args',
    fst (build_query n style_dollar [q] (BQuery (Some 0))) = ROk (s, args) /\ fst (build_query n style_dollar [q'] (BQuery (Some 0))) = ROk (s', args') /\
    forall E rows, by_value E -> executes E args' s' rows <-> exists all, executes E args s all /\ rows = page k i all.
Proof.
  intros m os k i Hk Ok Nm D Hl Ho Hh. destruct (exec_dollar m os Ok Nm D Hh) as (q & A & H).
  destruct (exec_dollar (bounded m (Z.of_nat k) (Z.of_nat (i * k))) (page_calls os k i) (bounded_ok _ _ _ Ok) Nm (bounded_describes os m k i Hk D Ho) Hh) as (q' & A' & H').
  exists q, q'. split; [exact A|]. split; [exact A'|]. intros n Hn. destruct (H n Hn) as (s & args & B & X). destruct (H' n Hn) as (s' & args' & B' & X').
  exists s, args, s', args'. split; [exact B|]. split; [exact B'|]. intros E rows Hv. rewrite (X' E rows Hv), (page_answers E m k i rows Hk Hl Ho).
  split; intros (all & K & ->); exists all; (split; [apply (X E all Hv); exact K|reflexivity]).
Qed.
(** ** All pages together *)
Lemma page_next : forall A k p (l : list A), firstn (p * k) l ++ page k p l = firstn (Datatypes.S p * k) l.
Proof.
  intros A k p l. unfold page. rewrite <- (firstn_skipn (p * k) l) at 3. rewrite firstn_app. replace (Datatypes.S p * k) with (p * k + k) by (cbn; lia).
  destruct (Nat.le_gt_cases (p * k) (List.length l)) as [G|G].
  - rewrite (firstn_all2 (n := p * k + k)) by (rewrite firstn_length; lia). rewrite firstn_length_le by exact G. replace (p * k + k - p * k) with k by lia. reflexivity.
  - rewrite (skipn_all2 l) by lia. rewrite !firstn_nil, !app_nil_r. rewrite (firstn_all2 (n := p * k + k)) by (rewrite firstn_length; lia). reflexivity.
Qed.
Theorem pages_cover : forall A k p (l : list A), concat (map (fun i => page k i l) (seq 0 p)) = firstn (p * k) l.
Proof.
  intros A k p l. induction p as [|p IH]; [reflexivity|]. rewrite seq_S, map_app, concat_app, IH. cbn [map concat]. rewrite app_nil_r. apply page_next.
Qed.
Lemma sorted_unique : forall A (le : A -> A -> Prop) s t, (forall x y, In x s -> In y s -> le x y -> le y x -> x = y) -> Permutation s t -> StronglySorted le s -> StronglySorted le t -> s = t.
Proof.
  intros A le s. induction s as [|a s IH]; intros t An P Ss St; [apply Permutation_nil in P; congruence|]. destruct t as [|b t]; [apply Permutation_sym, Permutation_nil in P; discriminate|].
  inversion Ss as [|? ? Ss' Fa]; subst. inversion St as [|? ? St' Fb]; subst. rewrite Forall_forall in Fa, Fb.
  assert (E : a = b).
  { assert (Hb : In b (a :: s)) by (eapply Permutation_in; [apply Permutation_sym; exact P|left; reflexivity]). assert (Ha : In a (b :: t)) by (eapply Permutation_in; [exact P|left; reflexivity]).
    destruct Hb as [Hb|Hb]; [exact Hb|]. destruct Ha as [Ha|Ha]; [symmetry; exact Ha|]. apply An; [left; reflexivity|right; exact Hb|apply Fa, Hb|apply Fb, Ha]. }
  subst b. f_equal. apply IH; [|eapply Permutation_cons_inv; exact P|exact Ss'|exact St']. intros x y Hx Hy. apply An; right; assumption.
Qed.
Theorem ordered_settled : forall E m, ordered_fully E m -> settled E m.
Proof.
  intros E m H l l' (a & (s & P & So & ->) & ->) (b & (t & Q & To & ->) & ->). assert (K : s = t); [|rewrite K; reflexivity].
  assert (Hin : forall x, In x s -> In x (results (database_of E) m)).
  { intros x Hx. unfold answers_where in P. destruct (m_distinct m); [apply P, Hx|eapply Permutation_in; [exact P|exact Hx]]. }
  apply (sorted_unique _ (fun a b => d_before (database_of E) (map snd (m_orders m)) (snd a) (snd b))); [| |exact So|exact To].
  - intros x y Hx Hy. apply H; apply Hin; assumption.
  - destruct (m_distinct m).
    + destruct P as [Np P]. destruct Q as [Nq Q]. apply NoDup_Permutation; [exact Np|exact Nq|]. intros x. rewrite P, Q. reflexivity.
    + transitivity (results_where (database_of E) m (tests (database_of E) m)); [exact P|symmetry; exact Q].
Qed.
(** ** The statements of all pages *)
Lemma pages_ext : forall A (f g : nat -> list A) p, (forall i, i < p -> f i = g i) -> concat (map f (seq 0 p)) = concat (map g (seq 0 p)).
Proof. intros A f g p H. f_equal. apply map_ext_in. intros i Hi. apply H. apply in_seq in Hi. lia. Qed.
Theorem all_pages_question : forall m os style k, style <> style_dollar -> 0 < k -> stmt_ok m -> named m -> describes os m -> m_limit m = 0%Z -> m_offset m = 0%Z ->
  exists q, apply_ops os new_qb = ROk q /\ forall n, 5 + m_size m <= n -> exists s args,
    fst (build_query n style [q] (BQuery (Some 0))) = ROk (s, args) /\
    forall E all pages p, settled E (trimmed m) -> executes E args s all ->
      (forall i, i < p -> exists q' s' args', apply_ops (page_calls os k i) new_qb = ROk q' /\
        fst (build_query n style [q'] (BQuery (Some 0))) = ROk (s', args') /\ executes E args' s' (pages i)) ->
      concat (map pages (seq 0 p)) = firstn (p * k) all.
Proof.
  intros m os style k Hs Hk Ok Nm D Hl Ho. destruct (exec_question m os style Hs Ok Nm D) as (q & A & H). exists q. split; [exact A|].
  intros n Hn. destruct (H n Hn) as (s & args & B & X). exists s, args. split; [exact B|]. intros E all pages p Se Ha Hp.
  rewrite <- pages_cover. apply pages_ext. intros i Hi. destruct (Hp i Hi) as (q1 & s1 & args1 & A1 & B1 & X1).
  destruct (exec_question (bounded m (Z.of_nat k) (Z.of_nat (i * k))) (page_calls os k i) style Hs (bounded_ok _ _ _ Ok) Nm (bounded_describes os m k i Hk D Ho)) as (q' & A' & H').
  destruct (H' n Hn) as (s' & args' & B' & X'). rewrite A1 in A'. injection A' as <-. rewrite B1 in B'. injection B' as <- <-.
  apply X' in X1. apply (page_answers E m k i _ Hk Hl Ho) in X1. destruct X1 as (all' & K & ->). f_equal. apply Se; [exact K|apply X, Ha].
Qed.
Theorem all_pages_dollar : forall m os k, 0 < k -> stmt_ok m -> named m -> describes os m -> m_limit m = 0%Z -> m_offset m = 0%Z -> forallb hashable (m_args m) = true ->
  exists q, apply_ops os new_qb = ROk q /\ forall n, 5 + m_size m <= n -> exists s args,
    fst (build_query n style_dollar [q] (BQuery (Some 0))) = ROk (s, args) /\
    forall E all pages p, by_value E -> settled E (trimmed m) -> executes E args s all ->
      (forall i, i < p -> exists q' s' args', apply_ops (page_calls os k i) new_qb = ROk q' /\
        fst (build_query n style_dollar [q'] (BQuery (Some 0))) = ROk (s', args') /\ executes E args' s' (pages i)) ->
      concat (map pages (seq 0 p)) = firstn (p * k) all.
Proof.
  intros m os k Hk Ok Nm D Hl Ho Hh. destruct (exec_dollar m os Ok Nm D Hh) as (q & A & H). exists q. split; [exact A|].
  intros n Hn. destruct (H n Hn) as (s & args & B & X). exists s, args. split; [exact B|]. intros E all pages p Hv Se Ha Hp.
  rewrite <- pages_cover. apply pages_ext. intros i Hi. destruct (Hp i Hi) as (q1 & s1 & args1 & A1 & B1 & X1).
  destruct (exec_dollar (bounded m (Z.of_nat k) (Z.of_nat (i * k))) (page_calls os k i) (bounded_ok _ _ _ Ok) Nm (bounded_describes os m k i Hk D Ho) Hh) as (q' & A' & H').
  destruct (H' n Hn) as (s' & args' & B' & X'). rewrite A1 in A'. injection A' as <-. rewrite B1 in B'. injection B' as <- <-.
  apply (X' E _ Hv) in X1. apply (page_answers E m k i _ Hk Hl Ho) in X1. destruct X1 as (all' & K & ->). f_equal. apply Se; [exact K|apply (X E _ Hv), Ha].
Qed.
