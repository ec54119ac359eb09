(** Proofs for Prop_regroup.v: groups. *)
From Coq Require Import Strings.String Strings.Ascii NArith ZArith List Bool Lia Sorting.Permutation Sorting.Sorted.
From Verif Require Import GoStr GoNum Syntax Value Util Model Sqlf Sqlb Spec_syntax RefSem Spec_build
  Spec_util Spec_eval Spec_query Spec_sql Spec_interp Sql_proofs Spec_answer Answer_proofs Exec_proofs Dedup_proofs Spec_sqltok Spec_read Spec_exec Spec_dedup Spec_regroup.
Import ListNotations.
Open Scope string_scope.
Open Scope list_scope.

Lemma forallb_set : forall A (p : A -> bool) l l', (forall x, In x l <-> In x l') -> forallb p l = forallb p l'.
Proof.
  intros A p l l' H. destruct (forallb p l') eqn:E.
  - rewrite forallb_forall in *. intros x Hx. apply E, H, Hx.
  - destruct (forallb p l) eqn:E'; [|reflexivity]. rewrite <- E. symmetry. rewrite forallb_forall in *. intros x Hx. apply E', H, Hx.
Qed.
Lemma nodup_finer : forall A C K (f : A -> C) (k : A -> K) l, (forall a b, In a l -> In b l -> f a = f b -> k a = k b) -> NoDup (map k l) -> NoDup (map f l).
Proof.
  intros A C K f k l. induction l as [|x l IH]; intros H N; [constructor|]. cbn [map] in *. inversion N as [|? ? Nx N']; subst. constructor.
  - intros Q. apply in_map_iff in Q. destruct Q as (y & E & Hy). apply Nx. apply in_map_iff. exists y. split; [|exact Hy]. apply H; [right; exact Hy|left; reflexivity|exact E].
  - apply IH; [|exact N']. intros a b Ha Hb. apply H; right; assumption.
Qed.
Lemma maps_agree : forall A C (f g : A -> C) l, map f l = map g l -> forall x, In x l -> f x = g x.
Proof. intros A C f g l. induction l as [|y l IH]; intros E x Hx; [destruct Hx|]. cbn [map] in E. injection E as E1 E2. destruct Hx as [<-|Hx]; [exact E1|apply IH; assumption]. Qed.

Lemma in_firstn_only : forall A n (l : list A) x, In x (firstn n l) -> In x l.
Proof. intros A n l x H. rewrite <- (firstn_skipn n l). apply in_or_app. left. exact H. Qed.
Lemma in_skipn_only : forall A n (l : list A) x, In x (skipn n l) -> In x l.
Proof. intros A n l x H. rewrite <- (firstn_skipn n l). apply in_or_app. right. exact H. Qed.
Lemma in_skipn_firstn : forall A k n (l : list A) x, In x (firstn k (skipn n l)) -> In x l.
Proof. intros A k n l x H. apply in_firstn_only, in_skipn_only in H. exact H. Qed.

Section Db.
Variable D : database.
Let rows := rows_of (d_val D).
Lemma key_set : forall cs cs' (a b : rows), (forall c, In c cs <-> In c cs') -> same_key D cs a b = same_key D cs' a b.
Proof. intros cs cs' a b H. apply forallb_set, H. Qed.
Lemma add_set : forall cs cs' (e : rows) gs, (forall c, In c cs <-> In c cs') -> add_to D cs e gs = add_to D cs' e gs.
Proof. intros cs cs' e gs H. induction gs as [|g gs IH]; [reflexivity|]. cbn [add_to]. rewrite (key_set cs cs' _ _ H), IH. reflexivity. Qed.
Lemma groups_set : forall cs cs' (es : list rows) gs, (forall c, In c cs <-> In c cs') -> fold_left (fun gs e => add_to D cs e gs) es gs = fold_left (fun gs e => add_to D cs' e gs) es gs.
Proof. intros cs cs' es. induction es as [|e es IH]; intros gs H; [reflexivity|]. cbn [fold_left]. rewrite (add_set cs cs' e gs H). apply IH, H. Qed.
Lemma regroup_results : forall m m', regroups m m' -> results D m' = results D m.
Proof.
  intros m m' (_ & Es & Em & Ej & Ec & Eg & Eo & _).
  assert (W : where_rows D m' (tests D m') = where_rows D m (tests D m)) by (unfold where_rows, from_rows, tests; rewrite Em, Ej, Ec; reflexivity).
  unfold results, results_where. rewrite Es, Eo. f_equal. unfold groups_of. rewrite W.
  destruct (m_groups m') as [|c cs], (m_groups m) as [|c' cs']; [reflexivity|destruct (proj2 (Eg c') (or_introl eq_refl))|destruct (proj1 (Eg c) (or_introl eq_refl))|].
  exact (groups_set (c :: cs) (c' :: cs') _ [] Eg).
Qed.

(** The groups differ in the values they are grouped by. *)
Definition key (cs : list col) (g : list rows) : list (d_val D) := map (col_value D [hd (no_rows D) g]) cs.
Lemma same_key_iff : forall cs (a b : rows), same_key D cs a b = true <-> map (col_value D [a]) cs = map (col_value D [b]) cs.
Proof.
  intros cs a b. unfold same_key. rewrite forallb_forall. split.
  - intros H. apply map_ext_in. intros c Hc. apply (d_same_ok D), H, Hc.
  - intros H c Hc. apply (d_same_ok D). exact (maps_agree _ _ _ _ cs H c Hc).
Qed.
Lemma add_keys : forall cs (e : rows) gs, (forall g, In g gs -> g <> []) ->
  (map (key cs) (add_to D cs e gs) = map (key cs) gs) \/
  (map (key cs) (add_to D cs e gs) = map (key cs) gs ++ [key cs [e]] /\ ~ In (key cs [e]) (map (key cs) gs)).
Proof.
  intros cs e gs Hne. induction gs as [|g gs IH]; [right; split; [reflexivity|intros []]|]. cbn [add_to].
  destruct (same_key D cs (hd (no_rows D) g) e) eqn:E.
  - left. cbn [map]. f_equal. unfold key. destruct g; [destruct (Hne [] (or_introl eq_refl) eq_refl)|reflexivity].
  - destruct IH as [IH|[IH N]]; [intros x Hx; apply Hne; right; exact Hx| |]; cbn [map]; rewrite IH; [left; reflexivity|right]. split; [reflexivity|]. intros [K|K]; [|exact (N K)].
    assert (X : same_key D cs (hd (no_rows D) g) e = true) by (apply same_key_iff; exact K). congruence.
Qed.
Lemma nodup_snoc : forall A (l : list A) x, NoDup l -> ~ In x l -> NoDup (l ++ [x]).
Proof. intros A l x N H. apply (Permutation_NoDup (l := x :: l)); [apply Permutation_cons_append|constructor; assumption]. Qed.
Lemma add_full : forall cs (e : rows) gs, (forall g, In g gs -> g <> []) -> forall g, In g (add_to D cs e gs) -> g <> [].
Proof.
  intros cs e gs. induction gs as [|x gs IH]; intros H g Hg; cbn [add_to] in Hg; [destruct Hg as [<-|[]]; discriminate|].
  destruct (same_key D cs (hd (no_rows D) x) e); destruct Hg as [<-|Hg]; [destruct x; discriminate|apply H; right; exact Hg|apply H; left; reflexivity|apply IH; [intros y Hy; apply H; right; exact Hy|exact Hg]].
Qed.
Lemma groups_apart : forall cs (es : list rows) gs, (forall g, In g gs -> g <> []) -> NoDup (map (key cs) gs) ->
  let gs' := fold_left (fun gs e => add_to D cs e gs) es gs in NoDup (map (key cs) gs') /\ forall g, In g gs' -> g <> [].
Proof.
  intros cs es. induction es as [|e es IH]; intros gs Hne N; cbv zeta; cbn [fold_left]; [split; assumption|]. apply IH; [apply add_full; exact Hne|].
  destruct (add_keys cs e gs Hne) as [E|[E K]]; rewrite E; [exact N|apply nodup_snoc; assumption].
Qed.
Lemma grouped_once : forall m, m_groups m <> [] -> incl (m_groups m) (m_cols m ++ map fst (m_orders m)) -> tableless D m -> NoDup (results D m).
Proof.
  intros m Hg Hi Tl. unfold results, results_where, groups_of.
  destruct (m_groups m) as [|c cs] eqn:Eg; [congruence|]. set (gs := c :: cs) in *.
  destruct (groups_apart gs (where_rows D m (tests D m)) [] (fun g H => match H with end) (NoDup_nil _)) as [N F]. cbv zeta in N, F.
  refine (nodup_finer _ _ _ _ (key gs) _ _ N). intros a b Ha Hb E. injection E as E1 E2. unfold key. apply map_ext_in. intros x Hx.
  assert (U : In x (m_used m)) by (unfold m_used; rewrite !in_app_iff; do 2 right; left; rewrite Eg; exact Hx).
  rewrite <- (hd_value D m Tl a x (F a Ha) U), <- (hd_value D m Tl b x (F b Hb) U). specialize (Hi x Hx). apply in_app_or in Hi. destruct Hi as [Hi|Hi].
  - exact (maps_agree _ _ _ _ _ E1 x Hi).
  - apply in_map_iff in Hi. destruct Hi as (o & <- & Ho). exact (maps_agree _ _ _ _ _ E2 o Ho).
Qed.
Lemma instead_from : forall m m', groups_instead m m' -> from_rows D m' = from_rows D m.
Proof.
  intros m m' (_ & _ & _ & Em & Ej & _). unfold from_rows. rewrite Em. generalize (map (fun r => bind D (known_as (m_main m)) r (no_rows D)) (d_rows D (fst (m_main m)))).
  induction Ej as [|j j' js js' S Ej IH]; intros es; [reflexivity|]. cbn [fold_left]. rewrite (same_join_rows D j j' es S). apply IH.
Qed.
Lemma instead_results : forall m m', groups_instead m m' -> tableless D m -> tableless D m' -> forall x, In x (results D m') <-> In x (results D m).
Proof.
  intros m m' B Tl Tl' x. pose proof (instead_from m m' B) as F. destruct B as (_ & _ & Es & _ & _ & Ec & Eg & Eg' & Eo & _).
  assert (W : where_rows D m' (tests D m') = where_rows D m (tests D m)) by (unfold where_rows, tests; rewrite F, Ec; reflexivity).
  unfold results. rewrite (results_rows D m' Tl' m' (tests D m') eq_refl eq_refl eq_refl); [|right; rewrite Es, Eo; intros c Hc; apply Eg', Hc].
  rewrite (results_rows D m Tl m (tests D m) eq_refl eq_refl eq_refl); [|left; exact Eg].
  rewrite W. unfold row_result. rewrite Es, Eo. reflexivity.
Qed.
End Db.
Lemma instead_tableless : forall D m m', groups_instead m m' -> tableless D m -> tableless D m'.
Proof.
  intros D m m' (_ & _ & Es & _ & Ej & Ec & _ & Eg & Eo & _) Tl c g g' Hc. apply Tl. clear -Es Ej Ec Eg Eo Hc. unfold m_used in *.
  assert (L : map j_left (m_joins m') = map j_left (m_joins m) /\ map j_right (m_joins m') = map j_right (m_joins m)).
  { clear -Ej. induction Ej as [|j j' js js' (_ & A & B & _) Ej [IH1 IH2]]; [split; reflexivity|]. cbn [map]. rewrite A, B, IH1, IH2. split; reflexivity. }
  destruct L as [L1 L2]. rewrite Es, Ec, Eo, L1, L2 in Hc. rewrite !in_app_iff in *. specialize (Eg c). rewrite in_app_iff in Eg. tauto.
Qed.
Lemma listed_regroup : forall E m m' rows, regroups m m' -> listed_answers E (trimmed m') rows <-> listed_answers E (trimmed m) rows.
Proof.
  intros E m m' rows R. assert (R2 : regroups (trimmed m) (trimmed m')).
  { destruct R as (H1 & H2 & H3 & H4 & H5). unfold regroups. cbn [trimmed m_distinct m_cols m_main m_joins m_conds m_groups m_orders m_limit m_offset]. unfold m_shown. rewrite H4. repeat (split; [assumption||reflexivity|]). exact H5. }
  pose proof (regroup_results (database_of E) _ _ R2) as K. destruct R2 as (Ed & _ & _ & _ & _ & _ & Eo & El & Ef).
  assert (A : forall l, answers (database_of E) (trimmed m') l <-> answers (database_of E) (trimmed m) l).
  { intros l. unfold answers, answers_where. unfold results in K. rewrite K, Ed, Eo.
    assert (C : forall s : list (result_row (database_of E)), cut (trimmed m') s = cut (trimmed m) s) by (intros s; unfold cut; rewrite El, Ef; reflexivity).
    split; intros (s & H1 & H2 & ->); exists s; (split; [exact H1|split; [exact H2|]]); [apply C|symmetry; apply C]. }
  unfold listed_answers. split; intros (l & H & ->); exists l; (split; [apply A; exact H|]); unfold wide_row; rewrite Ed; reflexivity.
Qed.
Lemma listed_instead : forall E m m' rows', stmt_ok m -> stmt_ok m' -> closed m -> groups_instead m m' -> tableless (database_of E) m ->
  listed_answers E (trimmed m') rows' <-> exists rows, listed_answers E (trimmed m) rows /\ rows' = map (firstn (List.length (m_cols m))) rows.
Proof.
  intros E m m' rows' S S' Hc B Tl. pose proof (instead_tableless _ m m' B Tl) as Tl'. pose proof B as (Hd & Hd' & Es & _ & _ & _ & Eg & Eg' & Eo & El & Ef).
  assert (By : by_groups m) by (left; exact Eg).
  rewrite (trimmed_plain m' _ (proj2 S') Hd').
  assert (Nn : m_groups m' <> []).
  { intros K. destruct (proj1 S) as [C _]. destruct (m_cols m) as [|c cs] eqn:Ecs; [congruence|]. specialize (Eg' c). rewrite K in Eg'. apply (proj2 Eg'). left. reflexivity. }
  assert (ND : NoDup (results (database_of E) m')) by (apply grouped_once; [exact Nn| |exact Tl']; intros c Hx; rewrite Es, Eo; apply Eg', Hx).
  assert (R : forall x, In x (results (database_of E) m') <-> In x (results (database_of E) (trimmed m))).
  { intros x. rewrite (instead_results _ m m' B Tl Tl' x). symmetry. exact (trimmed_results' (database_of E) m S Hc By Tl x). }
  assert (A : forall l, answers (database_of E) m' l <-> answers (database_of E) (trimmed m) l).
  { intros l. unfold answers, answers_where. fold (results (database_of E) m'). fold (results (database_of E) (trimmed m)). cbn [trimmed m_distinct m_orders]. rewrite Hd, Hd', Eo.
    assert (C : forall s : list (result_row (database_of E)), cut m' s = cut (trimmed m) s) by (intros s; unfold cut; cbn [trimmed m_limit m_offset]; rewrite El, Ef; reflexivity).
    split; intros (s & H1 & H2 & ->); exists s; (split; [|split; [exact H2|]]); try (apply C); try (symmetry; apply C).
    - split; [exact (Permutation_NoDup (Permutation_sym H1) ND)|]. intros x. rewrite <- (R x). split; intros K; [exact (Permutation_in x H1 K)|exact (Permutation_in x (Permutation_sym H1) K)].
    - destruct H1 as [N I]. apply NoDup_Permutation; [exact N|exact ND|]. intros x. rewrite (R x). apply I. }
  assert (W : forall l, answers (database_of E) (trimmed m) l -> map (wide_row m' (V := d_val (e_data E))) l = map (firstn (List.length (m_cols m))) (map (wide_row (trimmed m)) l)).
  { intros l (s & H1 & _ & ->). rewrite map_map. apply map_ext_in. intros x Hx. unfold wide_row. cbn [trimmed m_distinct]. rewrite Hd, Hd', app_nil_r. symmetry. apply firstn_whole.
    assert (In x s). { unfold cut in Hx. destruct (0 <? m_offset (trimmed m))%Z, (0 <? m_limit (trimmed m))%Z.
      - apply (in_skipn_firstn _ _ _ _ _ Hx).
      - apply (in_skipn_only _ _ _ _ Hx).
      - apply (in_firstn_only _ _ _ _ Hx).
      - exact Hx. }
    cbn [trimmed m_distinct] in H1. rewrite Hd in H1. destruct H1 as [_ I]. apply I in H. exact (result_size (database_of E) (trimmed m) x H). }
  unfold listed_answers. split.
  - intros (l & H & ->). apply A in H. exists (map (wide_row (trimmed m)) l). split; [exists l; split; [exact H|reflexivity]|apply W, H].
  - intros (rows & (l & H & ->) & ->). exists l. split; [apply A; exact H|symmetry; apply W, H].
Qed.
Lemma regroup_args : forall m m', regroups m m' -> m_args m' = m_args m.
Proof. intros m m' (_ & _ & _ & _ & E & _). unfold m_args. rewrite E. reflexivity. Qed.
Lemma instead_args : forall m m', groups_instead m m' -> m_args m' = m_args m.
Proof. intros m m' (_ & _ & _ & _ & _ & E & _). unfold m_args. rewrite E. reflexivity. Qed.
Theorem regroup_question : forall m m' os os' style, style <> style_dollar -> stmt_ok m -> named m -> describes os m -> stmt_ok m' -> named m' -> describes os' m' -> regroups m m' ->
  exists q q', apply_ops os new_qb = ROk q /\ apply_ops os' new_qb = ROk q' /\ forall n, 5 + m_size m <= n -> 5 + m_size m' <= n -> exists s args s' args',
    fst (build_query n style [q] (BQuery (Some 0))) = ROk (s, args) /\ fst (build_query n style [q'] (BQuery (Some 0))) = ROk (s', args') /\
    forall E rows, executes E args' s' rows <-> executes E args s rows.
Proof.
  intros m m' os os' style Hs S Nm D S' Nm' D' B. destruct (exec_question m os style Hs S Nm D) as (q & A1 & H). destruct (exec_question m' os' style Hs S' Nm' D') as (q' & A1' & H').
  exists q, q'. split; [exact A1|]. split; [exact A1'|]. intros n Hn Hn'. destruct (H n Hn) as (s & args & B1 & X). destruct (H' n Hn') as (s' & args' & B1' & X').
  exists s, args, s', args'. split; [exact B1|]. split; [exact B1'|]. intros E rows. rewrite (X E rows), (X' E rows). apply listed_regroup, B.
Qed.
Theorem regroup_dollar : forall m m' os os', stmt_ok m -> named m -> describes os m -> stmt_ok m' -> named m' -> describes os' m' -> regroups m m' -> forallb hashable (m_args m) = true ->
  exists q q', apply_ops os new_qb = ROk q /\ apply_ops os' new_qb = ROk q' /\ forall n, 5 + m_size m <= n -> 5 + m_size m' <= n -> exists s args s' args',
    fst (build_query n style_dollar [q] (BQuery (Some 0))) = ROk (s, args) /\ fst (build_query n style_dollar [q'] (BQuery (Some 0))) = ROk (s', args') /\
    forall E rows, by_value E -> executes E args' s' rows <-> executes E args s rows.
Proof.
  intros m m' os os' S Nm D S' Nm' D' B Hh. assert (Hh' : forallb hashable (m_args m') = true) by (rewrite (regroup_args m m' B); exact Hh).
  destruct (exec_dollar m os S Nm D Hh) as (q & A1 & H). destruct (exec_dollar m' os' S' Nm' D' Hh') as (q' & A1' & H').
  exists q, q'. split; [exact A1|]. split; [exact A1'|]. intros n Hn Hn'. destruct (H n Hn) as (s & args & B1 & X). destruct (H' n Hn') as (s' & args' & B1' & X').
  exists s, args, s', args'. split; [exact B1|]. split; [exact B1'|]. intros E rows Hv. rewrite (X E rows Hv), (X' E rows Hv). apply listed_regroup, B.
Qed.
Theorem instead_question : forall m m' os os' style, style <> style_dollar -> stmt_ok m -> named m -> describes os m -> stmt_ok m' -> named m' -> describes os' m' -> groups_instead m m' -> closed m ->
  exists q q', apply_ops os new_qb = ROk q /\ apply_ops os' new_qb = ROk q' /\ forall n, 5 + m_size m <= n -> 5 + m_size m' <= n -> exists s args s' args',
    fst (build_query n style [q] (BQuery (Some 0))) = ROk (s, args) /\ fst (build_query n style [q'] (BQuery (Some 0))) = ROk (s', args') /\
    forall E rows', tableless (database_of E) m ->
      executes E args' s' rows' <-> exists rows, executes E args s rows /\ rows' = map (firstn (List.length (m_cols m))) rows.
Proof.
  intros m m' os os' style Hs S Nm D S' Nm' D' B Hc. destruct (exec_question m os style Hs S Nm D) as (q & A1 & H). destruct (exec_question m' os' style Hs S' Nm' D') as (q' & A1' & H').
  exists q, q'. split; [exact A1|]. split; [exact A1'|]. intros n Hn Hn'. destruct (H n Hn) as (s & args & B1 & X). destruct (H' n Hn') as (s' & args' & B1' & X').
  exists s, args, s', args'. split; [exact B1|]. split; [exact B1'|]. intros E rows' Tl. rewrite (X' E rows'), (listed_instead E m m' rows' S S' Hc B Tl).
  split; intros (rows & R & ->); exists rows; (split; [|reflexivity]); apply (X E rows); exact R.
Qed.
Theorem instead_dollar : forall m m' os os', stmt_ok m -> named m -> describes os m -> stmt_ok m' -> named m' -> describes os' m' -> groups_instead m m' -> closed m -> forallb hashable (m_args m) = true ->
  exists q q', apply_ops os new_qb = ROk q /\ apply_ops os' new_qb = ROk q' /\ forall n, 5 + m_size m <= n -> 5 + m_size m' <= n -> exists s args s' args',
    fst (build_query n style_dollar [q] (BQuery (Some 0))) = ROk (s, args) /\ fst (build_query n style_dollar [q'] (BQuery (Some 0))) = ROk (s', args') /\
    forall E rows', by_value E -> tableless (database_of E) m ->
      executes E args' s' rows' <-> exists rows, executes E args s rows /\ rows' = map (firstn (List.length (m_cols m))) rows.
Proof.
  intros m m' os os' S Nm D S' Nm' D' B Hc Hh. assert (Hh' : forallb hashable (m_args m') = true) by (rewrite (instead_args m m' B); exact Hh).
  destruct (exec_dollar m os S Nm D Hh) as (q & A1 & H). destruct (exec_dollar m' os' S' Nm' D' Hh') as (q' & A1' & H').
  exists q, q'. split; [exact A1|]. split; [exact A1'|]. intros n Hn Hn'. destruct (H n Hn) as (s & args & B1 & X). destruct (H' n Hn') as (s' & args' & B1' & X').
  exists s, args, s', args'. split; [exact B1|]. split; [exact B1'|]. intros E rows' Hv Tl. rewrite (X' E rows' Hv), (listed_instead E m m' rows' S S' Hc B Tl).
  split; intros (rows & R & ->); exists rows; (split; [|reflexivity]); apply (X E rows Hv); exact R.
Qed.
