(** Proofs for Prop_pick.v: what is selected and ordered by. *)
From Coq Require Import Strings.String Strings.Ascii NArith ZArith List Bool Lia Sorting.Permutation Sorting.Sorted.
From Verif Require Import GoStr GoNum Syntax Value Util Model Sqlf Sqlb Spec_syntax RefSem Spec_build
  Spec_util Spec_eval Spec_query Spec_sql Spec_interp Sql_proofs Spec_answer Answer_proofs Exec_proofs Spec_sqltok Spec_read Spec_exec Spec_pick.
Import ListNotations.
Open Scope string_scope.
Open Scope list_scope.

Lemma sorted_map : forall A B C (R : C -> C -> Prop) (f : A -> C) (g : B -> C) (h : A -> B), (forall x, g (h x) = f x) ->
  forall l, StronglySorted (fun a b => R (f a) (f b)) l <-> StronglySorted (fun a b => R (g a) (g b)) (map h l).
Proof.
  intros A B C R f g h E l. induction l as [|x l IH]; [split; constructor|]. cbn [map]. split; intros H; inversion H as [|? ? S F]; subst; constructor; try (apply IH; exact S).
  - rewrite Forall_forall in *. intros y Hy. apply in_map_iff in Hy. destruct Hy as (z & <- & Hz). rewrite !E. apply F, Hz.
  - rewrite Forall_forall in *. intros z Hz. rewrite <- !E. apply F. apply in_map, Hz.
Qed.
Lemma cut_map : forall m A B (f : A -> B) l, cut m (map f l) = map f (cut m l).
Proof. intros m A B f l. unfold cut. destruct (0 <? m_offset m)%Z, (0 <? m_limit m)%Z; rewrite ?skipn_map, ?firstn_map; reflexivity. Qed.

Section Rows.
Variable D : database.
Definition made (m : stmt) (g : list (rows_of (d_val D))) : result_row D := (map (col_value D g) (m_cols m), map (fun o => col_value D g (fst o)) (m_orders m)).
Lemma sources : forall m l, m_distinct m = false -> answers D m l -> exists gs, Permutation gs (groups_of D m (tests D m)) /\
  StronglySorted (fun a b => d_before D (map snd (m_orders m)) (snd (made m a)) (snd (made m b))) gs /\ l = map (made m) (cut m gs).
Proof.
  intros m l Ed (s & P & S & ->). rewrite Ed in P. unfold results_where in P. fold (made m) in P. apply Permutation_map_inv in P. destruct P as (gs & -> & P).
  exists gs. split; [apply Permutation_sym; exact P|]. split; [|apply cut_map].
  apply (sorted_map _ _ _ (d_before D (map snd (m_orders m))) (fun a => snd (made m a)) snd (made m) (fun x => eq_refl)). exact S.
Qed.
Lemma sources_back : forall m gs, m_distinct m = false -> Permutation gs (groups_of D m (tests D m)) ->
  StronglySorted (fun a b => d_before D (map snd (m_orders m)) (snd (made m a)) (snd (made m b))) gs -> answers D m (map (made m) (cut m gs)).
Proof.
  intros m gs Ed P S. exists (map (made m) gs). rewrite Ed. split; [apply Permutation_map; exact P|]. split; [|symmetry; apply cut_map].
  apply (sorted_map _ _ _ (d_before D (map snd (m_orders m))) (fun a => snd (made m a)) snd (made m) (fun x => eq_refl)). exact S.
Qed.
Lemma groups_same : forall m m', m_main m' = m_main m -> m_joins m' = m_joins m -> m_conds m' = m_conds m -> m_groups m' = m_groups m ->
  groups_of D m' (tests D m') = groups_of D m (tests D m).
Proof. intros m m' E1 E2 E3 E4. unfold groups_of, where_rows, from_rows, tests. rewrite E1, E2, E3, E4. reflexivity. Qed.
Lemma reselect : forall m m' l, m_distinct m = false -> reselects m m' -> answers D m l ->
  exists l', answers D m' l' /\ Forall2 (row_agrees m m') (map fst l) (map fst l').
Proof.
  intros m m' l Ed (E1 & E2 & E3 & E4 & E5 & E6 & E7 & E8) H. destruct (sources m l Ed H) as (gs & P & S & ->). exists (map (made m') (cut m' gs)). split.
  - apply sources_back; [congruence|rewrite (groups_same m m') by assumption; exact P|]. rewrite E6. unfold made in *. cbn [snd] in *. rewrite E6. exact S.
  - assert (C : cut m' gs = cut m gs) by (unfold cut; rewrite E7, E8; reflexivity). rewrite C. clear. induction (cut m gs) as [|g l IH]; [constructor|].
    cbn [map made fst]. constructor; [|exact IH]. split; [apply map_length|]. split; [apply map_length|]. intros i j c Hi Hj. rewrite !nth_error_map, Hi, Hj. reflexivity.
Qed.
Lemma reorder : forall m m' l l', m_distinct m = false -> m_limit m = 0%Z -> m_offset m = 0%Z -> reorders m m' -> answers D m l -> answers D m' l' ->
  Permutation (map fst l) (map fst l').
Proof.
  intros m m' l l' Ed L O (E1 & E2 & E3 & E4 & E5 & E6 & E7 & E8) H H'. destruct (sources m l Ed H) as (gs & P & _ & ->). destruct (sources m' l') as (gs' & P' & _ & ->); [congruence|exact H'|].
  rewrite (groups_same m m') in P' by assumption. assert (C : cut m gs = gs) by (unfold cut; rewrite L, O; reflexivity). assert (C' : cut m' gs' = gs') by (unfold cut; rewrite E7, E8, L, O; reflexivity).
  rewrite C, C', !map_map. unfold made. cbn [fst]. rewrite E2. apply Permutation_map. transitivity (groups_of D m (tests D m)); [exact P|apply Permutation_sym; exact P'].
Qed.
End Rows.

Lemma listed_reselect : forall E m m' rows, m_distinct m = false -> reselects m m' -> listed_answers E (trimmed m) rows ->
  exists rows', listed_answers E (trimmed m') rows' /\ Forall2 (row_agrees m m') rows rows'.
Proof.
  intros E m m' rows Ed R (l & H & ->). assert (T : reselects (trimmed m) (trimmed m')).
  { destruct R as (E1 & E2 & E3 & E4 & E5 & E6 & E7 & E8). unfold reselects. cbn [trimmed m_distinct m_main m_joins m_conds m_groups m_orders m_limit m_offset]. unfold m_shown. rewrite E3. repeat split; assumption. }
  destruct (reselect (database_of E) (trimmed m) (trimmed m') l Ed T H) as (l' & H' & F). exists (map (wide_row (trimmed m')) l'). split; [exists l'; split; [exact H'|reflexivity]|].
  assert (W : forall k (l : list (list (d_val (e_data E)) * list (d_val (e_data E)))), m_distinct k = false -> map (wide_row k) l = map fst l).
  { intros k l0 Ek. apply map_ext. intros r. unfold wide_row. rewrite Ek. apply app_nil_r. }
  assert (Ed' : m_distinct (trimmed m') = false) by (destruct R as (K & _); exact (eq_trans K Ed)).
  match goal with |- Forall2 _ ?a ?b => replace a with (map fst l) by (symmetry; exact (W (trimmed m) l Ed)); replace b with (map fst l') by (symmetry; exact (W (trimmed m') l' Ed')) end. exact F.
Qed.
Lemma listed_reorder : forall E m m' rows rows', m_distinct m = false -> m_limit m = 0%Z -> m_offset m = 0%Z -> reorders m m' ->
  listed_answers E (trimmed m) rows -> listed_answers E (trimmed m') rows' -> Permutation rows rows'.
Proof.
  intros E m m' rows rows' Ed L O R (l & H & ->) (l' & H' & ->). assert (T : reorders (trimmed m) (trimmed m')).
  { destruct R as (E1 & E2 & E3 & E4 & E5 & E6 & E7 & E8). unfold reorders. cbn [trimmed m_distinct m_cols m_main m_joins m_conds m_groups m_orders m_limit m_offset]. unfold m_shown. rewrite E4. repeat split; assumption. }
  pose proof (reorder (database_of E) (trimmed m) (trimmed m') l l' Ed L O T H H') as P.
  assert (W : forall k (l : list (list (d_val (e_data E)) * list (d_val (e_data E)))), m_distinct k = false -> map (wide_row k) l = map fst l).
  { intros k l0 Ek. apply map_ext. intros r. unfold wide_row. rewrite Ek. apply app_nil_r. }
  assert (Ed' : m_distinct (trimmed m') = false) by (destruct R as (K & _); exact (eq_trans K Ed)).
  match goal with |- Permutation ?a ?b => replace a with (map fst l) by (symmetry; exact (W (trimmed m) l Ed)); replace b with (map fst l') by (symmetry; exact (W (trimmed m') l' Ed')) end. exact P.
Qed.

Theorem select_question : forall m m' os os' style, style <> style_dollar -> stmt_ok m -> named m -> describes os m -> stmt_ok m' -> named m' -> describes os' m' ->
  m_distinct m = false -> reselects m m' ->
  exists q q', apply_ops os new_qb = ROk q /\ apply_ops os' new_qb = ROk q' /\ forall n, 5 + m_size m <= n -> 5 + m_size m' <= n -> exists s args s' args',
    fst (build_query n style [q] (BQuery (Some 0))) = ROk (s, args) /\ fst (build_query n style [q'] (BQuery (Some 0))) = ROk (s', args') /\
    forall E rows, executes E args s rows -> exists rows', executes E args' s' rows' /\ Forall2 (row_agrees m m') rows rows'.
Proof.
  intros m m' os os' style Hs S Nm D S' Nm' D' Ed A. destruct (exec_question m os style Hs S Nm D) as (q & A1 & H). destruct (exec_question m' os' style Hs S' Nm' D') as (q' & A1' & H').
  exists q, q'. split; [exact A1|]. split; [exact A1'|]. intros n Hn Hn'. destruct (H n Hn) as (s & args & B & X). destruct (H' n Hn') as (s' & args' & B' & X').
  exists s, args, s', args'. split; [exact B|]. split; [exact B'|]. intros E rows R. apply X in R. destruct (listed_reselect E m m' rows Ed A R) as (rows' & R' & F). exists rows'. split; [apply X'; exact R'|exact F].
Qed.
Theorem select_dollar : forall m m' os os', stmt_ok m -> named m -> describes os m -> stmt_ok m' -> named m' -> describes os' m' ->
  m_distinct m = false -> reselects m m' -> forallb hashable (m_args m) = true ->
  exists q q', apply_ops os new_qb = ROk q /\ apply_ops os' new_qb = ROk q' /\ forall n, 5 + m_size m <= n -> 5 + m_size m' <= n -> exists s args s' args',
    fst (build_query n style_dollar [q] (BQuery (Some 0))) = ROk (s, args) /\ fst (build_query n style_dollar [q'] (BQuery (Some 0))) = ROk (s', args') /\
    forall E rows, by_value E -> executes E args s rows -> exists rows', executes E args' s' rows' /\ Forall2 (row_agrees m m') rows rows'.
Proof.
  intros m m' os os' S Nm D S' Nm' D' Ed A Hh. assert (Hh' : forallb hashable (m_args m') = true) by (unfold m_args in *; destruct A as (_ & _ & _ & -> & _); exact Hh).
  destruct (exec_dollar m os S Nm D Hh) as (q & A1 & H). destruct (exec_dollar m' os' S' Nm' D' Hh') as (q' & A1' & H').
  exists q, q'. split; [exact A1|]. split; [exact A1'|]. intros n Hn Hn'. destruct (H n Hn) as (s & args & B & X). destruct (H' n Hn') as (s' & args' & B' & X').
  exists s, args, s', args'. split; [exact B|]. split; [exact B'|]. intros E rows Hv R. apply (X E rows Hv) in R. destruct (listed_reselect E m m' rows Ed A R) as (rows' & R' & F). exists rows'. split; [apply (X' E rows' Hv); exact R'|exact F].
Qed.
Theorem reorder_question : forall m m' os os' style, style <> style_dollar -> stmt_ok m -> named m -> describes os m -> stmt_ok m' -> named m' -> describes os' m' ->
  m_distinct m = false -> m_limit m = 0%Z -> m_offset m = 0%Z -> reorders m m' ->
  exists q q', apply_ops os new_qb = ROk q /\ apply_ops os' new_qb = ROk q' /\ forall n, 5 + m_size m <= n -> 5 + m_size m' <= n -> exists s args s' args',
    fst (build_query n style [q] (BQuery (Some 0))) = ROk (s, args) /\ fst (build_query n style [q'] (BQuery (Some 0))) = ROk (s', args') /\
    forall E rows rows', executes E args s rows -> executes E args' s' rows' -> Permutation rows rows'.
Proof.
  intros m m' os os' style Hs S Nm D S' Nm' D' Ed L O A. destruct (exec_question m os style Hs S Nm D) as (q & A1 & H). destruct (exec_question m' os' style Hs S' Nm' D') as (q' & A1' & H').
  exists q, q'. split; [exact A1|]. split; [exact A1'|]. intros n Hn Hn'. destruct (H n Hn) as (s & args & B & X). destruct (H' n Hn') as (s' & args' & B' & X').
  exists s, args, s', args'. split; [exact B|]. split; [exact B'|]. intros E rows rows' R R'. apply X in R. apply X' in R'. apply (listed_reorder E m m'); assumption.
Qed.
Theorem reorder_dollar : forall m m' os os', stmt_ok m -> named m -> describes os m -> stmt_ok m' -> named m' -> describes os' m' ->
  m_distinct m = false -> m_limit m = 0%Z -> m_offset m = 0%Z -> reorders m m' -> forallb hashable (m_args m) = true ->
  exists q q', apply_ops os new_qb = ROk q /\ apply_ops os' new_qb = ROk q' /\ forall n, 5 + m_size m <= n -> 5 + m_size m' <= n -> exists s args s' args',
    fst (build_query n style_dollar [q] (BQuery (Some 0))) = ROk (s, args) /\ fst (build_query n style_dollar [q'] (BQuery (Some 0))) = ROk (s', args') /\
    forall E rows rows', by_value E -> executes E args s rows -> executes E args' s' rows' -> Permutation rows rows'.
Proof.
  intros m m' os os' S Nm D S' Nm' D' Ed L O A Hh. assert (Hh' : forallb hashable (m_args m') = true) by (unfold m_args in *; destruct A as (_ & _ & _ & _ & -> & _); exact Hh).
  destruct (exec_dollar m os S Nm D Hh) as (q & A1 & H). destruct (exec_dollar m' os' S' Nm' D' Hh') as (q' & A1' & H').
  exists q, q'. split; [exact A1|]. split; [exact A1'|]. intros n Hn Hn'. destruct (H n Hn) as (s & args & B & X). destruct (H' n Hn') as (s' & args' & B' & X').
  exists s, args, s', args'. split; [exact B|]. split; [exact B'|]. intros E rows rows' Hv R R'. apply (X E _ Hv) in R. apply (X' E _ Hv) in R'. apply (listed_reorder E m m'); assumption.
Qed.
