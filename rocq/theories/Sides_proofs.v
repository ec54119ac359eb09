(** Proofs for Prop_sides.v: tables that change sides. *)
From Coq Require Import Strings.String Strings.Ascii NArith ZArith List Bool Lia Sorting.Permutation Sorting.Sorted.
From Verif Require Import GoStr GoNum Syntax Value Util Model Sqlf Sqlb Spec_syntax RefSem Spec_build
  Spec_util Spec_eval Spec_query Spec_sql Spec_interp Sql_proofs Spec_answer Answer_proofs Exec_proofs Dedup_proofs Regroup_proofs Joinorder_proofs Spec_sqltok Spec_read Spec_exec Spec_joinorder Spec_sides.
Import ListNotations.
Open Scope string_scope.
Open Scope list_scope.

(** ** Lists *)
Lemma flat_app_perm : forall A C (h k : A -> list C) l, Permutation (flat_map (fun y => h y ++ k y) l) (flat_map h l ++ flat_map k l).
Proof.
  intros A C h k l. induction l as [|y l IH]; [constructor|]. cbn [flat_map]. rewrite IH, <- !app_assoc. apply Permutation_app_head. rewrite !app_assoc. apply Permutation_app_tail, Permutation_app_comm.
Qed.
Lemma flat_swap : forall A B C (g : A -> B -> list C) X Y, Permutation (flat_map (fun x => flat_map (g x) Y) X) (flat_map (fun y => flat_map (fun x => g x y) X) Y).
Proof.
  intros A B C g X Y. induction X as [|x X IH]; cbn [flat_map].
  - induction Y as [|y Y IH]; [constructor|exact IH].
  - rewrite IH. symmetry. apply (flat_app_perm _ _ (g x) (fun y => flat_map (fun x => g x y) X)).
Qed.
Lemma map_filter_flat : forall A C (f : A -> C) p l, map f (filter p l) = flat_map (fun x => if p x then [f x] else []) l.
Proof. intros A C f p l. induction l as [|x l IH]; [reflexivity|]. cbn [filter flat_map]. destruct (p x); cbn [map app]; rewrite IH; reflexivity. Qed.
Lemma pairs_swap : forall A B C (f : A -> B -> C) (p : A -> B -> bool) X Y,
  Permutation (flat_map (fun x => map (f x) (filter (p x) Y)) X) (flat_map (fun y => map (fun x => f x y) (filter (fun x => p x y) X)) Y).
Proof.
  intros A B C f p X Y. rewrite (flat_ext_in _ _ (fun x => map (f x) (filter (p x) Y)) (fun x => flat_map (fun y => if p x y then [f x y] else []) Y)); [|intros x; apply map_filter_flat].
  rewrite (flat_ext_in _ _ (fun y => map (fun x => f x y) (filter (fun x => p x y) X)) (fun y => flat_map (fun x => if p x y then [f x y] else []) X)); [|intros y; apply (map_filter_flat _ _ (fun x => f x y))].
  apply (flat_swap _ _ _ (fun x y => if p x y then [f x y] else [])).
Qed.
Lemma filter_none : forall A (p : A -> bool) l, filter p l = [] <-> existsb p l = false.
Proof. intros A p l. induction l as [|x l IH]; [split; reflexivity|]. cbn [filter existsb]. destruct (p x); [split; discriminate|exact IH]. Qed.

Lemma some_partner : forall A C (d : C) (f : A -> C) l, l <> [] -> map f l = match l with [] => [d] | r :: rs => map f (r :: rs) end.
Proof. intros A C d f [|x l] H; [congruence|reflexivity]. Qed.
Lemma no_partner : forall A C (d : C) (f : A -> C) l, l = [] -> map f l ++ [d] = match l with [] => [d] | r :: rs => map f (r :: rs) end.
Proof. intros A C d f l ->. reflexivity. Qed.

Section Db.
Variable D : database.
Let rows := rows_of (d_val D).
Let row := row_of (d_val D).
Variable a b : string.
Variable j j' : join.
Hypothesis Ja : known_as (j_table j) = b.
Hypothesis Jb : known_as (j_table j') = a.
Hypothesis Ap : a <> b.
Hypothesis Sj : still_join D j.
Hypothesis El : j_left j' = j_left j.
Hypothesis Er : j_right j' = j_right j.
Variable X : list row.
Hypothesis Rx : d_rows D (fst (j_table j')) = X.
Variable Y : list row.
Hypothesis Ry : d_rows D (fst (j_table j)) = Y.
Definition one (c : string) (x : row) : rows := bind D c x (no_rows D).
Definition fits (x y : row) : bool := on_holds D j (one a x) y.
Lemma fits_back : forall x y, on_holds D j' (one b y) x = fits x y.
Proof.
  intros x y. unfold fits, on_holds. rewrite Ja, Jb, El, Er. cbv zeta. destruct Sj as [Sl Sr].
  apply (f_equal2 (d_equal D)); (apply same_col; [assumption|apply bind_apart; exact Ap]).
Qed.
Lemma here_matched : matched D j (map (one a) X) = flat_map (fun x => map (fun y => bind D b y (one a x)) (filter (fits x) Y)) X.
Proof. unfold matched. rewrite flat_of_map. apply flat_ext_in. intros x. unfold partners. rewrite Ry, Ja. reflexivity. Qed.
Lemma there_matched : matched D j' (map (one b) Y) = flat_map (fun y => map (fun x => bind D a x (one b y)) (filter (fun x => fits x y) X)) Y.
Proof.
  unfold matched. rewrite flat_of_map. apply flat_ext_in. intros y. unfold partners. rewrite Rx, Jb. f_equal. apply filter_ext. intros x. apply fits_back.
Qed.
Lemma matched_sides : moved D (matched D j (map (one a) X)) (matched D j' (map (one b) Y)).
Proof.
  rewrite here_matched, there_matched. eapply mv_trans; [apply mv_perm, (pairs_swap _ _ _ (fun x y => bind D b y (one a x)) fits)|].
  apply mv_flat_ext. intros y. apply mv_maps. intros x. apply bind_apart. intros K. apply Ap. symmetry. exact K.
Qed.
(** The rows without partner. *)
Lemma here_null : Permutation (matched_or_null D j (map (one a) X)) (matched D j (map (one a) X) ++ map (fun x => bind D b (no_row D) (one a x)) (filter (fun x => negb (existsb (fits x) Y)) X)).
Proof.
  rewrite here_matched. unfold matched_or_null. rewrite flat_of_map, map_filter_flat.
  rewrite <- (flat_app_perm _ _ (fun x => map (fun y => bind D b y (one a x)) (filter (fits x) Y)) (fun x => if negb (existsb (fits x) Y) then [bind D b (no_row D) (one a x)] else [])).
  match goal with |- Permutation ?u ?v => replace u with v; [reflexivity|] end. apply flat_ext_in. intros x. unfold partners. rewrite Ry, Ja. change (on_holds D j (one a x)) with (fits x).
  destruct (existsb (fits x) Y) eqn:E; cbn [negb].
  - rewrite app_nil_r. apply (some_partner _ _ (bind D b (no_row D) (one a x)) (fun y => bind D b y (one a x)) (filter (fits x) Y)). intros F. apply filter_none in F. change (existsb (fits x) Y = false) in F. change (existsb (fits x) Y = true) in E. pose proof (eq_trans (eq_sym E) F) as K. discriminate K.
  - apply filter_none in E. exact (no_partner _ _ (bind D b (no_row D) (one a x)) (fun y => bind D b y (one a x)) (filter (fits x) Y) E).
Qed.
Lemma there_strangers : strangers D j' (map (one b) Y) = map (one a) (filter (fun x => negb (existsb (fits x) Y)) X).
Proof.
  unfold strangers. rewrite Rx, Jb. f_equal. apply filter_ext. intros x. f_equal. clear Ry. induction Y as [|y l IH]; [reflexivity|]. cbn [map existsb]. rewrite fits_back, IH. reflexivity.
Qed.
Lemma strangers_sides : moved D (map (fun x => bind D b (no_row D) (one a x)) (filter (fun x => negb (existsb (fits x) Y)) X)) (strangers D j' (map (one b) Y)).
Proof.
  rewrite there_strangers. apply mv_maps. intros x c. unfold one, bind. destruct (String.eqb c b) eqn:Eb; [|reflexivity]. destruct (String.eqb c a) eqn:Ea; [|reflexivity].
  apply String.eqb_eq in Ea, Eb. congruence.
Qed.
Lemma null_sides : moved D (matched_or_null D j (map (one a) X)) (matched D j' (map (one b) Y) ++ strangers D j' (map (one b) Y)).
Proof. eapply mv_trans; [apply mv_perm, here_null|]. apply mv_app; [apply matched_sides|apply strangers_sides]. Qed.
End Db.
Lemma mv_sym : forall D l l', moved D l l' -> moved D l' l.
Proof.
  intros D l l' F. induction F as [|x y l l' S F IH|x y l|x y z _ IH1 _ IH2]; [constructor|apply mv_skip; [intros c; symmetry; apply S|exact IH]|apply mv_swap|eapply mv_trans; eassumption].
Qed.
Lemma sides_from : forall D k k' t t' l r m m', flipped k k' -> m_main m = t -> m_joins m = [mkJoin k t' l r] -> m_main m' = t' -> m_joins m' = [mkJoin k' t l r] ->
  known_as t <> known_as t' -> still D l -> still D r -> moved D (from_rows D m) (from_rows D m').
Proof.
  intros D k k' t t' l r m m' Fl Em Ej Em' Ej' Ap Sl Sr. unfold from_rows. rewrite Em, Ej, Em', Ej'. cbn [fold_left].
  set (j := mkJoin k t' l r). set (j' := mkJoin k' t l r).
  assert (S : still_join D j) by (split; assumption). assert (S' : still_join D j') by (split; assumption).
  pose proof (matched_sides D (known_as t) (known_as t') j j' eq_refl eq_refl Ap S eq_refl eq_refl (d_rows D (fst t)) eq_refl (d_rows D (fst t')) eq_refl) as M.
  pose proof (null_sides D (known_as t) (known_as t') j j' eq_refl eq_refl Ap S eq_refl eq_refl (d_rows D (fst t)) eq_refl (d_rows D (fst t')) eq_refl) as N.
  assert (Ap' : known_as t' <> known_as t) by (intros K; apply Ap; symmetry; exact K).
  pose proof (null_sides D (known_as t') (known_as t) j' j eq_refl eq_refl Ap' S' eq_refl eq_refl (d_rows D (fst t')) eq_refl (d_rows D (fst t)) eq_refl) as N'.
  change (map (fun r0 => bind D (known_as t) r0 (no_rows D)) (d_rows D (fst t))) with (map (one D (known_as t)) (d_rows D (fst t))).
  change (map (fun r0 => bind D (known_as t') r0 (no_rows D)) (d_rows D (fst t'))) with (map (one D (known_as t')) (d_rows D (fst t'))).
  unfold join_rows. cbn [j_kind j j']. destruct k, k'; try (destruct Fl; fail).
  - exact M.
  - exact N.
  - apply mv_sym. exact N'.
  - (* both add the rows without partner *)
    pose proof (here_null D (known_as t) (known_as t') j eq_refl (d_rows D (fst t)) (d_rows D (fst t')) eq_refl) as H.
    pose proof (here_null D (known_as t') (known_as t) j' eq_refl (d_rows D (fst t')) (d_rows D (fst t)) eq_refl) as H'.
    pose proof (strangers_sides D (known_as t) (known_as t') j j' eq_refl eq_refl Ap S eq_refl eq_refl (d_rows D (fst t)) eq_refl (d_rows D (fst t'))) as Q.
    pose proof (strangers_sides D (known_as t') (known_as t) j' j eq_refl eq_refl Ap' S' eq_refl eq_refl (d_rows D (fst t')) eq_refl (d_rows D (fst t))) as Q'.
    eapply mv_trans; [apply mv_app; [apply mv_perm; exact H|apply mv_sym; exact Q']|]. apply mv_sym.
    eapply mv_trans; [apply mv_app; [apply mv_perm; exact H'|apply mv_sym; exact Q]|].
    eapply mv_trans; [apply mv_app; [apply mv_app; [apply mv_sym; exact M|apply mv_refl]|apply mv_refl]|].
    apply mv_perm. rewrite <- !app_assoc. apply Permutation_app_head, Permutation_app_comm.
Qed.
Lemma sides_trimmed : forall k k' t l r m, flipped k k' \/ flipped k' k -> m_joins m = [mkJoin k t l r] -> trimmed m = m.
Proof.
  intros k k' t l r m F E. unfold trimmed, m_shown. rewrite E. replace (filter appears [mkJoin k t l r]) with (m_joins m); [destruct m; reflexivity|].
  rewrite E. unfold appears. cbn [filter j_kind]. destruct k; try reflexivity. destruct k'; destruct F as [[]|[]].
Qed.
Lemma listed_sides : forall E m m' rows, stmt_ok m -> by_groups m -> sides_changed m m' -> tableless (database_of E) m ->
  listed_answers E (trimmed m') rows <-> listed_answers E (trimmed m) rows.
Proof.
  intros E m m' rows [N _] By ((k & k' & t & t' & l & r & Fl & Em & Ej & Em' & Ej') & Ed & Es & Ec & Eg & Eo & El & Ef) Tl.
  rewrite (sides_trimmed k k' t' l r m (or_introl Fl) Ej), (sides_trimmed k' k t l r m' (or_intror Fl) Ej').
  assert (St : forall c, In c (m_used m) -> still (database_of E) c) by (intros c Hc K g g'; apply (Tl c g g' Hc K)).
  assert (F : moved (database_of E) (from_rows (database_of E) m) (from_rows (database_of E) m')).
  { apply (sides_from _ k k' t t' l r m m' Fl Em Ej Em' Ej').
    - destruct N as (_ & _ & _ & N & _). unfold m_tables in N. rewrite Em, Ej in N. cbn [map j_table] in N. inversion N as [|? ? Nx _]; subst. intros K. apply Nx. left. symmetry. exact K.
    - apply St. unfold m_used. rewrite !in_app_iff, Ej. cbn [map j_left j_right In]. tauto.
    - apply St. unfold m_used. rewrite !in_app_iff, Ej. cbn [map j_left j_right In]. tauto. }
  assert (P : Permutation (results (database_of E) m') (results (database_of E) m)).
  { apply moved_results; try assumption. intros c Hc. apply St. unfold m_used. rewrite !in_app_iff in *. tauto. }
  assert (A : forall l, answers (database_of E) m' l <-> answers (database_of E) m l).
  { intros l0. unfold answers, answers_where. fold (results (database_of E) m'). fold (results (database_of E) m). rewrite Ed, Eo.
    assert (C : forall s : list (result_row (database_of E)), cut m' s = cut m s) by (intros s; unfold cut; rewrite El, Ef; reflexivity).
    split; intros (s & H1 & H2 & ->); exists s; (split; [|split; [exact H2|]]); try (apply C); try (symmetry; apply C); (destruct (m_distinct m); [destruct H1 as [H0 H1]; split; [exact H0|]; intros x; rewrite (H1 x)|]).
    - split; intros K; [exact (Permutation_in x P K)|exact (Permutation_in x (Permutation_sym P) K)].
    - etransitivity; eassumption.
    - split; intros K; [exact (Permutation_in x (Permutation_sym P) K)|exact (Permutation_in x P K)].
    - etransitivity; [exact H1|symmetry; exact P]. }
  unfold listed_answers. split; intros (l0 & H & ->); exists l0; (split; [apply A; exact H|]); unfold wide_row; rewrite Ed; reflexivity.
Qed.
Lemma sides_args : forall m m', sides_changed m m' -> m_args m' = m_args m.
Proof. intros m m' (_ & _ & _ & E & _). unfold m_args. rewrite E. reflexivity. Qed.
Theorem sides_question : forall m m' os os' style, style <> style_dollar -> stmt_ok m -> named m -> describes os m -> stmt_ok m' -> named m' -> describes os' m' -> sides_changed m m' -> by_groups m ->
  exists q q', apply_ops os new_qb = ROk q /\ apply_ops os' new_qb = ROk q' /\ forall n, 5 + m_size m <= n -> 5 + m_size m' <= n -> exists s args s' args',
    fst (build_query n style [q] (BQuery (Some 0))) = ROk (s, args) /\ fst (build_query n style [q'] (BQuery (Some 0))) = ROk (s', args') /\
    forall E rows, tableless (database_of E) m -> executes E args' s' rows <-> executes E args s rows.
Proof.
  intros m m' os os' style Hs S Nm D S' Nm' D' B By. destruct (exec_question m os style Hs S Nm D) as (q & A1 & H). destruct (exec_question m' os' style Hs S' Nm' D') as (q' & A1' & H').
  exists q, q'. split; [exact A1|]. split; [exact A1'|]. intros n Hn Hn'. destruct (H n Hn) as (s & args & B1 & X). destruct (H' n Hn') as (s' & args' & B1' & X').
  exists s, args, s', args'. split; [exact B1|]. split; [exact B1'|]. intros E rows Tl. rewrite (X E rows), (X' E rows). apply listed_sides; assumption.
Qed.
Theorem sides_dollar : forall m m' os os', stmt_ok m -> named m -> describes os m -> stmt_ok m' -> named m' -> describes os' m' -> sides_changed m m' -> by_groups m -> forallb hashable (m_args m) = true ->
  exists q q', apply_ops os new_qb = ROk q /\ apply_ops os' new_qb = ROk q' /\ forall n, 5 + m_size m <= n -> 5 + m_size m' <= n -> exists s args s' args',
    fst (build_query n style_dollar [q] (BQuery (Some 0))) = ROk (s, args) /\ fst (build_query n style_dollar [q'] (BQuery (Some 0))) = ROk (s', args') /\
    forall E rows, by_value E -> tableless (database_of E) m -> executes E args' s' rows <-> executes E args s rows.
Proof.
  intros m m' os os' S Nm D S' Nm' D' B By Hh. assert (Hh' : forallb hashable (m_args m') = true) by (rewrite (sides_args m m' B); exact Hh).
  destruct (exec_dollar m os S Nm D Hh) as (q & A1 & H). destruct (exec_dollar m' os' S' Nm' D' Hh') as (q' & A1' & H').
  exists q, q'. split; [exact A1|]. split; [exact A1'|]. intros n Hn Hn'. destruct (H n Hn) as (s & args & B1 & X). destruct (H' n Hn') as (s' & args' & B1' & X').
  exists s, args, s', args'. split; [exact B1|]. split; [exact B1'|]. intros E rows Hv Tl. rewrite (X E rows Hv), (X' E rows Hv). apply listed_sides; assumption.
Qed.
