(** Proofs for Prop_alias.v: the names tables are known by. *)
From Coq Require Import Strings.String Strings.Ascii NArith ZArith List Bool Lia Sorting.Permutation Sorting.Sorted.
From Verif Require Import GoStr GoNum Syntax Value Util Model Sqlf Sqlb Spec_syntax RefSem Spec_build
  Spec_util Spec_eval Spec_query Spec_sql Spec_interp Sql_proofs Spec_answer Answer_proofs Exec_proofs Spec_sqltok Spec_read Spec_exec Spec_alias.
Import ListNotations.
Open Scope string_scope.
Open Scope list_scope.

(** ** Lists *)
Lemma f2_app : forall A C (R : A -> C -> Prop) a a' b b', Forall2 R a a' -> Forall2 R b b' -> Forall2 R (a ++ b) (a' ++ b').
Proof. intros A C R a a' b b' F G. induction F; cbn [app]; [exact G|constructor; assumption]. Qed.
Lemma f2_flat : forall A C X Y (R : A -> C -> Prop) (Q : X -> Y -> Prop) f g l l', Forall2 R l l' -> (forall x y, R x y -> Forall2 Q (f x) (g y)) -> Forall2 Q (flat_map f l) (flat_map g l').
Proof. intros A C X Y R Q f g l l' F H. induction F; cbn [flat_map]; [constructor|apply f2_app; auto]. Qed.
Lemma f2_same : forall A X Y (Q : X -> Y -> Prop) (f : A -> X) (g : A -> Y) l, (forall x, Q (f x) (g x)) -> Forall2 Q (map f l) (map g l).
Proof. intros A X Y Q f g l H. induction l; cbn [map]; constructor; auto. Qed.
Lemma f2_filter : forall A C (R : A -> C -> Prop) p q l l', Forall2 R l l' -> (forall x y, R x y -> p x = q y) -> Forall2 R (filter p l) (filter q l').
Proof. intros A C R p q l l' F H. induction F as [|x y l l' E F IH]; cbn [filter]; [constructor|]. rewrite (H x y E). destruct (q y); [constructor|]; assumption. Qed.
Lemma f2_exists : forall A C (R : A -> C -> Prop) p q l l', Forall2 R l l' -> (forall x y, R x y -> p x = q y) -> existsb p l = existsb q l'.
Proof. intros A C R p q l l' F H. induction F as [|x y l l' E F IH]; cbn [existsb]; [reflexivity|]. rewrite (H x y E), IH. reflexivity. Qed.
Lemma f2_map_eq : forall A C X (R : A -> C -> Prop) (f : A -> X) (g : C -> X) l l', Forall2 R l l' -> (forall x y, R x y -> f x = g y) -> map f l = map g l'.
Proof. intros A C X R f g l l' F H. induction F as [|x y l l' E F IH]; cbn [map]; [reflexivity|]. rewrite (H x y E), IH. reflexivity. Qed.
Lemma nodup_inj : forall A C (f : A -> C) l, NoDup (map f l) -> forall a b, In a l -> In b l -> f a = f b -> a = b.
Proof.
  intros A C f l. induction l as [|x l IH]; intros N a b Ha Hb E; [destruct Ha|]. cbn [map] in N. inversion N as [|? ? Nx N']; subst.
  destruct Ha as [<-|Ha], Hb as [<-|Hb]; [reflexivity| | |apply IH; assumption].
  - exfalso. apply Nx. rewrite E. apply in_map, Hb.
  - exfalso. apply Nx. rewrite <- E. apply in_map, Ha.
Qed.

Section Names.
Variable new : string -> string.
Variable T : list string.
Hypothesis Inj : forall a b, In a T -> In b T -> new a = new b -> a = b.
Hypothesis Full : forall a, In a T -> is_empty (new a) = false.
Variable D : database.
Let rows := rows_of (d_val D).
Definition alike (e e' : rows) : Prop := forall a, In a T -> e a = e' (new a).
Definition covered (c : col) : Prop := fst c = "" \/ In (fst c) T.
Definition steady (c : col) : Prop := covered c /\ (fst c = "" -> forall g g', d_expr D (snd c) g = d_expr D (snd c) g').

Lemma alike_bind : forall a r e e', In a T -> alike e e' -> alike (bind D a r e) (bind D (new a) r e').
Proof.
  intros a r e e' Ha H x Hx. unfold bind. destruct (String.eqb x a) eqn:K.
  - apply String.eqb_eq in K. subst x. rewrite String.eqb_refl. reflexivity.
  - replace (String.eqb (new x) (new a)) with false; [apply H; exact Hx|]. symmetry. apply String.eqb_neq. intros E. apply Inj in E; [|assumption|assumption]. subst x. rewrite String.eqb_refl in K. discriminate.
Qed.
Lemma alike_none : alike (no_rows D) (no_rows D).
Proof. intros a _. reflexivity. Qed.
Lemma alike_col : forall c g g', steady c -> Forall2 alike g g' -> col_value D g c = col_value D g' (recol new c).
Proof.
  intros c g g' [C S] F. unfold col_value, recol. destruct (is_empty (fst c)) eqn:E.
  - rewrite E. apply S. destruct (fst c); [reflexivity|discriminate].
  - cbn [fst snd]. destruct C as [C|C]; [rewrite C in E; discriminate|]. rewrite (Full _ C).
    assert (K : alike (hd (no_rows D) g) (hd (no_rows D) g')) by (destruct F; [apply alike_none|assumption]). rewrite (K _ C). reflexivity.
Qed.
Lemma alike_on : forall j j' e e' r, In (known_as (j_table j)) T -> rejoin new j j' -> steady (j_left j) -> steady (j_right j) -> alike e e' -> on_holds D j e r = on_holds D j' e' r.
Proof.
  intros j j' e e' r Ht (_ & (_ & Ek) & El & Er) Sl Sr H. unfold on_holds. rewrite Ek, El, Er.
  assert (F : Forall2 alike [bind D (known_as (j_table j)) r e] [bind D (new (known_as (j_table j))) r e']) by (constructor; [apply alike_bind; assumption|constructor]).
  rewrite (alike_col _ _ _ Sl F), (alike_col _ _ _ Sr F). reflexivity.
Qed.
Lemma alike_join : forall j j' es es', In (known_as (j_table j)) T -> rejoin new j j' -> steady (j_left j) -> steady (j_right j) -> Forall2 alike es es' ->
  Forall2 alike (join_rows D es j) (join_rows D es' j').
Proof.
  intros j j' es es' Ht R Sl Sr F. pose proof R as (Ekind & (Ef & Ek) & _ & _).
  assert (P : forall e e', alike e e' -> partners D j e = partners D j' e').
  { intros e e' H. unfold partners. rewrite Ef. apply filter_ext. intros r. apply alike_on; assumption. }
  assert (M : Forall2 alike (matched D j es) (matched D j' es')).
  { unfold matched. apply (f2_flat _ _ _ _ _ _ _ _ _ _ F). intros e e' H. rewrite (P e e' H), Ek. apply f2_same. intros r. apply alike_bind; assumption. }
  assert (N : Forall2 alike (matched_or_null D j es) (matched_or_null D j' es')).
  { unfold matched_or_null. apply (f2_flat _ _ _ _ _ _ _ _ _ _ F). intros e e' H. rewrite (P e e' H), Ek. destruct (partners D j' e') as [|r rs].
    - constructor; [apply alike_bind; assumption|constructor].
    - apply (f2_same _ _ _ alike _ _ (r :: rs)). intros x. apply alike_bind; assumption. }
  assert (S : Forall2 alike (strangers D j es) (strangers D j' es')).
  { unfold strangers. rewrite Ef, Ek. replace (filter (fun r => negb (existsb (fun e => on_holds D j' e r) es')) (d_rows D (fst (j_table j)))) with (filter (fun r => negb (existsb (fun e => on_holds D j e r) es)) (d_rows D (fst (j_table j)))).
    - apply f2_same. intros r. apply alike_bind; [assumption|apply alike_none].
    - apply filter_ext. intros r. f_equal. apply (f2_exists _ _ _ _ _ _ _ F). intros e e' H. apply alike_on; assumption. }
  unfold join_rows. rewrite Ekind. destruct (j_kind j); try assumption; apply f2_app; assumption.
Qed.
Definition within (m : stmt) : Prop :=
  In (known_as (m_main m)) T /\ Forall (fun j => In (known_as (j_table j)) T /\ steady (j_left j) /\ steady (j_right j)) (m_joins m) /\
  Forall steady (m_cols m) /\ Forall (fun x => steady (cond_col x)) (m_conds m) /\ Forall steady (m_groups m) /\ Forall (fun o => steady (fst o)) (m_orders m).
Lemma alike_from : forall m m', within m -> realiased new m m' -> Forall2 alike (from_rows D m) (from_rows D m').
Proof.
  intros m m' (Hm & Hj & _) (_ & _ & (Ef & Ek) & Ej & _). unfold from_rows. rewrite Ef, Ek.
  assert (F : Forall2 alike (map (fun r => bind D (known_as (m_main m)) r (no_rows D)) (d_rows D (fst (m_main m)))) (map (fun r => bind D (new (known_as (m_main m))) r (no_rows D)) (d_rows D (fst (m_main m))))).
  { apply f2_same. intros r. apply alike_bind; [exact Hm|apply alike_none]. }
  revert F. generalize (map (fun r => bind D (known_as (m_main m)) r (no_rows D)) (d_rows D (fst (m_main m)))) (map (fun r => bind D (new (known_as (m_main m))) r (no_rows D)) (d_rows D (fst (m_main m)))).
  revert Hj. induction Ej as [|j j' js js' R Ej IH]; intros Hj es es' F; [exact F|]. inversion Hj as [|? ? (H1 & H2 & H3) Hj']; subst. cbn [fold_left]. apply (IH Hj'). apply alike_join; assumption.
Qed.
Hypothesis Holds : forall x, d_holds D (recond new x) = d_holds D x.
Lemma alike_where : forall m m', within m -> realiased new m m' -> Forall2 alike (where_rows D m (tests D m)) (where_rows D m' (tests D m')).
Proof.
  intros m m' W R. unfold where_rows. apply f2_filter with (1 := alike_from m m' W R). intros e e' H. unfold tests.
  destruct W as (_ & _ & _ & Hc & _), R as (_ & _ & _ & _ & Ec & _). rewrite Ec. clear -Inj Full Holds H Hc. induction (m_conds m) as [|x cs IH]; [reflexivity|]. inversion Hc as [|? ? Hx Hc']; subst.
  cbn [map forallb fst snd]. rewrite (IH Hc'), Holds. f_equal. f_equal. replace (cond_col (recond new x)) with (recol new (cond_col x)) by (destruct x; reflexivity).
  apply alike_col; [exact Hx|constructor; [exact H|constructor]].
Qed.
Lemma alike_key : forall cs a a' b b', Forall steady cs -> alike a a' -> alike b b' -> same_key D cs a b = same_key D (map (recol new) cs) a' b'.
Proof.
  intros cs a a' b b' F Ha Hb. unfold same_key. induction F as [|c cs S F IH]; [reflexivity|]. cbn [map forallb]. rewrite IH. f_equal.
  apply (f_equal2 (d_same D)); (apply alike_col; [exact S|constructor; [assumption|constructor]]).
Qed.
Lemma alike_add : forall cs e e' gs gs', Forall steady cs -> alike e e' -> Forall2 (Forall2 alike) gs gs' -> Forall2 (Forall2 alike) (add_to D cs e gs) (add_to D (map (recol new) cs) e' gs').
Proof.
  intros cs e e' gs gs' S H F. induction F as [|g g' gs gs' G F IH]; cbn [add_to].
  - repeat constructor. exact H.
  - assert (K : alike (hd (no_rows D) g) (hd (no_rows D) g')) by (destruct G; [apply alike_none|assumption]). rewrite <- (alike_key cs _ _ _ _ S K H).
    destruct (same_key D cs (hd (no_rows D) g) e); constructor; auto. apply f2_app; [exact G|constructor; [exact H|constructor]].
Qed.
Lemma alike_fold : forall cs es es', Forall steady cs -> Forall2 alike es es' -> forall gs gs', Forall2 (Forall2 alike) gs gs' ->
  Forall2 (Forall2 alike) (fold_left (fun gs e => add_to D cs e gs) es gs) (fold_left (fun gs e => add_to D (map (recol new) cs) e gs) es' gs').
Proof.
  intros cs es es' S F. induction F as [|e e' es es' H F IH]; intros gs gs' G; [exact G|]. cbn [fold_left]. apply IH. apply alike_add; assumption.
Qed.
Lemma alike_groups : forall m m', within m -> realiased new m m' -> Forall2 (Forall2 alike) (groups_of D m (tests D m)) (groups_of D m' (tests D m')).
Proof.
  intros m m' W R. pose proof (alike_where m m' W R) as F. destruct W as (_ & _ & _ & _ & Hg & _), R as (_ & _ & _ & _ & _ & Eg & _). unfold groups_of. rewrite Eg.
  destruct (m_groups m) as [|c cs].
  - cbn [map]. clear -F. induction F; cbn [map]; constructor; [constructor; [assumption|constructor]|assumption].
  - change (map (recol new) (c :: cs)) with (recol new c :: map (recol new) cs). cbv iota. change (recol new c :: map (recol new) cs) with (map (recol new) (c :: cs)).
    exact (alike_fold _ _ _ Hg F [] [] (Forall2_nil _)).
Qed.
Lemma alike_results : forall m m', within m -> realiased new m m' -> results D m' = results D m.
Proof.
  intros m m' W R. pose proof (alike_groups m m' W R) as F. destruct W as (_ & _ & Hs & _ & _ & Ho), R as (_ & Es & _ & _ & _ & _ & Eo & _). unfold results, results_where. symmetry.
  apply (f2_map_eq _ _ _ _ _ _ _ _ F). intros g g' G. rewrite Es, Eo, !map_map. f_equal; apply map_ext_in; intros c Hc.
  - apply alike_col; [exact (proj1 (Forall_forall _ _) Hs c Hc)|exact G].
  - cbn [fst]. apply alike_col; [exact (proj1 (Forall_forall _ _) Ho c Hc)|exact G].
Qed.
Lemma alike_answers : forall m m' l, within m -> realiased new m m' -> answers D m' l <-> answers D m l.
Proof.
  intros m m' l W R. pose proof (alike_results m m' W R) as K. destruct R as (Ed & _ & _ & _ & _ & _ & Eo & El & Ef). unfold answers, answers_where. unfold results in K. rewrite K, Ed.
  assert (O : map snd (m_orders m') = map snd (m_orders m)) by (rewrite Eo, map_map; reflexivity). rewrite O.
  assert (C : forall s : list (result_row D), cut m' s = cut m s) by (intros s; unfold cut; rewrite El, Ef; reflexivity).
  split; intros (s & H1 & H2 & ->); exists s; (split; [exact H1|split; [exact H2|]]); [apply C|symmetry; apply C].
Qed.
End Names.

Lemma recond_holds : forall E new x, d_holds (database_of E) (recond new x) = d_holds (database_of E) x.
Proof. intros E new [c o v|c v|c v]; reflexivity. Qed.
Lemma realiased_tables : forall new m m', realiased new m m' -> m_tables m' = map new (m_tables m).
Proof.
  intros new m m' (_ & _ & (_ & Ek) & Ej & _). unfold m_tables. cbn [map]. rewrite Ek. f_equal. induction Ej as [|j j' js js' (_ & (_ & K) & _) Ej IH]; [reflexivity|]. cbn [map]. rewrite K, IH. reflexivity.
Qed.
Lemma realiased_trimmed : forall new m m', realiased new m m' -> realiased new (trimmed m) (trimmed m').
Proof.
  intros new m m' (H1 & H2 & H3 & H4 & H5). unfold realiased. cbn [trimmed m_distinct m_cols m_main m_joins m_conds m_groups m_orders m_limit m_offset].
  split; [exact H1|]. split; [exact H2|]. split; [exact H3|]. split; [|exact H5]. unfold m_shown. apply (f2_filter _ _ _ _ _ _ _ H4). intros j j' (K & _). unfold appears. rewrite K. reflexivity.
Qed.
Lemma known_full : forall t, table_ok t = true -> is_empty (known_as t) = false.
Proof.
  intros [n a] H. unfold table_ok in H. cbn [fst snd] in H. apply andb_prop in H. destruct H as [H1 H2]. unfold known_as. cbn [fst snd]. destruct (is_empty a) eqn:E; [|exact E].
  unfold word in H1. apply andb_prop in H1. destruct H1 as [H1 _]. apply negb_true_iff in H1. exact H1.
Qed.
Lemma listed_alias : forall E new m m' rows, stmt_ok m -> stmt_ok m' -> realiased new m m' -> tableless (database_of E) m ->
  listed_answers E (trimmed m') rows <-> listed_answers E (trimmed m) rows.
Proof.
  intros E new m m' rows [N _] [N' _] R Tl. pose proof (realiased_trimmed new m m' R) as R2. set (T := m_tables m).
  assert (Inj : forall a b, In a T -> In b T -> new a = new b -> a = b) by (apply nodup_inj; unfold T; rewrite <- (realiased_tables new m m' R); apply N').
  assert (Full : forall a, In a T -> is_empty (new a) = false).
  { intros a Ha. assert (K : In (new a) (m_tables m')) by (rewrite (realiased_tables new m m' R); apply in_map, Ha). destruct N' as (_ & N1 & N2 & _). unfold m_tables in K.
    destruct K as [<-|K]; [apply known_full; exact N1|]. apply in_map_iff in K. destruct K as (j & <- & Hj). apply known_full. rewrite Forall_forall in N2. apply N2, Hj. }
  assert (St : forall c, In c (m_used m) -> steady T (database_of E) c).
  { intros c Hc. destruct N as (_ & _ & _ & _ & N5 & _). rewrite Forall_forall in N5. split; [apply (N5 c Hc)|]. intros K g g'. apply (Tl c g g' Hc K). }
  assert (W : within T (database_of E) (trimmed m)).
  { unfold within. cbn [trimmed m_main m_joins m_cols m_conds m_groups m_orders]. split; [left; reflexivity|]. split.
    - rewrite Forall_forall. intros j Hj. unfold m_shown in Hj. apply filter_In in Hj. destruct Hj as [Hj _]. split; [right; apply in_map_iff; exists j; split; [reflexivity|exact Hj]|].
      split; apply St; unfold m_used; rewrite !in_app_iff; do 4 right; [left|right]; apply in_map, Hj.
    - split; [|split; [|split]]; rewrite Forall_forall; intros c Hc; apply St; unfold m_used; rewrite !in_app_iff; [left; exact Hc|right; left; apply in_map, Hc|do 2 right; left; exact Hc|do 3 right; left; apply in_map, Hc]. }
  pose proof (fun l => alike_answers new T Inj Full (database_of E) (recond_holds E new) (trimmed m) (trimmed m') l W R2) as A.
  assert (X : forall r, wide_row (trimmed m') r = wide_row (trimmed m) (V := d_val (e_data E)) r) by (intros r; unfold wide_row; destruct R2 as (-> & _); reflexivity).
  unfold listed_answers. split; intros (l & H & ->); exists l; (split; [apply A; exact H|apply map_ext; intros r; rewrite X; reflexivity]).
Qed.
Lemma realiased_args : forall new m m', realiased new m m' -> m_args m' = m_args m.
Proof.
  intros new m m' (_ & _ & _ & _ & E & _). unfold m_args. rewrite E. clear E. induction (m_conds m) as [|x cs IH]; [reflexivity|]. cbn [map flat_map]. rewrite IH. destruct x; reflexivity.
Qed.
Theorem alias_question : forall new m m' os os' style, style <> style_dollar -> stmt_ok m -> named m -> describes os m -> stmt_ok m' -> named m' -> describes os' m' -> realiased new m m' ->
  exists q q', apply_ops os new_qb = ROk q /\ apply_ops os' new_qb = ROk q' /\ forall n, 5 + m_size m <= n -> 5 + m_size m' <= n -> exists s args s' args',
    fst (build_query n style [q] (BQuery (Some 0))) = ROk (s, args) /\ fst (build_query n style [q'] (BQuery (Some 0))) = ROk (s', args') /\
    forall E rows, tableless (database_of E) m -> executes E args' s' rows <-> executes E args s rows.
Proof.
  intros new m m' os os' style Hs S Nm D S' Nm' D' A. destruct (exec_question m os style Hs S Nm D) as (q & A1 & H). destruct (exec_question m' os' style Hs S' Nm' D') as (q' & A1' & H').
  exists q, q'. split; [exact A1|]. split; [exact A1'|]. intros n Hn Hn'. destruct (H n Hn) as (s & args & B & X). destruct (H' n Hn') as (s' & args' & B' & X').
  exists s, args, s', args'. split; [exact B|]. split; [exact B'|]. intros E rows Tl. rewrite X, X'. apply (listed_alias E new); assumption.
Qed.
Theorem alias_dollar : forall new m m' os os', stmt_ok m -> named m -> describes os m -> stmt_ok m' -> named m' -> describes os' m' -> realiased new m m' -> forallb hashable (m_args m) = true ->
  exists q q', apply_ops os new_qb = ROk q /\ apply_ops os' new_qb = ROk q' /\ forall n, 5 + m_size m <= n -> 5 + m_size m' <= n -> exists s args s' args',
    fst (build_query n style_dollar [q] (BQuery (Some 0))) = ROk (s, args) /\ fst (build_query n style_dollar [q'] (BQuery (Some 0))) = ROk (s', args') /\
    forall E rows, by_value E -> tableless (database_of E) m -> executes E args' s' rows <-> executes E args s rows.
Proof.
  intros new m m' os os' S Nm D S' Nm' D' A Hh. assert (Hh' : forallb hashable (m_args m') = true) by (rewrite (realiased_args new m m' A); exact Hh).
  destruct (exec_dollar m os S Nm D Hh) as (q & A1 & H). destruct (exec_dollar m' os' S' Nm' D' Hh') as (q' & A1' & H').
  exists q, q'. split; [exact A1|]. split; [exact A1'|]. intros n Hn Hn'. destruct (H n Hn) as (s & args & B & X). destruct (H' n Hn') as (s' & args' & B' & X').
  exists s, args, s', args'. split; [exact B|]. split; [exact B'|]. intros E rows Hv Tl. rewrite (X E rows Hv), (X' E rows Hv). apply (listed_alias E new); assumption.
Qed.
