(** Proofs for Prop_pushdown.v: conditions on the columns of a common table expression. *)
From Coq Require Import Strings.String Strings.Ascii NArith ZArith List Bool Lia Sorting.Permutation Sorting.Sorted.
From Verif Require Import GoStr GoNum Syntax Value Util Model Sqlf Sqlb Spec_syntax RefSem Spec_build
  Spec_util Spec_eval Spec_query Spec_sql Spec_nest Spec_interp Spec_answer Spec_views Nread2_proofs Nexec_proofs Reunite_proofs Inline_proofs Spec_sqltok Spec_read Spec_nread Spec_exec Spec_nexec Spec_inline Spec_pushdown.
Import ListNotations.
Open Scope string_scope.
Open Scope list_scope.

Lemma perm_filter : forall A (f : A -> bool) l l', Permutation l l' -> Permutation (filter f l) (filter f l').
Proof.
  intros A f l l' P. induction P as [|x l l' P IH|x y l|l l1 l2 P IH Q IH2]; cbn [filter].
  - constructor.
  - destruct (f x); [apply perm_skip|]; exact IH.
  - destruct (f x), (f y); try apply Permutation_refl. apply perm_swap.
  - eapply Permutation_trans; eassumption.
Qed.
Lemma filter_of_map : forall A C (g : A -> C) f l, filter f (map g l) = map g (filter (fun x => f (g x)) l).
Proof. intros A C g f l. induction l as [|x l IH]; [reflexivity|]. cbn [map filter]. destruct (f (g x)); cbn [map]; rewrite IH; reflexivity. Qed.
Lemma filter_twice : forall A (f g : A -> bool) l, filter f (filter g l) = filter (fun x => g x && f x) l.
Proof. intros A f g l. induction l as [|x l IH]; [reflexivity|]. cbn [filter]. destruct (g x) eqn:G; cbn [filter andb]; rewrite IH; reflexivity. Qed.
(** Looking up the name of a column. *)
Lemma named_col : forall D (f : col -> d_val D) cols c, NoDup (map snd cols) -> In c cols -> Spec_views.named D (map snd cols) (map f cols) (snd c) = f c.
Proof.
  intros D f cols c. induction cols as [|c0 cols IH]; [intros _ []|]. intros N [<-|H]; inversion N as [|? ? N0 N']; subst; unfold Spec_views.named in *; cbn [map combine find fst snd].
  - rewrite String.eqb_refl. reflexivity.
  - destruct (String.eqb (snd c0) (snd c)) eqn:E; [apply String.eqb_eq in E; contradiction N0; rewrite E; apply in_map; exact H|apply IH; assumption].
Qed.

Section Answers.
Variable D : database.
Variable sub : string -> d_val D -> list (list (d_val D)) -> bool.
Variable B : list xstmt.
Hypothesis O : forall a b, d_before D [] a b.
Local Notation rows := (rows_of (d_val D)).
Definition value_of (e : rows) (c : col) : d_val D := if is_empty (fst c) then d_expr D (snd c) [e] else e (fst c) (snd c).
Definition selected (m : stmt) (e : rows) : list (d_val D) := map (value_of e) (m_cols m).
Definition passes (ts : list (Spec_answer.test D)) (e : rows) : bool := forallb (fun t => snd t (value_of e (fst t))) ts.
Definition sources (E : string -> list (row_of (d_val D))) (m : stmt) : list rows := from_rows (with_rows D E) m.
(** Answers of queries without DISTINCT, groups, orders, bounds and unions. *)
Lemma plain_answer : forall d E id m ws cs l, nth_error B id = Some (mkX m ws cs []) ->
  m_distinct m = false -> m_groups m = [] -> m_orders m = [] -> m_limit m = 0%Z -> m_offset m = 0%Z ->
  answer D sub B (S d) E id l <-> exists E' ts, with_tables D B (answer D sub B d) ws E E' /\ Forall2 (test_of D sub (answer D sub B d E')) cs ts /\
    Permutation l (map (selected m) (filter (passes ts) (sources E' m))).
Proof.
  intros d E id m ws cs l Q Ed Eg Eo El Ef. cbn [answer]. rewrite Q. cbn [x_stmt x_withs x_conds x_unions].
  assert (R : forall E' ts, map (out_row D m) (results_where (with_rows D E') m ts) = map (selected m) (filter (passes ts) (sources E' m))).
  { intros E' ts. unfold results_where, groups_of. rewrite Eg, Eo, !map_map. unfold where_rows. apply map_ext. intros e. unfold out_row. rewrite Ed. cbn [fst]. apply app_nil_r. }
  assert (C : forall A (s : list A), cut m s = s) by (intros A s; unfold cut; rewrite El, Ef; reflexivity).
  split.
  - intros (E' & ts & a & us & W & T & (s & P & _ & L) & U & G). exists E', ts. split; [exact W|]. split; [exact T|]. inversion U. subst us. cbn [together] in G. subst l. rewrite C in L. subst a. rewrite Ed in P.
    exact (eq_ind _ (Permutation _) (Permutation_map (out_row D m) P) _ (R E' ts)).
  - intros (E' & ts & W & T & P). pose proof (eq_ind _ (Permutation l) P _ (eq_sym (R E' ts))) as P'. apply Permutation_sym in P'. destruct (Permutation_map_inv (out_row D m) (results_where (with_rows D E') m ts) (Permutation_sym P')) as (s & Es & Ps).
    exists E', ts, s, []. split; [exact W|]. split; [exact T|]. split; [|split; [constructor|exact Es]]. exists s. rewrite Ed. split; [apply Permutation_sym; exact Ps|]. split; [|symmetry; apply C].
    rewrite Eo. clear -O. induction s as [|v s IH]; constructor; [exact IH|]. apply Forall_forall. intros z _. assert (K : forall p q : list (d_val D), d_before (with_rows D E') [] p q) by exact O. apply K.
Qed.
Hypothesis Hm : forall c x, d_holds D (moved c x) = d_holds D x.
Lemma moved_col : forall c x, cond_col (moved c x) = c.
Proof. intros c []; reflexivity. Qed.
Lemma moved_tests : forall (A : nat -> list (list (d_val D)) -> Prop) (f : col * cond -> col) ps ts, Forall2 (test_of D sub A) (map (fun p => Plain (moved (f p) (snd p))) ps) ts <-> ts = map (fun p => (f p, d_holds D (snd p))) ps.
Proof.
  intros A f ps. induction ps as [|p ps IH]; intros ts; cbn [map]; split; intros H.
  - inversion H. reflexivity.
  - subst ts. constructor.
  - inversion H as [|? t ? ts' Ht H']; subst. cbn [test_of] in Ht. rewrite moved_col, Hm in Ht. rewrite Ht. f_equal. apply IH. exact H'.
  - subst ts. constructor; [cbn [test_of]; rewrite moved_col, Hm; reflexivity|apply IH; reflexivity].
Qed.
Lemma push_answers : forall d E id i k w a m ws cs ps deps l, a <> "" ->
  m_distinct m = false -> m_groups m = [] -> m_orders m = [] -> m_limit m = 0%Z -> m_offset m = 0%Z ->
  NoDup (map snd (m_cols m)) -> (forall c x, In (c, x) ps -> In c (m_cols m)) ->
  nth_error B i = Some (mkX m ws cs []) ->
  nth_error B id = Some (mkX (mkStmt false (map (fun c => (a, snd c)) (m_cols m)) (w, a) [] [] [] [] 0 0) [mkWith w deps i true] (map (fun p => Plain (moved (a, snd (fst p)) (snd p))) ps) []) ->
  nth_error B k = Some (mkX m ws (cs ++ map (fun p => Plain (moved (fst p) (snd p))) ps) []) ->
  answer D sub B (S (S d)) E id l <-> answer D sub B (S d) E k l.
Proof.
  intros d E id i k w a m ws cs ps deps l Ha Ed Eg Eo El Ef N Hp Qi Qid Qk.
  assert (Ea : is_empty a = false) by (destruct a; [contradiction Ha; reflexivity|reflexivity]).
  rewrite (plain_answer d E k m ws _ l Qk Ed Eg Eo El Ef). rewrite (plain_answer (S d) E id _ _ _ l Qid eq_refl eq_refl eq_refl eq_refl eq_refl).
  assert (En : names_of B i = map snd (m_cols m)) by (unfold names_of; rewrite Qi; cbn [x_stmt]; unfold out_names; rewrite Ed; apply app_nil_r).
  set (outer := mkStmt false (map (fun c => (a, snd c)) (m_cols m)) (w, a) [] [] [] [] 0 0) in *.
  set (t1 := map (fun p : col * cond => ((a, snd (fst p)), d_holds D (snd p))) ps). set (t2 := map (fun p : col * cond => (fst p, d_holds D (snd p))) ps).
  assert (R : forall F E', map (selected outer) (filter (passes t1) (sources (bind_table D w (map (Spec_views.named D (names_of B i)) (map (selected m) F)) E') outer)) = map (selected m) (filter (passes t2) F)).
  { intros F E'. assert (S1 : sources (bind_table D w (map (Spec_views.named D (names_of B i)) (map (selected m) F)) E') outer =
      map (fun e => bind D a (Spec_views.named D (names_of B i) (selected m e)) (no_rows D)) F).
    { assert (HT : bind_table D w (map (Spec_views.named D (names_of B i)) (map (selected m) F)) E' w = map (Spec_views.named D (names_of B i)) (map (selected m) F)) by (unfold bind_table; rewrite String.eqb_refl; reflexivity).
      revert HT. generalize (bind_table D w (map (Spec_views.named D (names_of B i)) (map (selected m) F)) E'). intros T HT.
      unfold sources, from_rows. cbn [outer m_joins m_main fold_left fst with_rows d_rows]. rewrite HT, !map_map. unfold known_as. cbn [fst snd]. rewrite Ea. reflexivity. }
    rewrite S1, filter_of_map, map_map. rewrite En.
    assert (V : forall e c, In c (m_cols m) -> value_of (bind D a (Spec_views.named D (map snd (m_cols m)) (selected m e)) (no_rows D)) (a, snd c) = value_of e c).
    { intros e c Hc. unfold value_of at 1. cbn [fst snd]. rewrite Ea. unfold bind. rewrite String.eqb_refl. apply (named_col D (value_of e) (m_cols m) c N Hc). }
    transitivity (map (fun e => selected outer (bind D a (Spec_views.named D (map snd (m_cols m)) (selected m e)) (no_rows D))) (filter (passes t2) F)).
    - f_equal. apply filter_ext. intros e. unfold passes, t1, t2. clear -V Hp. induction ps as [|[c x] ps IH]; [reflexivity|]. cbn [map forallb fst snd]. rewrite (V e c (Hp c x (or_introl eq_refl))). f_equal. apply IH. intros c' x' H. apply (Hp c' x'). right. exact H.
    - apply map_ext. intros e. unfold selected at 1. cbn [outer m_cols]. rewrite map_map. apply map_ext_in. intros c Hc. apply V. exact Hc. }
  split.
  - intros (E1 & ts & W & T & P). cbn [with_tables w_id w_name] in W. destruct W as (b & Hb & ->). apply (moved_tests _ (fun p => (a, snd (fst p)))) in T. subst ts. fold t1 in P.
    apply (plain_answer d E i m ws cs b Qi Ed Eg Eo El Ef) in Hb. destruct Hb as (E' & ts & W & T & Pb). exists E', (ts ++ t2). split; [exact W|]. split; [apply Forall2_app; [exact T|apply (moved_tests _ fst); reflexivity]|].
    assert (K : filter (passes (ts ++ t2)) (sources E' m) = filter (passes t2) (filter (passes ts) (sources E' m))).
    { rewrite filter_twice. apply filter_ext. intros e. unfold passes. apply forallb_app. }
    rewrite K, <- (R _ E). eapply Permutation_trans; [exact P|]. apply Permutation_map, perm_filter.
    assert (HT : forall b1 T, T w = map (Spec_views.named D (names_of B i)) b1 -> sources T outer = map (fun r => bind D a r (no_rows D)) (map (Spec_views.named D (names_of B i)) b1)).
    { intros b1 T0 H. unfold sources, from_rows. cbn [outer m_joins m_main fold_left fst with_rows d_rows]. rewrite H. unfold known_as. cbn [fst snd]. rewrite Ea. reflexivity. }
    rewrite (HT b), (HT (map (selected m) (filter (passes ts) (sources E' m)))) by (unfold bind_table; rewrite String.eqb_refl; reflexivity). apply Permutation_map, Permutation_map, Pb.
  - intros (E' & ts & W & T & P). apply Forall2_app_inv_l in T. destruct T as (ts0 & ts1 & T0 & T1 & ->). apply (moved_tests _ fst) in T1. subst ts1. fold t2 in P.
    exists (bind_table D w (map (Spec_views.named D (names_of B i)) (map (selected m) (filter (passes ts0) (sources E' m)))) E), t1.
    split; [exists (map (selected m) (filter (passes ts0) (sources E' m))); split; [|reflexivity]; apply (plain_answer d E i m ws cs _ Qi Ed Eg Eo El Ef); exists E', ts0; split; [exact W|split; [exact T0|apply Permutation_refl]]|].
    split; [apply (moved_tests _ (fun p => (a, snd (fst p)))); reflexivity|]. rewrite R, filter_twice. eapply Permutation_trans; [exact P|]. apply Permutation_map.
    replace (filter (passes (ts0 ++ t2)) (sources E' m)) with (filter (fun x => passes ts0 x && passes t2 x) (sources E' m)); [apply Permutation_refl|]. apply filter_ext. intros e. unfold passes. symmetry. apply forallb_app.
Qed.
End Answers.

Lemma push_book : forall E sub_test B d id i k w a rows, pushes B id i k w a -> orderless E ->
  book_answers E sub_test (map lean B) (S (S d)) id rows <-> book_answers E sub_test (map lean B) (S d) k rows.
Proof.
  intros E sub_test B d id i k w a rows (Ha & m & ws & cs & ps & deps & Ed & Eg & Eo & El & Ef & N & Hp & Qi & Qid & Qk) O. unfold book_answers.
  apply (push_answers (database_of E) _ (map lean B) O (fun c x => ltac:(destruct x; reflexivity)) d _ id i k w a (trimmed m) (filter w_emitted ws) cs ps deps rows Ha Ed Eg Eo El Ef N Hp); rewrite nth_lean'; [rewrite Qi|rewrite Qid|rewrite Qk]; reflexivity.
Qed.
Lemma moved_args : forall c x, cond_args (moved c x) = cond_args x.
Proof. intros c []; reflexivity. Qed.
Lemma push_parts : forall B d id i k w a, pushes B id i k w a -> complete B (S (S d)) id -> complete B (S d) k.
Proof.
  intros B d id i k w a (Ha & m & ws & cs & ps & deps & Ed & Eg & Eo & El & Ef & N & Hp & Qi & Qid & Qk) C. cbn [complete] in *. rewrite Qid in C. rewrite Qk.
  specialize (C i). rewrite Qi in C. specialize (C ltac:(unfold refs, emitted; cbn; left; reflexivity)). intros j Hj. apply C. unfold refs, emitted in *. cbn [x_withs x_conds x_unions] in *. rewrite flat_map_app in Hj.
  assert (K : flat_map (fun c => match c with Plain _ => [] | Sub _ _ id => [id] end) (map (fun p : col * cond => Plain (moved (fst p) (snd p))) ps) = []) by (clear; induction ps as [|p ps IH]; [reflexivity|exact IH]).
  rewrite K, app_nil_r in Hj. exact Hj.
Qed.
Lemma push_hash : forall B d id i k w a, pushes B id i k w a -> forallb hashable (args_of B (S d) k) = true -> forallb hashable (args_of B (S (S d)) id) = true.
Proof.
  intros B d id i k w a (Ha & m & ws & cs & ps & deps & Ed & Eg & Eo & El & Ef & N & Hp & Qi & Qid & Qk) H. rewrite forallb_forall in *. intros v Hv. apply H. clear H. cbn [args_of] in *. rewrite Qid in Hv. rewrite Qk.
  unfold emitted in *. cbn [x_withs x_conds x_unions filter w_emitted flat_map w_id] in *. rewrite Qi in Hv. cbn [x_withs x_conds x_unions filter w_emitted flat_map w_id] in Hv. rewrite !app_nil_r in *. rewrite flat_map_app. rewrite !in_app_iff in *.
  assert (K : forall A (f g : col * cond -> col), flat_map (xcond_args A) (map (fun p : col * cond => Plain (moved (f p) (snd p))) ps) = flat_map (xcond_args A) (map (fun p : col * cond => Plain (moved (g p) (snd p))) ps)).
  { intros A f g. clear. induction ps as [|p ps IH]; [reflexivity|]. cbn [map flat_map xcond_args]. rewrite !moved_args, IH. reflexivity. }
  assert (K2 : forall A A' (f : col * cond -> col), flat_map (xcond_args A) (map (fun p : col * cond => Plain (moved (f p) (snd p))) ps) = flat_map (xcond_args A') (map (fun p : col * cond => Plain (moved (f p) (snd p))) ps)).
  { intros A A' f. clear. induction ps as [|p ps IH]; [reflexivity|]. cbn [map flat_map xcond_args]. rewrite IH. reflexivity. }
  rewrite (K _ (fun p => (a, snd (fst p))) fst), (K2 _ (args_of B d)) in Hv. tauto.
Qed.
Theorem push_question : forall B oss style d id i k w a, style <> style_dollar -> book oss B -> Forall xnamed B -> complete B (S (S d)) id -> used_once B (S (S d)) id -> used_once B (S d) k -> pushes B id i k w a ->
  exists qs, made oss qs /\ forall n, size_of B (S (S d)) id <= n -> size_of B (S d) k <= n -> exists s args s' args',
    fst (build_query n style qs (query id)) = ROk (s, args) /\ fst (build_query n style qs (query k)) = ROk (s', args') /\
    forall E sub_test rows, orderless E -> executes_all E sub_test args s rows <-> executes_all E sub_test args' s' rows.
Proof.
  intros B oss style d id i k w a Hs Hb N C U U' P. pose proof (push_parts B d id i k w a P C) as C'.
  destruct (nexec_question B oss style (S (S d)) id Hs Hb N C U) as (qs & Mq & H). destruct (nexec_question B oss style (S d) k Hs Hb N C' U') as (qs' & Mq' & H'). rewrite (made_unique _ _ _ Mq' Mq) in H'.
  exists qs. split; [exact Mq|]. intros n Hn Hn'. destruct (H n Hn) as (s & args & X & R). destruct (H' n Hn') as (s' & args' & X' & R').
  exists s, args, s', args'. split; [exact X|]. split; [exact X'|]. intros E sub rows O. rewrite R, R'. apply (push_book E sub B d id i k w a rows P O).
Qed.
Theorem push_dollar : forall B oss d id i k w a, book oss B -> Forall xnamed B -> complete B (S (S d)) id -> used_once B (S (S d)) id -> used_once B (S d) k -> pushes B id i k w a -> forallb hashable (args_of B (S d) k) = true ->
  exists qs, made oss qs /\ forall n, size_of B (S (S d)) id <= n -> size_of B (S d) k <= n -> exists s args s' args',
    fst (build_query n style_dollar qs (query id)) = ROk (s, args) /\ fst (build_query n style_dollar qs (query k)) = ROk (s', args') /\
    forall E sub_test rows, by_value E -> orderless E -> executes_all E sub_test args s rows <-> executes_all E sub_test args' s' rows.
Proof.
  intros B oss d id i k w a Hb N C U U' P Hh. pose proof (push_parts B d id i k w a P C) as C'.
  destruct (nexec_dollar B oss (S (S d)) id Hb N C U (push_hash B d id i k w a P Hh)) as (qs & Mq & H). destruct (nexec_dollar B oss (S d) k Hb N C' U' Hh) as (qs' & Mq' & H'). rewrite (made_unique _ _ _ Mq' Mq) in H'.
  exists qs. split; [exact Mq|]. intros n Hn Hn'. destruct (H n Hn) as (s & args & X & R). destruct (H' n Hn') as (s' & args' & X' & R').
  exists s, args, s', args'. split; [exact X|]. split; [exact X'|]. intros E sub rows Hv O. rewrite (R E sub rows Hv), (R' E sub rows Hv). apply (push_book E sub B d id i k w a rows P O).
Qed.
