(** Proofs for Prop_shuffle.v: the order of conditions and unions. *)
From Coq Require Import Strings.String Strings.Ascii NArith ZArith List Bool Lia Sorting.Permutation Sorting.Sorted.
From Verif Require Import GoStr GoNum Syntax Value Util Model Sqlf Sqlb Spec_syntax RefSem Spec_build
  Spec_util Spec_eval Spec_query Spec_sql Spec_nest Spec_interp Spec_answer Spec_views Narrow_proofs Nexec_proofs Spec_sqltok Spec_read Spec_nread Spec_exec Spec_nexec Spec_shuffle.
Import ListNotations.
Open Scope string_scope.
Open Scope list_scope.

Lemma f2_impl : forall A C (P Q : A -> C -> Prop) l l', (forall a b, P a b -> Q a b) -> Forall2 P l l' -> Forall2 Q l l'.
Proof. intros A C P Q l l' I F. induction F; constructor; auto. Qed.
Lemma shuffled_sym : forall x x', shuffled x x' -> shuffled x' x.
Proof. intros x x' (H1 & H2 & H3 & H4). repeat split; auto using Permutation_sym. Qed.
Lemma book_sym : forall B B', shuffled_book B B' -> shuffled_book B' B.
Proof. intros B B' F. induction F as [|x x' B B' H F IH]; constructor; [apply shuffled_sym; exact H|exact IH]. Qed.
Lemma book_nth : forall B B' id, shuffled_book B B' ->
  match nth_error B id, nth_error B' id with Some x, Some x' => shuffled x x' | None, None => True | _, _ => False end.
Proof. intros B B' id F. revert id. induction F as [|x x' B B' H F IH]; intros [|id]; cbn [nth_error]; auto. apply IH. Qed.
Lemma perm_flat : forall A C (f g : A -> list C) l l', Permutation l l' -> (forall x, Permutation (f x) (g x)) -> Permutation (flat_map f l) (flat_map g l').
Proof.
  intros A C f g l l' P H. transitivity (flat_map g l).
  - clear P. induction l as [|x l IH]; [constructor|]. cbn [flat_map]. apply Permutation_app; [apply H|exact IH].
  - clear H. induction P as [|x l l' P IH|x y l|l l1 l2 P1 IH1 P2 IH2]; cbn [flat_map]; [constructor|apply Permutation_app_head; exact IH| |transitivity (flat_map g l1); assumption].
    rewrite !app_assoc. apply Permutation_app_tail, Permutation_app_comm.
Qed.
Lemma perm_filter : forall A (f g : A -> bool) l l', (forall x, f x = g x) -> Permutation l l' -> Permutation (filter f l) (filter g l').
Proof.
  intros A f g l l' E P. induction P as [|x l l' P IH|x y l|l l1 l2 P1 IH1 P2 IH2]; cbn [filter].
  - constructor.
  - rewrite <- E. destruct (f x); [constructor|]; exact IH.
  - rewrite <- !E. rewrite (filter_ext f g E l). destruct (f x), (f y); try apply Permutation_refl. apply perm_swap.
  - transitivity (filter g l1); [exact IH1|]. rewrite <- (filter_ext f g E l1). exact IH2.
Qed.
Lemma perm_forallb : forall A (f : A -> bool) l l', Permutation l l' -> forallb f l = true -> forallb f l' = true.
Proof. intros A f l l' P H. rewrite <- (forallb_perm _ f l l' P). exact H. Qed.
Lemma perm_refs : forall x x', shuffled x x' -> Permutation (refs x) (refs x').
Proof.
  intros x x' (_ & Ew & Pc & Pu). unfold refs, emitted. rewrite Ew. apply Permutation_app_head. apply Permutation_app; [|exact Pu]. apply perm_flat; [exact Pc|]. intros c. apply Permutation_refl.
Qed.
Section Books.
Variables B B' : list xstmt.
Hypothesis S : shuffled_book B B'.
Lemma perm_args : forall d id, Permutation (args_of B d id) (args_of B' d id).
Proof.
  induction d as [|d IH]; intros id; [constructor|]. cbn [args_of]. pose proof (book_nth B B' id S) as K. destruct (nth_error B id) as [x|], (nth_error B' id) as [x'|]; try (destruct K); try constructor.
  destruct H0 as (Ew & Pc & Pu). unfold emitted. rewrite Ew. apply Permutation_app; [apply perm_flat; [apply Permutation_refl|intros w; apply IH]|]. apply Permutation_app.
  - apply perm_flat; [exact Pc|]. intros [c|c o i]; [apply Permutation_refl|apply IH].
  - apply perm_flat; [exact Pu|exact IH].
Qed.
Lemma perm_members : forall d id, Permutation (members B d id) (members B' d id).
Proof.
  induction d as [|d IH]; intros id; [constructor|]. cbn [members]. pose proof (book_nth B B' id S) as K. destruct (nth_error B id) as [x|], (nth_error B' id) as [x'|]; try contradiction; try constructor.
  apply perm_flat; [apply perm_refs; exact K|exact IH].
Qed.
Lemma once_same : forall d id, used_once B d id -> used_once B' d id.
Proof.
  intros d id H. unfold used_once in *. eapply Permutation_NoDup; [|exact H]. apply perm_filter; [|apply perm_members].
  intros i. unfold changes. pose proof (book_nth B B' i S) as K. destruct (nth_error B i) as [x|], (nth_error B' i) as [x'|]; try contradiction; [|reflexivity]. destruct K as (-> & _). reflexivity.
Qed.
Lemma complete_same : forall d id, complete B d id -> complete B' d id.
Proof.
  induction d as [|d IH]; intros id H; [exact H|]. cbn [complete] in *. pose proof (book_nth B B' id S) as K. destruct (nth_error B id) as [x|], (nth_error B' id) as [x'|]; try contradiction.
  intros j Hj. apply IH, H. apply (Permutation_in j (Permutation_sym (perm_refs x x' K))). exact Hj.
Qed.
Lemma named_same : Forall xnamed B -> Forall xnamed B'.
Proof.
  clear -S. induction S as [|x x' B0 B0' H F IH]; intros N; [constructor|]. inversion N as [|? ? Nx N']; subst. constructor; [|apply IH; assumption].
  destruct H as (Es & Ew & Pc & _), Nx as (N1 & N2 & N3 & N4). unfold xnamed. rewrite Es, Ew. repeat (split; [assumption|]). eapply Permutation_Forall; [exact Pc|exact N4].
Qed.
Lemma lean_book : shuffled_book (map lean B) (map lean B').
Proof.
  clear -S. unfold shuffled_book in *. induction S as [|x x' B0 B0' H F IH]; cbn [map]; [constructor|]. constructor; [|exact (IH F)]. destruct H as (H1 & H2 & H3 & H4). unfold shuffled, lean, emitted. cbn. rewrite H1, H2. auto.
Qed.
Lemma names_shuffled : forall D : database, forall id, names_of B id = names_of B' id.
Proof. intros D id. unfold names_of. pose proof (book_nth B B' id S) as K. destruct (nth_error B id) as [x|], (nth_error B' id) as [x'|]; try contradiction; [|reflexivity]. destruct K as (-> & _). reflexivity. Qed.
End Books.

Lemma where_perm : forall D m ts ts' a, Permutation ts ts' -> answers_where D m ts a -> answers_where D m ts' a.
Proof.
  intros D m ts ts' a P (s & H1 & H2 & H3). exists s. assert (W : where_rows D m ts' = where_rows D m ts).
  { unfold where_rows. apply filter_ext. intros e. symmetry. apply forallb_perm. exact P. }
  assert (R : results_where D m ts' = results_where D m ts) by (unfold results_where, groups_of; rewrite W; reflexivity). rewrite R. auto.
Qed.
Lemma together_perm : forall D l us us' r, Permutation us us' -> together D l us r -> together D l us' r.
Proof.
  intros D l us us' r P H. unfold together in *. destruct us as [|u us].
  - apply Permutation_nil in P. subst us'. exact H.
  - destruct us' as [|u' us']; [apply Permutation_sym, Permutation_nil in P; discriminate|]. destruct H as [N H]. split; [exact N|]. intros v. rewrite H.
    split; intros (a & [Ha|Ha] & Hv); exists a; (split; [|exact Hv]); try (left; exact Ha); right; [apply (Permutation_in a P)|apply (Permutation_in a (Permutation_sym P))]; exact Ha.
Qed.
Lemma answer_shuffled : forall D sub B B', shuffled_book B B' -> forall d E id l, answer D sub B d E id l -> answer D sub B' d E id l.
Proof.
  intros D sub B B' S. induction d as [|d IH]; intros E id l H; [exact H|]. cbn [answer] in *. pose proof (book_nth B B' id S) as K.
  destruct (nth_error B id) as [x|], (nth_error B' id) as [x'|]; try contradiction. destruct K as (Es & Ew & Pc & Pu). destruct H as (E' & ts & a & us & H1 & H2 & H3 & H4 & H5).
  assert (W : forall ws E0, with_tables D B (answer D sub B d) ws E0 E' -> with_tables D B' (answer D sub B' d) ws E0 E').
  { induction ws as [|w ws IHw]; intros E0 Hw; [exact Hw|]. cbn [with_tables] in *. destruct Hw as (b & Hb & Hw). exists b. split; [apply IH; exact Hb|]. rewrite <- (names_shuffled B B' S D). apply IHw. exact Hw. }
  assert (T : Forall2 (test_of D sub (answer D sub B' d E')) (x_conds x) ts).
  { eapply f2_impl; [|exact H2]. intros c t. destruct c as [c|c o i]; [exact (fun h => h)|]. cbn [test_of]. intros (b & Hb & ->). exists b. split; [apply IH; exact Hb|reflexivity]. }
  assert (U : Forall2 (answer D sub B' d E') (x_unions x) us) by (eapply f2_impl; [|exact H4]; intros i b; apply IH).
  destruct (Permutation_Forall2 Pc T) as (ts' & Pt & T'). destruct (Permutation_Forall2 Pu U) as (us' & Pus & U').
  exists E', ts', a, us'. rewrite Es, Ew. split; [apply W; exact H1|]. split; [exact T'|]. split; [exact (where_perm (with_rows D E') (x_stmt x) ts ts' a Pt H3)|]. split; [exact U'|].
  apply (together_perm D _ us us' l Pus). exact H5.
Qed.
Lemma answers_shuffled : forall E sub B B' d id rows, shuffled_book B B' -> book_answers E sub B d id rows <-> book_answers E sub B' d id rows.
Proof. intros E sub B B' d id rows S. unfold book_answers. split; apply answer_shuffled; [exact S|apply book_sym; exact S]. Qed.

Theorem shuffle_question : forall B B' oss oss' style d id, style <> style_dollar -> book oss B -> book oss' B' -> Forall xnamed B -> complete B d id -> used_once B d id -> shuffled_book B B' ->
  exists qs qs', made oss qs /\ made oss' qs' /\ forall n, size_of B d id <= n -> size_of B' d id <= n -> exists s args s' args',
    fst (build_query n style qs (query id)) = ROk (s, args) /\ fst (build_query n style qs' (query id)) = ROk (s', args') /\
    forall E sub_test rows, executes_all E sub_test args s rows <-> executes_all E sub_test args' s' rows.
Proof.
  intros B B' oss oss' style d id Hs Hb Hb' N C U S. destruct (nexec_question B oss style d id Hs Hb N C U) as (qs & A & H).
  destruct (nexec_question B' oss' style d id Hs Hb' (named_same B B' S N) (complete_same B B' S d id C) (once_same B B' S d id U)) as (qs' & A' & H').
  exists qs, qs'. split; [exact A|]. split; [exact A'|]. intros n Hn Hn'. destruct (H n Hn) as (s & args & X & R). destruct (H' n Hn') as (s' & args' & X' & R').
  exists s, args, s', args'. split; [exact X|]. split; [exact X'|]. intros E sub rows. rewrite R, R'. apply answers_shuffled, lean_book, S.
Qed.
Theorem shuffle_dollar : forall B B' oss oss' d id, book oss B -> book oss' B' -> Forall xnamed B -> complete B d id -> used_once B d id -> shuffled_book B B' -> forallb hashable (args_of B d id) = true ->
  exists qs qs', made oss qs /\ made oss' qs' /\ forall n, size_of B d id <= n -> size_of B' d id <= n -> exists s args s' args',
    fst (build_query n style_dollar qs (query id)) = ROk (s, args) /\ fst (build_query n style_dollar qs' (query id)) = ROk (s', args') /\
    forall E sub_test rows, by_value E -> executes_all E sub_test args s rows <-> executes_all E sub_test args' s' rows.
Proof.
  intros B B' oss oss' d id Hb Hb' N C U S Hh. destruct (nexec_dollar B oss d id Hb N C U Hh) as (qs & A & H).
  destruct (nexec_dollar B' oss' d id Hb' (named_same B B' S N) (complete_same B B' S d id C) (once_same B B' S d id U) (perm_forallb _ _ _ _ (perm_args B B' S d id) Hh)) as (qs' & A' & H').
  exists qs, qs'. split; [exact A|]. split; [exact A'|]. intros n Hn Hn'. destruct (H n Hn) as (s & args & X & R). destruct (H' n Hn') as (s' & args' & X' & R').
  exists s, args, s', args'. split; [exact X|]. split; [exact X'|]. intros E sub rows Hv. rewrite (R E sub rows Hv), (R' E sub rows Hv). apply answers_shuffled, lean_book, S.
Qed.
