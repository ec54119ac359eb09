(** Proofs for Prop_reunite.v: uniting a query repeatedly. *)
From Coq Require Import Strings.String Strings.Ascii NArith ZArith List Bool Lia Sorting.Permutation Sorting.Sorted.
From Verif Require Import GoStr GoNum Syntax Value Util Model Sqlf Sqlb Spec_syntax RefSem Spec_build
  Spec_util Spec_eval Spec_query Spec_sql Spec_nest Spec_interp Spec_answer Spec_views Nexec_proofs Shuffle_proofs Spec_sqltok Spec_read Spec_nread Spec_exec Spec_nexec Spec_reunite.
Import ListNotations.
Open Scope string_scope.
Open Scope list_scope.

Lemma reunited_nth : forall B B' id, reunited_book B B' ->
  match nth_error B id, nth_error B' id with Some x, Some x' => reunited x x' | None, None => True | _, _ => False end.
Proof. intros B B' id F. revert id. induction F as [|x x' B B' H F IH]; intros [|id]; cbn [nth_error]; auto. apply IH. Qed.
Lemma refs_reunited : forall x x', reunited x x' -> forall i, In i (refs x) <-> In i (refs x').
Proof. intros x x' (_ & Ew & Ec & _ & Hu) i. unfold refs, emitted. rewrite Ew, Ec, !in_app_iff, (Hu i). tauto. Qed.
Section Books.
Variables B B' : list xstmt.
Hypothesis S : reunited_book B B'.
Lemma complete_reunited : forall d id, complete B d id -> complete B' d id.
Proof.
  induction d as [|d IH]; intros id H; [exact H|]. cbn [complete] in *. pose proof (reunited_nth B B' id S) as K. destruct (nth_error B id) as [x|], (nth_error B' id) as [x'|]; try contradiction.
  intros j Hj. apply IH, H. apply (refs_reunited x x' K). exact Hj.
Qed.
Lemma named_reunited : Forall xnamed B -> Forall xnamed B'.
Proof.
  clear -S. induction S as [|x x' B0 B0' H F IH]; intros N; [constructor|]. inversion N as [|? ? Nx N']; subst. constructor; [|apply IH; assumption].
  destruct H as (Es & Ew & Ec & _), Nx as (N1 & N2 & N3 & N4). unfold xnamed. rewrite Es, Ew, Ec. repeat (split; [assumption|]). exact N4.
Qed.
Lemma lean_reunited : reunited_book (map lean B) (map lean B').
Proof.
  clear -S. unfold reunited_book in *. induction S as [|x x' B0 B0' H F IH]; cbn [map]; [constructor|]. constructor; [|exact (IH F)]. destruct H as (H1 & H2 & H3 & H4 & H5). unfold reunited, lean, emitted. cbn. rewrite H1, H2. auto.
Qed.
Lemma names_reunited : forall id, names_of B id = names_of B' id.
Proof. intros id. unfold names_of. pose proof (reunited_nth B B' id S) as K. destruct (nth_error B id) as [x|], (nth_error B' id) as [x'|]; try contradiction; [|reflexivity]. destruct K as (-> & _). reflexivity. Qed.
Lemma args_reunited : forall d id v, In v (args_of B' d id) -> In v (args_of B d id).
Proof.
  induction d as [|d IH]; intros id v H; [exact H|]. cbn [args_of] in *. pose proof (reunited_nth B B' id S) as K. destruct (nth_error B id) as [x|], (nth_error B' id) as [x'|]; try contradiction.
  destruct K as (_ & Ew & Ec & _ & Hu). unfold emitted in *. rewrite Ew, Ec in H. rewrite !in_app_iff, !in_flat_map in *. destruct H as [(w & I & H)|[(c & I & H)|(i & I & H)]].
  - left. exists w. split; [exact I|apply IH; exact H].
  - right. left. exists c. split; [exact I|]. destruct c as [c|c o j]; [exact H|apply IH; exact H].
  - right. right. exists i. split; [apply Hu; exact I|apply IH; exact H].
Qed.
Lemma hash_reunited : forall d id, forallb hashable (args_of B d id) = true -> forallb hashable (args_of B' d id) = true.
Proof. intros d id H. rewrite forallb_forall in *. intros v Hv. apply H, args_reunited, Hv. Qed.
End Books.

Lemma f2_function : forall A (d : A) (R : nat -> A -> Prop) l us, NoDup l -> Forall2 R l us -> exists f, (forall i, In i l -> R i (f i)) /\ us = map f l.
Proof.
  intros A d R l us N F. induction F as [|i a l us H F IH]; [exists (fun _ => d); split; [intros i []|reflexivity]|]. inversion N as [|? ? Ni N']; subst. destruct (IH N') as (f & Hf & ->).
  exists (fun j => if Nat.eqb j i then a else f j). split.
  - intros j [<-|Hj]; [rewrite Nat.eqb_refl; exact H|]. destruct (Nat.eqb j i) eqn:E; [apply Nat.eqb_eq in E; subst j; contradiction|apply Hf; exact Hj].
  - cbn [map]. rewrite Nat.eqb_refl. f_equal. apply map_ext_in. intros j Hj. destruct (Nat.eqb j i) eqn:E; [apply Nat.eqb_eq in E; subst j; contradiction|reflexivity].
Qed.
Lemma f2_of_map : forall A C (R : A -> C -> Prop) f l, (forall i, In i l -> R i (f i)) -> Forall2 R l (map f l).
Proof. intros A C R f l H. induction l as [|i l IH]; constructor; [apply H; left; reflexivity|apply IH; intros j Hj; apply H; right; exact Hj]. Qed.
Lemma f2_right : forall A C (R : A -> C -> Prop) l us, Forall2 R l us -> forall a, In a us -> exists i, In i l /\ R i a.
Proof. intros A C R l us F. induction F as [|i a l us H F IH]; intros b [].
  - subst b. exists i. split; [left; reflexivity|exact H].
  - destruct (IH b H0) as (j & I & Rj). exists j. split; [right; exact I|exact Rj].
Qed.
Lemma f2_left : forall A C (R : A -> C -> Prop) l us, Forall2 R l us -> forall i, In i l -> exists a, In a us /\ R i a.
Proof. intros A C R l us F. induction F as [|i a l us H F IH]; intros j [].
  - subst j. exists a. split; [left; reflexivity|exact H].
  - destruct (IH j H0) as (b & I & Rb). exists b. split; [right; exact I|exact Rb].
Qed.
Lemma f2_part : forall A C (R : A -> C -> Prop) l' us', Forall2 R l' us' -> forall l, incl l l' -> exists us, Forall2 R l us /\ incl us us'.
Proof.
  intros A C R l' us' F l. induction l as [|i l IH]; intros I; [exists []; split; [constructor|intros a []]|].
  destruct (IH (fun j Hj => I j (or_intror Hj))) as (us & Fu & Iu). destruct (f2_left _ _ _ _ _ F i (I i (or_introl eq_refl))) as (a & Ia & Ra).
  exists (a :: us). split; [constructor; assumption|]. intros b [<-|Hb]; [exact Ia|apply Iu; exact Hb].
Qed.
(** Lists of united rows with the same rows in them. *)
Lemma together_rows : forall D l us us' r, (us = [] <-> us' = []) -> (forall v, (exists a, In a us /\ In v a) <-> (exists a, In a us' /\ In v a)) -> together D l us r -> together D l us' r.
Proof.
  intros D l us us' r E H T. unfold together in *. destruct us as [|u us], us' as [|u' us'].
  - exact T.
  - assert (K : u' :: us' = []) by (apply E; reflexivity). discriminate K.
  - assert (K : u :: us = []) by (apply E; reflexivity). discriminate K.
  - destruct T as [N T]. split; [exact N|]. intros v. rewrite T. specialize (H v).
    split; intros (a & [Ha|Ha] & Hv); try (exists a; split; [left; exact Ha|exact Hv]).
    + destruct (proj1 H (ex_intro _ a (conj Ha Hv))) as (b & Hb & Hw). exists b. split; [right; exact Hb|exact Hw].
    + destruct (proj2 H (ex_intro _ a (conj Ha Hv))) as (b & Hb & Hw). exists b. split; [right; exact Hb|exact Hw].
Qed.
Lemma same_empty : forall (l l' : list nat), (forall i, In i l <-> In i l') -> (l = [] <-> l' = []).
Proof.
  intros [|i l] [|i' l'] H; split; intros E; try reflexivity; try discriminate E.
  - destruct (proj2 (H i') (or_introl eq_refl)).
  - destruct (proj1 (H i) (or_introl eq_refl)).
Qed.
Lemma map_empty : forall A C (f : A -> C) l, map f l = [] <-> l = [].
Proof. intros A C f [|x l]; split; intros E; try reflexivity; discriminate E. Qed.
Lemma f2_empty : forall A C (R : A -> C -> Prop) l us, Forall2 R l us -> (us = [] <-> l = []).
Proof. intros A C R l us F. destruct F; split; intros E; try reflexivity; discriminate E. Qed.

Section Answers.
Variable D : database.
Variable sub : string -> d_val D -> list (list (d_val D)) -> bool.
Variables B B' : list xstmt.
Hypothesis S : reunited_book B B'.
Lemma answer_repeats : forall d E id l, answer D sub B d E id l -> answer D sub B' d E id l.
Proof.
  induction d as [|d IH]; intros E id l H; [exact H|]. cbn [answer] in *. pose proof (reunited_nth B B' id S) as K.
  destruct (nth_error B id) as [x|], (nth_error B' id) as [x'|]; try contradiction. destruct K as (Es & Ew & Ec & N & Hu). destruct H as (E' & ts & a & us & H1 & H2 & H3 & H4 & H5).
  assert (W : forall ws E0, with_tables D B (answer D sub B d) ws E0 E' -> with_tables D B' (answer D sub B' d) ws E0 E').
  { induction ws as [|w ws IHw]; intros E0 Hw; [exact Hw|]. cbn [with_tables] in *. destruct Hw as (b & Hb & Hw). exists b. split; [apply IH; exact Hb|]. rewrite <- (names_reunited B B' S). apply IHw. exact Hw. }
  assert (T : Forall2 (test_of D sub (answer D sub B' d E')) (x_conds x) ts).
  { eapply f2_impl; [|exact H2]. intros c t. destruct c as [c|c o i]; [exact (fun h => h)|]. cbn [test_of]. intros (b & Hb & ->). exists b. split; [apply IH; exact Hb|reflexivity]. }
  assert (U : Forall2 (answer D sub B' d E') (x_unions x) us) by (eapply f2_impl; [|exact H4]; intros i b; apply IH).
  destruct (f2_function _ [] _ _ _ N U) as (f & Hf & ->).
  exists E', ts, a, (map f (x_unions x')). rewrite Es, Ew, Ec. split; [apply W; exact H1|]. split; [exact T|]. split; [exact H3|].
  split; [apply f2_of_map; intros i Hi; apply Hf, Hu, Hi|]. apply (together_rows D _ (map f (x_unions x)) (map f (x_unions x')) l); [|intros v|exact H5].
  - rewrite !map_empty. apply same_empty. exact Hu.
  - split; intros (b & Hb & Hv); exists b; (split; [|exact Hv]); apply in_map_iff in Hb; destruct Hb as (i & <- & Hi); apply in_map, Hu, Hi.
Qed.
Hypothesis St : forall x i d T a a', In x B -> In i (x_unions x) -> answer D sub B d T i a -> answer D sub B d T i a' -> forall v, In v a <-> In v a'.
Lemma answer_repeated : forall d E id l, answer D sub B' d E id l -> answer D sub B d E id l.
Proof.
  induction d as [|d IH]; intros E id l H; [exact H|]. cbn [answer] in *. pose proof (reunited_nth B B' id S) as K.
  destruct (nth_error B id) as [x|] eqn:Q, (nth_error B' id) as [x'|]; try contradiction. destruct K as (Es & Ew & Ec & N & Hu). destruct H as (E' & ts & a & us & H1 & H2 & H3 & H4 & H5).
  rewrite Es in H3, H5. rewrite Ew in H1. rewrite Ec in H2.
  assert (W : forall ws E0, with_tables D B' (answer D sub B' d) ws E0 E' -> with_tables D B (answer D sub B d) ws E0 E').
  { induction ws as [|w ws IHw]; intros E0 Hw; [exact Hw|]. cbn [with_tables] in *. destruct Hw as (b & Hb & Hw). exists b. split; [apply IH; exact Hb|]. rewrite (names_reunited B B' S). apply IHw. exact Hw. }
  assert (T : Forall2 (test_of D sub (answer D sub B d E')) (x_conds x) ts).
  { eapply f2_impl; [|exact H2]. intros c t. destruct c as [c|c o i]; [exact (fun h => h)|]. cbn [test_of]. intros (b & Hb & ->). exists b. split; [apply IH; exact Hb|reflexivity]. }
  assert (U : Forall2 (answer D sub B d E') (x_unions x') us) by (eapply f2_impl; [|exact H4]; intros i b; apply IH).
  destruct (f2_part _ _ _ _ _ U (x_unions x) (fun i Hi => proj1 (Hu i) Hi)) as (us0 & U0 & I0).
  exists E', ts, a, us0. split; [apply W; exact H1|]. split; [exact T|]. split; [exact H3|]. split; [exact U0|].
  apply (together_rows D _ us us0 l); [|intros v|exact H5].
  - rewrite (f2_empty _ _ _ _ _ U), (f2_empty _ _ _ _ _ U0). apply same_empty. intros i. symmetry. apply Hu.
  - split; intros (b & Hb & Hv); [|exists b; split; [apply I0; exact Hb|exact Hv]].
    destruct (f2_right _ _ _ _ _ U b Hb) as (i & Hi & Ri). apply Hu in Hi. destruct (f2_left _ _ _ _ _ U0 i Hi) as (c & Hc & Rc). exists c. split; [exact Hc|].
    apply (St x i d E' b c (nth_error_In _ _ Q) Hi Ri Rc). exact Hv.
Qed.
End Answers.

Theorem reunite_question : forall B B' oss oss' style d id, style <> style_dollar -> book oss B -> book oss' B' -> Forall xnamed B -> complete B d id -> used_once B d id -> used_once B' d id -> reunited_book B B' ->
  exists qs qs', made oss qs /\ made oss' qs' /\ forall n, size_of B d id <= n -> size_of B' d id <= n -> exists s args s' args',
    fst (build_query n style qs (query id)) = ROk (s, args) /\ fst (build_query n style qs' (query id)) = ROk (s', args') /\
    forall E sub_test rows, (executes_all E sub_test args s rows -> executes_all E sub_test args' s' rows) /\
      (settled E sub_test (map lean B) -> executes_all E sub_test args' s' rows -> executes_all E sub_test args s rows).
Proof.
  intros B B' oss oss' style d id Hs Hb Hb' N C U U' S. destruct (nexec_question B oss style d id Hs Hb N C U) as (qs & A & H).
  destruct (nexec_question B' oss' style d id Hs Hb' (named_reunited B B' S N) (complete_reunited B B' S d id C) U') as (qs' & A' & H').
  exists qs, qs'. split; [exact A|]. split; [exact A'|]. intros n Hn Hn'. destruct (H n Hn) as (s & args & X & R). destruct (H' n Hn') as (s' & args' & X' & R').
  exists s, args, s', args'. split; [exact X|]. split; [exact X'|]. intros E sub rows. rewrite R, R'. unfold book_answers. split.
  - apply answer_repeats, lean_reunited, S.
  - intros St. apply (answer_repeated _ _ _ _ (lean_reunited B B' S)). exact St.
Qed.
Theorem reunite_dollar : forall B B' oss oss' d id, book oss B -> book oss' B' -> Forall xnamed B -> complete B d id -> used_once B d id -> used_once B' d id -> reunited_book B B' -> forallb hashable (args_of B d id) = true ->
  exists qs qs', made oss qs /\ made oss' qs' /\ forall n, size_of B d id <= n -> size_of B' d id <= n -> exists s args s' args',
    fst (build_query n style_dollar qs (query id)) = ROk (s, args) /\ fst (build_query n style_dollar qs' (query id)) = ROk (s', args') /\
    forall E sub_test rows, by_value E -> (executes_all E sub_test args s rows -> executes_all E sub_test args' s' rows) /\
      (settled E sub_test (map lean B) -> executes_all E sub_test args' s' rows -> executes_all E sub_test args s rows).
Proof.
  intros B B' oss oss' d id Hb Hb' N C U U' S Hh. destruct (nexec_dollar B oss d id Hb N C U Hh) as (qs & A & H).
  destruct (nexec_dollar B' oss' d id Hb' (named_reunited B B' S N) (complete_reunited B B' S d id C) U' (hash_reunited B B' S d id Hh)) as (qs' & A' & H').
  exists qs, qs'. split; [exact A|]. split; [exact A'|]. intros n Hn Hn'. destruct (H n Hn) as (s & args & X & R). destruct (H' n Hn') as (s' & args' & X' & R').
  exists s, args, s', args'. split; [exact X|]. split; [exact X'|]. intros E sub rows Hv. rewrite (R E sub rows Hv), (R' E sub rows Hv). unfold book_answers. split.
  - apply answer_repeats, lean_reunited, S.
  - intros St. apply (answer_repeated _ _ _ _ (lean_reunited B B' S)). exact St.
Qed.
(** United queries whose answers all have the same rows. *)
Lemma nth_lean' : forall B i, nth_error (map lean B) i = option_map lean (nth_error B i).
Proof. intros B. induction B as [|x B IH]; intros [|i]; cbn [map nth_error option_map]; auto. Qed.
Lemma plain_tests : forall D sub B d E cs ts, Forall (fun c => match c with Plain _ => True | Sub _ _ _ => False end) cs -> Forall2 (test_of D sub (answer D sub B d E)) cs ts ->
  ts = map (fun c => match c with Plain x => (cond_col x, d_holds D x) | Sub c _ _ => (c, fun _ => true) end) cs.
Proof.
  intros D sub B d E cs ts F H. induction H as [|c t cs ts H G IH]; [reflexivity|]. inversion F as [|? ? Fc F']; subst. cbn [map]. rewrite (IH F'). f_equal. destruct c as [x|c o i]; [exact H|destruct Fc].
Qed.
Theorem settled_plain : forall E sub_test B, plain_unions B -> settled E sub_test (map lean B).
Proof.
  intros E sub_test B P x i d T a a' Hx Hi. set (sub := fun o => sub_test (tokens false o)).
  destruct d as [|d]; [intros []|]. cbn [answer]. rewrite nth_lean'. destruct (nth_error B i) as [y|] eqn:Q; [|intros []]. cbn [option_map].
  apply in_map_iff in Hx. destruct Hx as (x0 & <- & Hx). cbn [lean x_unions] in Hi. destruct (P x0 i y Hx Hi Q) as (El & Ef & Ew & Eu & Fc).
  unfold lean. unfold emitted. rewrite Ew, Eu. cbn [x_stmt x_withs x_conds x_unions filter].
  assert (K : forall l, (exists E' ts b us, with_tables (database_of E) (map lean B) (answer (database_of E) sub (map lean B) d) [] T E' /\
      Forall2 (test_of (database_of E) sub (answer (database_of E) sub (map lean B) d E')) (x_conds y) ts /\
      answers_where (with_rows (database_of E) E') (trimmed (x_stmt y)) ts b /\ Forall2 (answer (database_of E) sub (map lean B) d E') [] us /\
      together (database_of E) (map (out_row (database_of E) (trimmed (x_stmt y))) b) us l) ->
    forall v, In v l <-> In v (map (out_row (database_of E) (trimmed (x_stmt y))) (results_where (with_rows (database_of E) T) (trimmed (x_stmt y))
      (map (fun c => match c with Plain x => (cond_col x, d_holds (database_of E) x) | Sub c _ _ => (c, fun _ => true) end) (x_conds y))))).
  { intros l (E' & ts & b & us & W & Ts & (s & R & _ & C) & U & G) v. cbn [with_tables] in W. subst E'. inversion U; subst us. cbn [together] in G. subst l.
    apply plain_tests in Ts; [|exact Fc]. subst ts.
    assert (Cb : cut (trimmed (x_stmt y)) s = s). { unfold cut. cbn [trimmed m_limit m_offset]. rewrite El, Ef. reflexivity. }
    subst b. rewrite Cb. assert (M : forall r, In r s <-> In r (results_where (with_rows (database_of E) T) (trimmed (x_stmt y))
      (map (fun c => match c with Plain x => (cond_col x, d_holds (database_of E) x) | Sub c _ _ => (c, fun _ => true) end) (x_conds y)))).
    { intros r. destruct (m_distinct (trimmed (x_stmt y))); [apply R|]. split; [apply (Permutation_in r R)|apply (Permutation_in r (Permutation_sym R))]. }
    rewrite !in_map_iff. split; intros (r & Er & Hr); exists r; (split; [exact Er|apply M; exact Hr]). }
  intros H H' v. rewrite (K a H v), (K a' H' v). reflexivity.
Qed.
