(** Proofs for Prop_undistinct.v: Distinct in queries that are united. *)
From Coq Require Import Strings.String Strings.Ascii NArith ZArith List Bool Lia Sorting.Permutation Sorting.Sorted.
From Verif Require Import GoStr GoNum Syntax Value Util Model Sqlf Sqlb Spec_syntax RefSem Spec_build
  Spec_util Spec_eval Spec_query Spec_sql Spec_nest Spec_interp Spec_answer Spec_views Views_proofs Nexec_proofs Shuffle_proofs Reunite_proofs Spec_sqltok Spec_read Spec_nread Spec_exec Spec_nexec Spec_undistinct.
Import ListNotations.
Open Scope string_scope.
Open Scope list_scope.

Lemma redistinct_nth : forall B B' id, Forall2 redistinct B B' ->
  match nth_error B id, nth_error B' id with Some x, Some x' => redistinct x x' | None, None => True | _, _ => False end.
Proof. intros B B' id F. revert id. induction F as [|x x' B B' H F IH]; intros [|id]; cbn [nth_error]; auto. apply IH. Qed.
Lemma refs_redistinct : forall x x', redistinct x x' -> refs x' = refs x.
Proof. intros x x' (Ew & Ec & Eu & _). unfold refs, emitted. rewrite Ew, Ec, Eu. reflexivity. Qed.
Lemma complete_redistinct : forall B B', Forall2 redistinct B B' -> forall d id, complete B d id -> complete B' d id.
Proof.
  intros B B' S. induction d as [|d IH]; intros id H; [exact H|]. cbn [complete] in *. pose proof (redistinct_nth B B' id S) as K. destruct (nth_error B id) as [x|], (nth_error B' id) as [x'|]; try contradiction.
  intros j Hj. apply IH, H. rewrite <- (refs_redistinct x x' K). exact Hj.
Qed.
Lemma args_redistinct : forall B B', Forall2 redistinct B B' -> forall d id, args_of B' d id = args_of B d id.
Proof.
  intros B B' S. induction d as [|d IH]; intros id; [reflexivity|]. cbn [args_of]. pose proof (redistinct_nth B B' id S) as K. destruct (nth_error B id) as [x|], (nth_error B' id) as [x'|]; try contradiction; [|reflexivity].
  destruct K as (Ew & Ec & Eu & _). unfold emitted. rewrite Ew, Ec, Eu. f_equal; [|f_equal]; apply flat_map_ext; intros w; [apply IH| |apply IH]. destruct w as [w|c o i]; [reflexivity|apply IH].
Qed.

(** The same but for Distinct or the orders, with the same joins. *)
Definition free (m m' : stmt) : Prop :=
  m_cols m' = m_cols m /\ m_main m' = m_main m /\ m_joins m' = m_joins m /\ m_groups m' = m_groups m /\
  (m_orders m = [] /\ m_orders m' = [] \/ m_distinct m = false /\ m_distinct m' = false) /\ m_limit m = 0%Z /\ m_limit m' = 0%Z /\ m_offset m = 0%Z /\ m_offset m' = 0%Z.
Lemma free_trimmed : forall m m', freely_distinct m m' \/ freely_ordered m m' -> free (trimmed m) (trimmed m').
Proof.
  intros m m' [(F1 & F2 & F3 & F4 & F5 & F6 & F)|(F5 & F6 & F1 & F2 & F3 & F4 & F)]; (split; [exact F1|split; [exact F2|split; [exact F3|split; [exact F4|split; [|exact F]]]]]); [left|right]; split; assumption.
Qed.
Lemma free_groups : forall D m m' ts, free m m' -> groups_of D m' ts = groups_of D m ts.
Proof. intros D m m' ts (Ec & Em & Ej & Eg & _). unfold groups_of, where_rows, from_rows. rewrite Em, Ej, Eg. reflexivity. Qed.
Lemma free_rows : forall D m ts a, m_limit m = 0%Z -> m_offset m = 0%Z -> answers_where D m ts a -> forall r, In r a <-> In r (results_where D m ts).
Proof.
  intros D m ts a El Eo (s & R & _ & C) r. assert (K : cut m s = s) by (unfold cut; rewrite El, Eo; reflexivity). rewrite K in C. subst a.
  destruct (m_distinct m); [apply R|]. split; [apply (Permutation_in r R)|apply (Permutation_in r (Permutation_sym R))].
Qed.
Lemma free_out : forall D m m' ts, free m m' ->
  map (out_row D m') (results_where D m' ts) = map (out_row D m) (results_where D m ts).
Proof.
  intros D m m' ts F. unfold results_where. rewrite (free_groups D m m' ts F), !map_map. apply map_ext. intros g. destruct F as (Ec & _ & _ & _ & Eo & _). unfold out_row. cbn [fst snd]. rewrite Ec.
  destruct Eo as [(-> & ->)|(-> & ->)]; [|reflexivity]. destruct (m_distinct m), (m_distinct m'); reflexivity.
Qed.

Section Answers.
Variable D : database.
Variable sub : string -> d_val D -> list (list (d_val D)) -> bool.
Hypothesis O : orderly D.
Variables B B' : list xstmt.
Definition rel (x x' : xstmt) : Prop := x_withs x' = x_withs x /\ x_conds x' = x_conds x /\ x_unions x' = x_unions x /\ (x_stmt x' = x_stmt x \/ free (x_stmt x) (x_stmt x')).
Hypothesis S : forall id, match nth_error B id, nth_error B' id with Some x, Some x' => rel x x' | None, None => True | _, _ => False end.
Hypothesis Kw : forall x i, In x B -> In i (map w_id (x_withs x)) -> kept B B' i.
Hypothesis Kc : forall x i c o, In x B -> In (Sub c o i) (x_conds x) -> kept B B' i.
Definition alike (l l' : list (list (d_val D))) : Prop := forall v, In v l <-> In v l'.
Lemma free_names : forall id, names_of B' id = names_of B id.
Proof.
  intros id. unfold names_of. pose proof (S id) as K. destruct (nth_error B id) as [x|], (nth_error B' id) as [x'|]; try contradiction; [|reflexivity].
  destruct K as (_ & _ & _ & [-> | (Ec & _ & _ & _ & Eo & _)]); [reflexivity|]. unfold out_names. rewrite Ec.
  destruct Eo as [(-> & ->)|(-> & ->)]; [|reflexivity]. destruct (m_distinct (x_stmt x)), (m_distinct (x_stmt x')); reflexivity.
Qed.
Lemma together_alike : forall l l' us us' r, us <> [] -> alike l l' -> Forall2 alike us us' -> together D l us r -> together D l' us' r.
Proof.
  intros l l' us us' r N A F T. unfold together in *. destruct F as [|u u' us us' Hu F]; [contradiction N; reflexivity|]. destruct T as [ND T]. split; [exact ND|]. intros v. rewrite T.
  assert (G : Forall2 alike (l :: u :: us) (l' :: u' :: us')) by (constructor; [exact A|constructor; assumption]). clear -G.
  generalize dependent (l' :: u' :: us'). generalize (l :: u :: us). intros p q G. induction G as [|a b p q H G IH]; [split; intros (a & [] & _)|]. split; intros (c & [<-|Hc] & Hv).
  - exists b. split; [left; reflexivity|apply H; exact Hv].
  - destruct (proj1 IH (ex_intro _ c (conj Hc Hv))) as (e & He & Hw). exists e. split; [right; exact He|exact Hw].
  - exists a. split; [left; reflexivity|apply H; exact Hv].
  - destruct (proj2 IH (ex_intro _ c (conj Hc Hv))) as (e & He & Hw). exists e. split; [right; exact He|exact Hw].
Qed.
Lemma f2_alike : forall (P Q : nat -> list (list (d_val D)) -> Prop) l us, (forall i b, P i b -> exists b', Q i b' /\ alike b b') -> Forall2 P l us -> exists us', Forall2 Q l us' /\ Forall2 alike us us'.
Proof.
  intros P Q l us H F. induction F as [|i b l us Hp F (us' & F1 & F2)]; [exists []; split; constructor|]. destruct (H i b Hp) as (b' & Hq & A). exists (b' :: us'). split; constructor; assumption.
Qed.
Lemma answer_free : forall d E id l, answer D sub B d E id l -> (kept B B' id -> answer D sub B' d E id l) /\ exists l', answer D sub B' d E id l' /\ alike l l'.
Proof.
  induction d as [|d IH]; intros E id l H; [destruct H|]. cbn [answer] in *. unfold kept. pose proof (S id) as K.
  destruct (nth_error B id) as [x|] eqn:Q; [|destruct H]. destruct (nth_error B' id) as [x'|]; [|contradiction]. apply nth_error_In in Q.
  destruct K as (Ew & Ec & Eu & Es). destruct H as (E' & ts & a & us & H1 & H2 & H3 & H4 & H5). rewrite Ew, Ec, Eu.
  assert (W : forall ws E0, (forall i, In i (map w_id ws) -> kept B B' i) -> with_tables D B (answer D sub B d) ws E0 E' -> with_tables D B' (answer D sub B' d) ws E0 E').
  { induction ws as [|w ws IHw]; intros E0 Hk Hw; [exact Hw|]. cbn [with_tables] in *. destruct Hw as (b & Hb & Hw). exists b.
    split; [apply (proj1 (IH _ _ _ Hb)), Hk; left; reflexivity|]. rewrite free_names. apply IHw; [intros i Hi; apply Hk; right; exact Hi|exact Hw]. }
  specialize (W (x_withs x) E (fun i Hi => Kw x i Q Hi) H1).
  assert (T : Forall2 (test_of D sub (answer D sub B' d E')) (x_conds x) ts).
  { assert (Hk : forall i c o, In (Sub c o i) (x_conds x) -> kept B B' i) by (intros i c o; apply Kc; exact Q). revert Hk H2. generalize (x_conds x). clear -IH. intros cs Hk F. induction F as [|c t cs ts Hc F IHf]; constructor; [|apply IHf; intros i c1 o H; apply (Hk i c1 o); right; exact H].
    destruct c as [c|c o i]; [exact Hc|]. cbn [test_of] in *. destruct Hc as (b & Hb & ->). exists b. split; [apply (proj1 (IH _ _ _ Hb)), (Hk i c o); left; reflexivity|reflexivity]. }
  destruct (f2_alike _ (answer D sub B' d E') _ _ (fun i b Hb => proj2 (IH E' i b Hb)) H4) as (us' & U & A).
  assert (Z : us = [] <-> x_unions x = []) by (apply (f2_empty _ _ _ _ _ H4)).
  assert (P1 : x_stmt x' = x_stmt x -> exists E1 ts1 a1 us1, with_tables D B' (answer D sub B' d) (x_withs x) E E1 /\ Forall2 (test_of D sub (answer D sub B' d E1)) (x_conds x) ts1 /\
    answers_where (with_rows D E1) (x_stmt x') ts1 a1 /\ Forall2 (answer D sub B' d E1) (x_unions x) us1 /\ together D (map (out_row D (x_stmt x')) a1) us1 l).
  { intros ->. exists E', ts, a, us'. split; [exact W|]. split; [exact T|]. split; [exact H3|]. split; [exact U|].
    destruct us as [|u us]; [inversion A; subst us'; exact H5|]. refine (together_alike _ _ (u :: us) us' l _ _ A H5); [discriminate|intros v; reflexivity]. }
  assert (P0 : free (x_stmt x) (x_stmt x') -> exists a', answers_where (with_rows D E') (x_stmt x') ts a' /\ alike (map (out_row D (x_stmt x)) a) (map (out_row D (x_stmt x')) a')).
  { intros F. destruct (answers_exist D O E' (x_stmt x') ts) as (a' & Ha). exists a'. split; [exact Ha|]. intros v.
    assert (G : In v (map (out_row D (x_stmt x')) (results_where (with_rows D E') (x_stmt x') ts)) <-> In v (map (out_row D (x_stmt x)) (results_where (with_rows D E') (x_stmt x) ts))).
    { pose proof (free_out (with_rows D E') (x_stmt x) (x_stmt x') ts F) as G. split; intros Hv; [apply (eq_ind _ (In v) Hv _ G)|apply (eq_ind _ (In v) Hv _ (eq_sym G))]. }
    destruct F as (_ & _ & _ & _ & _ & L1 & L2 & L3 & L4).
    pose proof (free_rows _ _ _ _ L1 L3 H3) as R. pose proof (free_rows _ _ _ _ L2 L4 Ha) as R'.
    rewrite !in_map_iff in *. split; intros (r & Er & Hr).
    - apply R in Hr. destruct (proj2 G (ex_intro _ r (conj Er Hr))) as (r' & Er' & Hr'). exists r'. split; [exact Er'|apply R'; exact Hr'].
    - apply R' in Hr. destruct (proj1 G (ex_intro _ r (conj Er Hr))) as (r' & Er' & Hr'). exists r'. split; [exact Er'|apply R; exact Hr']. }
  assert (P2 : x_unions x <> [] -> exists E1 ts1 a1 us1, with_tables D B' (answer D sub B' d) (x_withs x) E E1 /\ Forall2 (test_of D sub (answer D sub B' d E1)) (x_conds x) ts1 /\
    answers_where (with_rows D E1) (x_stmt x') ts1 a1 /\ Forall2 (answer D sub B' d E1) (x_unions x) us1 /\ together D (map (out_row D (x_stmt x')) a1) us1 l).
  { intros N. destruct Es as [Es|F]; [apply P1; exact Es|]. destruct (P0 F) as (a' & Ha & Al). exists E', ts, a', us'. split; [exact W|]. split; [exact T|]. split; [exact Ha|]. split; [exact U|].
    refine (together_alike _ _ us us' l _ Al A H5). intros K. apply N, Z, K. }
  split; [intros [Es'|N]; [apply P1; exact Es'|apply P2; exact N]|].
  assert (Dec : x_unions x = [] \/ x_unions x <> []) by (destruct (x_unions x); [left; reflexivity|right; discriminate]).
  destruct Dec as [N|N]; [|exists l; split; [apply P2; exact N|intros v; reflexivity]].
  destruct Es as [Es|F]; [exists l; split; [apply P1; exact Es|intros v; reflexivity]|]. destruct (P0 F) as (a' & Ha & Al).
  assert (us = []) by (apply Z; exact N). subst us. inversion A. subst us'. cbn [together] in H5. subst l.
  exists (map (out_row D (x_stmt x')) a'). split; [|exact Al]. exists E', ts, a', []. split; [exact W|]. split; [exact T|]. split; [exact Ha|]. split; [exact U|reflexivity].
Qed.
End Answers.

Lemma redistinct_sym : forall x x', redistinct x x' -> redistinct x' x.
Proof.
  intros x x' (Ew & Ec & Eu & [Es|F]); (split; [congruence|split; [congruence|split; [congruence|]]]); [left; congruence|right].
  destruct F as [F|F]; [left|right]; destruct F as (F1 & F2 & F3 & F4 & F5 & F6 & F7 & F8 & F9 & F10); repeat (split; [congruence|]); congruence.
Qed.
Lemma f2_sym : forall A (R R' : A -> A -> Prop) l l', (forall a b, R a b -> R' b a) -> Forall2 R l l' -> Forall2 R' l' l.
Proof. intros A R R' l l' H F. induction F; constructor; auto. Qed.
Lemma kept_sym : forall B B' i, Forall2 redistinct B B' -> kept B B' i -> kept B' B i.
Proof.
  intros B B' i F K. unfold kept in *. pose proof (redistinct_nth B B' i F) as G. destruct (nth_error B i) as [y|], (nth_error B' i) as [y'|]; auto.
  destruct G as (_ & _ & Eu & _). rewrite Eu. destruct K as [E|N]; [left; congruence|right; exact N].
Qed.
Lemma book_sym : forall B B', redistinct_book B B' -> redistinct_book B' B.
Proof.
  intros B B' (F & K). split; [apply (f2_sym _ redistinct); [apply redistinct_sym|exact F]|]. intros x' i Hx H. apply kept_sym; [exact F|].
  assert (G : exists x, In x B /\ redistinct x x'). { clear -F Hx. induction F as [|x y B B' H F IH]; [destruct Hx|]. destruct Hx as [<-|Hx]; [exists x; split; [left; reflexivity|exact H]|]. destruct (IH Hx) as (z & Hz & Rz). exists z. split; [right; exact Hz|exact Rz]. }
  destruct G as (x & Hx' & (Ew & Ec & _)). apply (K x i Hx'). unfold emitted in *. rewrite Ew, Ec in H. exact H.
Qed.
Lemma nth_lean2 : forall B i, nth_error (map lean B) i = option_map lean (nth_error B i).
Proof. exact nth_lean'. Qed.
Lemma kept_lean : forall B B' i, kept B B' i -> kept (map lean B) (map lean B') i.
Proof.
  intros B B' i K. unfold kept in *. rewrite !nth_lean2. destruct (nth_error B i) as [y|], (nth_error B' i) as [y'|]; cbn [option_map]; auto. cbn. destruct K as [-> |N]; [left; reflexivity|right; exact N].
Qed.
Lemma book_answers_free : forall E sub_test B B' d id rows, orderly (database_of E) -> redistinct_book B B' -> kept B B' id ->
  book_answers E sub_test (map lean B) d id rows -> book_answers E sub_test (map lean B') d id rows.
Proof.
  intros E sub_test B B' d id rows O (F & K) Ki H. unfold book_answers in *. refine (proj1 (answer_free _ _ O (map lean B) (map lean B') _ _ _ _ _ _ _ H) (kept_lean _ _ _ Ki)).
  - intros i. rewrite !nth_lean2. pose proof (redistinct_nth B B' i F) as G. destruct (nth_error B i) as [x|], (nth_error B' i) as [x'|]; cbn [option_map]; auto.
    destruct G as (Ew & Ec & Eu & Es). unfold rel, lean, emitted. cbn [x_withs x_conds x_unions x_stmt]. rewrite Ew. repeat (split; [auto|]). destruct Es as [-> |Fr]; [left; reflexivity|right; apply free_trimmed; exact Fr].
  - intros x i Hx Hi. apply in_map_iff in Hx. destruct Hx as (x0 & <- & Hx). apply kept_lean, (K x0 i Hx). left. exact Hi.
  - intros x i c o Hx Hi. apply in_map_iff in Hx. destruct Hx as (x0 & <- & Hx). apply kept_lean, (K x0 i Hx). right. exists c, o. exact Hi.
Qed.
Theorem undistinct_question : forall B B' oss oss' style d id, style <> style_dollar -> book oss B -> book oss' B' -> Forall xnamed B -> Forall xnamed B' -> complete B d id -> used_once B d id -> used_once B' d id ->
  redistinct_book B B' -> kept B B' id ->
  exists qs qs', made oss qs /\ made oss' qs' /\ forall n, size_of B d id <= n -> size_of B' d id <= n -> exists s args s' args',
    fst (build_query n style qs (query id)) = ROk (s, args) /\ fst (build_query n style qs' (query id)) = ROk (s', args') /\
    forall E sub_test rows, orderly (database_of E) -> executes_all E sub_test args s rows <-> executes_all E sub_test args' s' rows.
Proof.
  intros B B' oss oss' style d id Hs Hb Hb' N N' C U U' S Ki. destruct (nexec_question B oss style d id Hs Hb N C U) as (qs & A & H).
  destruct (nexec_question B' oss' style d id Hs Hb' N' (complete_redistinct B B' (proj1 S) d id C) U') as (qs' & A' & H').
  exists qs, qs'. split; [exact A|]. split; [exact A'|]. intros n Hn Hn'. destruct (H n Hn) as (s & args & X & R). destruct (H' n Hn') as (s' & args' & X' & R').
  exists s, args, s', args'. split; [exact X|]. split; [exact X'|]. intros E sub rows O. rewrite R, R'. split; apply book_answers_free; auto; [apply book_sym, S|apply kept_sym; [apply S|exact Ki]].
Qed.
Theorem undistinct_dollar : forall B B' oss oss' d id, book oss B -> book oss' B' -> Forall xnamed B -> Forall xnamed B' -> complete B d id -> used_once B d id -> used_once B' d id ->
  redistinct_book B B' -> kept B B' id -> forallb hashable (args_of B d id) = true ->
  exists qs qs', made oss qs /\ made oss' qs' /\ forall n, size_of B d id <= n -> size_of B' d id <= n -> exists s args s' args',
    fst (build_query n style_dollar qs (query id)) = ROk (s, args) /\ fst (build_query n style_dollar qs' (query id)) = ROk (s', args') /\
    forall E sub_test rows, by_value E -> orderly (database_of E) -> executes_all E sub_test args s rows <-> executes_all E sub_test args' s' rows.
Proof.
  intros B B' oss oss' d id Hb Hb' N N' C U U' S Ki Hh. destruct (nexec_dollar B oss d id Hb N C U Hh) as (qs & A & H).
  assert (Hh' : forallb hashable (args_of B' d id) = true) by (rewrite (args_redistinct B B' (proj1 S)); exact Hh).
  destruct (nexec_dollar B' oss' d id Hb' N' (complete_redistinct B B' (proj1 S) d id C) U' Hh') as (qs' & A' & H').
  exists qs, qs'. split; [exact A|]. split; [exact A'|]. intros n Hn Hn'. destruct (H n Hn) as (s & args & X & R). destruct (H' n Hn') as (s' & args' & X' & R').
  exists s, args, s', args'. split; [exact X|]. split; [exact X'|]. intros E sub rows Hv O. rewrite (R E sub rows Hv), (R' E sub rows Hv). split; apply book_answers_free; auto; [apply book_sym, S|apply kept_sym; [apply S|exact Ki]].
Qed.
