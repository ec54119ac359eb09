(** Proofs for Prop_insub.v: Distinct in queries that are subqueries. *)
From Coq Require Import Strings.String Strings.Ascii NArith ZArith List Bool Lia Sorting.Permutation Sorting.Sorted.
From Verif Require Import GoStr GoNum Syntax Value Util Model Sqlf Sqlb Spec_syntax RefSem Spec_build
  Spec_util Spec_eval Spec_query Spec_sql Spec_nest Spec_interp Spec_answer Spec_views Views_proofs Nexec_proofs Shuffle_proofs Reunite_proofs Spec_sqltok Spec_read Spec_nread Spec_exec Spec_nexec Spec_undistinct Undistinct_proofs Spec_insub.
Import ListNotations.
Open Scope string_scope.
Open Scope list_scope.

(** Tests of the same column with the same result. *)
Definition same_test {D : database} (t t' : Spec_answer.test D) : Prop := fst t = fst t' /\ forall v, snd t v = snd t' v.
Lemma answers_same : forall D m ts ts' a, Forall2 same_test ts ts' -> answers_where D m ts a -> answers_where D m ts' a.
Proof.
  intros D m ts ts' a F H. assert (K : results_where D m ts' = results_where D m ts).
  { unfold results_where, groups_of. assert (W : where_rows D m ts' = where_rows D m ts); [|rewrite W; reflexivity]. unfold where_rows. apply filter_ext. intros e. clear H.
    induction F as [|t t' ts ts' (E1 & E2) F IH]; [reflexivity|]. cbn [forallb]. rewrite IH, E1, E2. reflexivity. }
  unfold answers_where in *. rewrite K. exact H.
Qed.

Section Answers.
Variable D : database.
Variable sub : string -> d_val D -> list (list (d_val D)) -> bool.
Hypothesis O : orderly D.
Hypothesis Ss : forall o v a a', alike D a a' -> sub o v a = sub o v a'.
Variables B B' : list xstmt.
Hypothesis S : forall id, match nth_error B id, nth_error B' id with Some x, Some x' => rel x x' | None, None => True | _, _ => False end.
Hypothesis Kw : forall x i, In x B -> In i (map w_id (x_withs x)) -> kept B B' i.
Lemma answer_within : forall d E id l, answer D sub B d E id l -> (kept B B' id -> answer D sub B' d E id l) /\ exists l', answer D sub B' d E id l' /\ alike D l l'.
Proof.
  induction d as [|d IH]; intros E id l H; [destruct H|]. cbn [answer] in *. unfold kept. pose proof (S id) as K.
  destruct (nth_error B id) as [x|] eqn:Q; [|destruct H]. destruct (nth_error B' id) as [x'|]; [|contradiction]. apply nth_error_In in Q.
  destruct K as (Ew & Ec & Eu & Es). destruct H as (E' & ts & a & us & H1 & H2 & H3 & H4 & H5). rewrite Ew, Ec, Eu.
  assert (W : forall ws E0, (forall i, In i (map w_id ws) -> kept B B' i) -> with_tables D B (answer D sub B d) ws E0 E' -> with_tables D B' (answer D sub B' d) ws E0 E').
  { induction ws as [|w ws IHw]; intros E0 Hk Hw; [exact Hw|]. cbn [with_tables] in *. destruct Hw as (b & Hb & Hw). exists b.
    split; [apply (proj1 (IH _ _ _ Hb)), Hk; left; reflexivity|]. rewrite (free_names B B' S). apply IHw; [intros i Hi; apply Hk; right; exact Hi|exact Hw]. }
  specialize (W (x_withs x) E (fun i Hi => Kw x i Q Hi) H1).
  assert (T0 : exists ts', Forall2 (test_of D sub (answer D sub B' d E')) (x_conds x) ts' /\ Forall2 same_test ts ts').
  { clear -IH H2 Ss. induction H2 as [|c t cs ts Hc F (ts' & F1 & F2)]; [exists []; split; constructor|]. destruct c as [c|c o i]; cbn [test_of] in Hc.
    - exists (t :: ts'). split; constructor; auto. split; [reflexivity|intros v; reflexivity].
    - destruct Hc as (b & Hb & ->). destruct (proj2 (IH _ _ _ Hb)) as (b' & Hb' & Al). exists ((c, fun v => sub o v b') :: ts'). split; constructor; auto; [exists b'; split; [exact Hb'|reflexivity]|]. split; [reflexivity|]. intros v. apply Ss. exact Al. }
  destruct T0 as (ts' & T & Te). apply (answers_same (with_rows D E') (x_stmt x) ts ts' a Te) in H3. clear H2 Te ts. rename ts' into ts.
  destruct (f2_alike D _ (answer D sub B' d E') _ _ (fun i b Hb => proj2 (IH E' i b Hb)) H4) as (us' & U & A).
  assert (Z : us = [] <-> x_unions x = []) by (apply (f2_empty _ _ _ _ _ H4)).
  assert (P1 : x_stmt x' = x_stmt x -> exists E1 ts1 a1 us1, with_tables D B' (answer D sub B' d) (x_withs x) E E1 /\ Forall2 (test_of D sub (answer D sub B' d E1)) (x_conds x) ts1 /\
    answers_where (with_rows D E1) (x_stmt x') ts1 a1 /\ Forall2 (answer D sub B' d E1) (x_unions x) us1 /\ together D (map (out_row D (x_stmt x')) a1) us1 l).
  { intros ->. exists E', ts, a, us'. split; [exact W|]. split; [exact T|]. split; [exact H3|]. split; [exact U|].
    destruct us as [|u us]; [inversion A; subst us'; exact H5|]. refine (together_alike D _ _ (u :: us) us' l _ _ A H5); [discriminate|intros v; reflexivity]. }
  assert (P0 : free (x_stmt x) (x_stmt x') -> exists a', answers_where (with_rows D E') (x_stmt x') ts a' /\ alike D (map (out_row D (x_stmt x)) a) (map (out_row D (x_stmt x')) a')).
  { intros F. destruct (answers_exist D O E' (x_stmt x') ts) as (a' & Ha). exists a'. split; [exact Ha|]. intros v.
    assert (G : In v (map (out_row D (x_stmt x')) (results_where (with_rows D E') (x_stmt x') ts)) <-> In v (map (out_row D (x_stmt x)) (results_where (with_rows D E') (x_stmt x) ts))).
    { pose proof (free_out (with_rows D E') (x_stmt x) (x_stmt x') ts F) as G. split; intros Hv; [apply (eq_ind _ (In v) Hv _ G)|apply (eq_ind _ (In v) Hv _ (eq_sym G))]. }
    destruct F as (_ & _ & _ & _ & _ & L1 & L2 & L3 & L4).
    pose proof (free_rows _ _ _ _ L1 L3 H3) as R. pose proof (free_rows _ _ _ _ L2 L4 Ha) as R'.
    rewrite !in_map_iff in *. split; intros (r & Er & Hr).
    - apply R in Hr. destruct (proj2 G (ex_intro _ r (conj Er Hr))) as (r' & Er' & Hr'). exists r'. split; [exact Er'|apply R'; exact Hr'].
    - apply R' in Hr. destruct (proj1 G (ex_intro _ r (conj Er Hr))) as (r' & Er' & Hr'). exists r'. split; [exact Er'|apply R; exact Hr']. }
  assert (P2 : x_unions x <> [] -> exists E1 ts1 a1 us1, with_tables D B' (answer D sub B' d) (x_withs x) E E1 /\ Forall2 (test_of D sub (answer D sub B' d E1)) (x_conds x) ts1 /\
    answers_where (with_rows D E1) (x_stmt x') ts1 a1 /\ Forall2 (answer D sub B' d E1) (x_unions x) us1 /\ together D (map (out_row D (x_stmt x')) a1) us1 l).
  { intros N. destruct Es as [Es|F]; [apply P1; exact Es|]. destruct (P0 F) as (a' & Ha & Al). exists E', ts, a', us'. split; [exact W|]. split; [exact T|]. split; [exact Ha|]. split; [exact U|].
    refine (together_alike D _ _ us us' l _ Al A H5). intros K. apply N, Z, K. }
  split; [intros [Es'|N]; [apply P1; exact Es'|apply P2; exact N]|].
  assert (Dec : x_unions x = [] \/ x_unions x <> []) by (destruct (x_unions x); [left; reflexivity|right; discriminate]).
  destruct Dec as [N|N]; [|exists l; split; [apply P2; exact N|intros v; reflexivity]].
  destruct Es as [Es|F]; [exists l; split; [apply P1; exact Es|intros v; reflexivity]|]. destruct (P0 F) as (a' & Ha & Al).
  assert (us = []) by (apply Z; exact N). subst us. inversion A. subst us'. cbn [together] in H5. subst l.
  exists (map (out_row D (x_stmt x')) a'). split; [|exact Al]. exists E', ts, a', []. split; [exact W|]. split; [exact T|]. split; [exact Ha|]. split; [exact U|reflexivity].
Qed.
End Answers.

Lemma within_sym : forall B B', redistinct_within B B' -> redistinct_within B' B.
Proof.
  intros B B' (F & K). split; [apply (f2_sym _ redistinct); [apply redistinct_sym|exact F]|]. intros x' i Hx H. apply kept_sym; [exact F|].
  assert (G : exists x, In x B /\ redistinct x x'). { clear -F Hx. induction F as [|x y B B' H F IH]; [destruct Hx|]. destruct Hx as [<-|Hx]; [exists x; split; [left; reflexivity|exact H]|]. destruct (IH Hx) as (z & Hz & Rz). exists z. split; [right; exact Hz|exact Rz]. }
  destruct G as (x & Hx' & (Ew & Ec & _)). apply (K x i Hx'). unfold emitted in *. rewrite Ew in H. exact H.
Qed.
Lemma book_answers_within : forall E sub_test B B' d id rows, orderly (database_of E) -> setwise E sub_test -> redistinct_within B B' -> kept B B' id ->
  book_answers E sub_test (map lean B) d id rows -> book_answers E sub_test (map lean B') d id rows.
Proof.
  intros E sub_test B B' d id rows O Ss (F & K) Ki H. unfold book_answers in *. refine (proj1 (answer_within _ _ O (fun o => Ss (tokens false o)) (map lean B) (map lean B') _ _ _ _ _ _ H) (kept_lean _ _ _ Ki)).
  - intros i. rewrite !nth_lean2. pose proof (redistinct_nth B B' i F) as G. destruct (nth_error B i) as [x|], (nth_error B' i) as [x'|]; cbn [option_map]; auto.
    destruct G as (Ew & Ec & Eu & Es). unfold rel, lean, emitted. cbn [x_withs x_conds x_unions x_stmt]. rewrite Ew. repeat (split; [auto|]). destruct Es as [-> |Fr]; [left; reflexivity|right; apply free_trimmed; exact Fr].
  - intros x i Hx Hi. apply in_map_iff in Hx. destruct Hx as (x0 & <- & Hx). apply kept_lean, (K x0 i Hx). exact Hi.
Qed.
Theorem insub_question : forall B B' oss oss' style d id, style <> style_dollar -> book oss B -> book oss' B' -> Forall xnamed B -> Forall xnamed B' -> complete B d id -> used_once B d id -> used_once B' d id ->
  redistinct_within B B' -> kept B B' id ->
  exists qs qs', made oss qs /\ made oss' qs' /\ forall n, size_of B d id <= n -> size_of B' d id <= n -> exists s args s' args',
    fst (build_query n style qs (query id)) = ROk (s, args) /\ fst (build_query n style qs' (query id)) = ROk (s', args') /\
    forall E sub_test rows, orderly (database_of E) -> setwise E sub_test -> executes_all E sub_test args s rows <-> executes_all E sub_test args' s' rows.
Proof.
  intros B B' oss oss' style d id Hs Hb Hb' N N' C U U' S Ki. destruct (nexec_question B oss style d id Hs Hb N C U) as (qs & A & H).
  destruct (nexec_question B' oss' style d id Hs Hb' N' (complete_redistinct B B' (proj1 S) d id C) U') as (qs' & A' & H').
  exists qs, qs'. split; [exact A|]. split; [exact A'|]. intros n Hn Hn'. destruct (H n Hn) as (s & args & X & R). destruct (H' n Hn') as (s' & args' & X' & R').
  exists s, args, s', args'. split; [exact X|]. split; [exact X'|]. intros E sub rows O Ss. rewrite R, R'. split; apply book_answers_within; auto; [apply within_sym, S|apply kept_sym; [apply S|exact Ki]].
Qed.
Theorem insub_dollar : forall B B' oss oss' d id, book oss B -> book oss' B' -> Forall xnamed B -> Forall xnamed B' -> complete B d id -> used_once B d id -> used_once B' d id ->
  redistinct_within B B' -> kept B B' id -> forallb hashable (args_of B d id) = true ->
  exists qs qs', made oss qs /\ made oss' qs' /\ forall n, size_of B d id <= n -> size_of B' d id <= n -> exists s args s' args',
    fst (build_query n style_dollar qs (query id)) = ROk (s, args) /\ fst (build_query n style_dollar qs' (query id)) = ROk (s', args') /\
    forall E sub_test rows, by_value E -> orderly (database_of E) -> setwise E sub_test -> executes_all E sub_test args s rows <-> executes_all E sub_test args' s' rows.
Proof.
  intros B B' oss oss' d id Hb Hb' N N' C U U' S Ki Hh. destruct (nexec_dollar B oss d id Hb N C U Hh) as (qs & A & H).
  assert (Hh' : forallb hashable (args_of B' d id) = true) by (rewrite (args_redistinct B B' (proj1 S)); exact Hh).
  destruct (nexec_dollar B' oss' d id Hb' N' (complete_redistinct B B' (proj1 S) d id C) U' Hh') as (qs' & A' & H').
  exists qs, qs'. split; [exact A|]. split; [exact A'|]. intros n Hn Hn'. destruct (H n Hn) as (s & args & X & R). destruct (H' n Hn') as (s' & args' & X' & R').
  exists s, args, s', args'. split; [exact X|]. split; [exact X'|]. intros E sub rows Hv O Ss. rewrite (R E sub rows Hv), (R' E sub rows Hv). split; apply book_answers_within; auto; [apply within_sym, S|apply kept_sym; [apply S|exact Ki]].
Qed.
