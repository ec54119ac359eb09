(** Proofs for Prop_fetch.v: scanning and counting what a database executes. *)
From Coq Require Import Strings.String Strings.Ascii NArith ZArith List Bool Lia Sorting.Permutation Sorting.Sorted.
From Verif Require Import GoStr GoNum Syntax Value Util Model Sqlf Sqlb Scan Spec_syntax RefSem Spec_build
  Spec_util Spec_eval Spec_query Spec_sql Spec_nest Spec_interp Sql_proofs Nest_proofs Interp_proofs Util_proofs Spec_answer Spec_views Answer_proofs Read_proofs Read2_proofs Nread_proofs Nread2_proofs Exec_proofs Nexec_proofs
  Spec_sqltok Spec_read Spec_nread Spec_exec Spec_nexec Spec_fetch.
Import ListNotations.
Open Scope string_scope.
Open Scope list_scope.

(** ** Scan *)
Lemma answer_width : forall D m l r, answers D m l -> In r l -> List.length (fst r) = List.length (m_cols m).
Proof.
  intros D m l r (s & P & _ & ->) Hr. assert (Hs : In r s).
  { unfold cut in Hr. assert (K : forall n k (x : list (result_row D)), In r (firstn n (skipn k x)) -> In r x).
    { intros n k x H. rewrite <- (firstn_skipn k x). apply in_or_app. right. rewrite <- (firstn_skipn n (skipn k x)). apply in_or_app. left. exact H. }
    destruct (0 <? m_limit m)%Z, (0 <? m_offset m)%Z; [eapply K; exact Hr|eapply (K _ 0); exact Hr| |exact Hr].
    rewrite <- (firstn_skipn (Z.to_nat (m_offset m)) s). apply in_or_app. right. exact Hr. }
  apply (results_length D m (tests D m)). destruct (m_distinct m); [apply P, Hs|eapply Permutation_in; [exact P|exact Hs]].
Qed.
Lemma said_columns : forall m phs, List.length (m_cols m) <= List.length (map item_name (r_items (said m phs))).
Proof. intros m phs. rewrite map_length. unfold said, said_by. cbn [r_items]. rewrite List.app_length, map_length. lia. Qed.
Lemma firstn_short : forall A n (a b : list A), n <= List.length a -> firstn n (a ++ b) = firstn n a.
Proof. intros A n a b H. rewrite firstn_app. replace (n - List.length a) with 0 by lia. cbn [firstn]. apply app_nil_r. Qed.
Theorem scan_served : forall E show db args text m phs rw, named m -> serves E show db -> db text args = inl rw ->
  read_select (tokens false text) = Some (said m phs) -> (forall rows, executes E args text rows <-> listed_answers E (trimmed m) rows) ->
  exists l, answers (database_of E) (trimmed m) l /\ forall T nf (assign : list value -> T + err) xs, nf <= List.length (m_cols m) ->
    scan db text args nf assign = inl xs <-> Forall2 (fun r x => assign (firstn nf (map show (fst r))) = inl x) l xs.
Proof.
  intros E show db args text m phs rw Nm Sv Q R X. destruct (Sv _ _ _ Q) as (r & rows & R' & Ex & C & W). rewrite R in R'. injection R' as <-.
  apply X in Ex. destruct Ex as (l & A & ->). exists l. split; [exact A|]. intros T nf assign xs Hn. rewrite scan_iff.
  assert (K : forall ys, Forall2 (decoded (rw_cols rw) nf assign) (rw_rows rw) ys <-> Forall2 (fun r x => assign (firstn nf (map show (fst r))) = inl x) l ys).
  { rewrite C, W. pose proof (said_columns m phs) as L. clear W. 
    assert (Wd : forall r, In r l -> nf <= List.length (fst r)) by (intros r Hr; rewrite (answer_width _ _ _ _ A Hr); exact Hn).
    clear A. induction l as [|r l IH]; intros ys.
    - cbn [map]. split; intros H; inversion H; constructor.
    - cbn [map]. assert (F : firstn nf (map show (wide_row (trimmed m) r)) = firstn nf (map show (fst r))).
      { unfold wide_row. rewrite map_app. apply firstn_short. rewrite map_length. apply Wd. left. reflexivity. }
      split; intros H; inversion H as [|? y ? ys' H1 H2]; subst.
      + constructor; [destruct H1 as (cs & _ & _ & H1); exact (eq_trans (f_equal assign (eq_sym F)) H1)|]. apply IH; [intros z Hz; apply Wd; right; exact Hz|exact H2].
      + constructor; [eexists; split; [reflexivity|]; split; [lia|exact (eq_trans (f_equal assign F) H1)]|]. apply IH; [intros z Hz; apply Wd; right; exact Hz|exact H2]. }
  split.
  - intros (rw' & Q' & F). rewrite Q in Q'. injection Q' as <-. apply K, F.
  - intros F. exists rw. split; [exact Q|apply K, F].
Qed.
Theorem fetch_question : forall m os style, style <> style_dollar -> stmt_ok m -> named m -> describes os m ->
  exists q, apply_ops os new_qb = ROk q /\ forall n, 5 + m_size m <= n -> exists text args,
    fst (build_query n style [q] (BQuery (Some 0))) = ROk (text, args) /\ forall E show db, serves E show db ->
      (forall e, db text args = inr e -> forall T nf (assign : list value -> T + err), scan_builder n [q] db (BQuery (Some 0)) style nf assign = ROk (inr e)) /\
      (forall rw, db text args = inl rw -> exists l, answers (database_of E) (trimmed m) l /\ forall T nf (assign : list value -> T + err) xs, nf <= List.length (m_cols m) ->
        scan_builder n [q] db (BQuery (Some 0)) style nf assign = ROk (inl xs) <-> Forall2 (fun r x => assign (firstn nf (map show (fst r))) = inl x) l xs).
Proof.
  intros m os style Hs Ok Nm D. destruct (question_read m os style Hs Ok Nm D) as (q & A & H). exists q. split; [exact A|].
  intros n Hn. destruct (H n Hn) as (text & B & R). exists text, (m_args m). split; [exact B|]. intros E show db Sv. unfold scan_builder. rewrite B. split.
  - intros e He T nf assign. unfold scan. rewrite He. reflexivity.
  - intros rw Q. assert (X : forall rows, executes E (m_args m) text rows <-> listed_answers E (trimmed m) rows).
    { intros rows. apply (executed E _ m text _ rows Nm (map_length _ _) R). apply (question_values E []). }
    destruct (scan_served E show db _ text m _ rw Nm Sv Q R X) as (l & Al & K). exists l. split; [exact Al|]. intros T nf assign xs Hf. rewrite <- (K T nf assign xs Hf).
    split; [intros Z; injection Z as Z; exact Z|intros ->; reflexivity].
Qed.
Theorem fetch_dollar : forall m os, stmt_ok m -> named m -> describes os m -> forallb hashable (m_args m) = true ->
  exists q, apply_ops os new_qb = ROk q /\ forall n, 5 + m_size m <= n -> exists text args,
    fst (build_query n style_dollar [q] (BQuery (Some 0))) = ROk (text, args) /\ forall E show db, by_value E -> serves E show db ->
      (forall e, db text args = inr e -> forall T nf (assign : list value -> T + err), scan_builder n [q] db (BQuery (Some 0)) style_dollar nf assign = ROk (inr e)) /\
      (forall rw, db text args = inl rw -> exists l, answers (database_of E) (trimmed m) l /\ forall T nf (assign : list value -> T + err) xs, nf <= List.length (m_cols m) ->
        scan_builder n [q] db (BQuery (Some 0)) style_dollar nf assign = ROk (inl xs) <-> Forall2 (fun r x => assign (firstn nf (map show (fst r))) = inl x) l xs).
Proof.
  intros m os Ok Nm D Hh. destruct (dollar_read m os Ok Nm D Hh) as (q & phs & A & F & H). exists q. split; [exact A|].
  intros n Hn. destruct (H n Hn) as (text & B & R). exists text, (firsts [] (m_args m)). split; [exact B|]. intros E show db Hv Sv. unfold scan_builder. rewrite B. split.
  - intros e He T nf assign. unfold scan. rewrite He. reflexivity.
  - intros rw Q. assert (X : forall rows, executes E (firsts [] (m_args m)) text rows <-> listed_answers E (trimmed m) rows).
    { intros rows. apply (executed E _ m text phs rows Nm (f2_len _ _ _ F) R). apply dollar_values; assumption. }
    destruct (scan_served E show db _ text m _ rw Nm Sv Q R X) as (l & Al & K). exists l. split; [exact Al|]. intros T nf assign xs Hf. rewrite <- (K T nf assign xs Hf).
    split; [intros Z; injection Z as Z; exact Z|intros ->; reflexivity].
Qed.
(** ** DISTINCT *)
Lemma map_member : forall A B (f g : A -> B) l x, map f l = map g l -> In x l -> f x = g x.
Proof. intros A B f g l x. induction l as [|a l IH]; intros E H; [destruct H|]. cbn in E. injection E as E1 E2. destruct H as [<-|H]; [exact E1|apply IH; assumption]. Qed.
Lemma results_by_selected : forall D m ts x y, orders_selected m -> In x (results_where D m ts) -> In y (results_where D m ts) -> fst x = fst y -> x = y.
Proof.
  intros D m ts x y O Hx Hy E. unfold results_where in *. apply in_map_iff in Hx. apply in_map_iff in Hy. destruct Hx as (g & <- & _), Hy as (h & <- & _). cbn [fst] in E. f_equal; [exact E|].
  apply map_ext_in. intros o Ho. apply (map_member _ _ (col_value D g) (col_value D h) (m_cols m) (fst o) E). apply O, in_map, Ho.
Qed.
Lemma nodup_right : forall A (a b : list A), NoDup (a ++ b) -> NoDup b.
Proof. intros A a b. induction a as [|x a IH]; intros H; [exact H|]. inversion H; subst. apply IH. assumption. Qed.
Lemma nodup_left : forall A (a b : list A), NoDup (a ++ b) -> NoDup a.
Proof.
  intros A a b. induction a as [|x a IH]; intros H; [constructor|]. inversion H; subst. constructor; [|apply IH; assumption]. intros K. apply H2. apply in_or_app. left. exact K.
Qed.
Lemma nodup_part : forall A n k (l : list A), NoDup l -> NoDup (firstn n (skipn k l)).
Proof.
  intros A n k l H. rewrite <- (firstn_skipn k l) in H. apply nodup_right in H. rewrite <- (firstn_skipn n (skipn k l)) in H. apply nodup_left in H. exact H.
Qed.
Lemma nodup_cut : forall A m (l : list A), NoDup l -> NoDup (cut m l).
Proof.
  intros A m l H. unfold cut. destruct (0 <? m_limit m)%Z, (0 <? m_offset m)%Z; [apply nodup_part; exact H|apply (nodup_part _ _ 0); exact H| |exact H].
  rewrite <- (firstn_skipn (Z.to_nat (m_offset m)) l) in H. apply nodup_right in H. exact H.
Qed.
Theorem distinct_rows : forall D m l, m_distinct m = true -> orders_selected m -> answers D m l -> NoDup (map fst l).
Proof.
  intros D m l Hd O (s & P & _ & ->). rewrite Hd in P. destruct P as [Np P]. rewrite <- cut_map. apply nodup_cut.
  assert (K : forall x y, In x s -> In y s -> fst x = fst y -> x = y) by (intros x y Hx Hy; apply (results_by_selected D m (tests D m)); [exact O|apply P, Hx|apply P, Hy]).
  clear P. induction Np as [|x s Nx Np IH]; [constructor|]. cbn [map]. constructor.
  - intros Hi. apply in_map_iff in Hi. destruct Hi as (y & E & Hy). assert (y = x) by (apply K; [right; exact Hy|left; reflexivity|exact E]). subst y. exact (Nx Hy).
  - apply IH. intros y z Hy Hz. apply K; right; assumption.
Qed.
(** ** Count *)
Lemma counted_tokens : forall s ts, lx s ts -> tokens false (counted s) = count_head ++ ts ++ [TOp ")"; TWord "list"].
Proof.
  intros s ts H. unfold counted. assert (P : lv "SELECT COUNT(1) FROM (" count_head) by (apply lv_text; reflexivity). rewrite P. f_equal. rewrite H by (right; reflexivity). f_equal.
Qed.
Theorem counted_all : forall E sub_test args B d id phs n, Forall xnamed B -> complete B d id -> Forall operand phs -> List.length phs = List.length (args_of B d id) ->
  operand_values E args 0 (map (tokens false) phs) = Some (map (e_bound E) (args_of B d id)) ->
  counts E sub_test args (counted (text_of B d id phs)) n <-> exists rows, book_answers E sub_test (map lean B) d id rows /\ n = Z.of_nat (List.length rows).
Proof.
  intros E sub_test args B d id phs n Nb Hc F L V. destruct (statement_tree B Nb d id phs Hc F L) as (T & X & G & _ & R).
  pose proof (counted_tokens _ _ X) as Tk. pose proof (read_text B d id phs Nb Hc F L) as Rt. rewrite (lx_tokens _ _ X) in Rt.
  assert (L' : List.length (map (tokens false) phs) = List.length (args_of B d id)) by (rewrite map_length; exact L). split.
  - intros (inner & a & q & k & rows & E1 & E2 & E3 & ->). rewrite Tk in E1. apply app_inv_head in E1. assert (I : flats T = inner).
    { change [TOp ")"; TWord "list"] with ([TOp ")"] ++ [TWord "list"]) in E1. change [TOp ")"; TWord a] with ([TOp ")"] ++ [TWord a]) in E1. rewrite !app_assoc in E1.
      apply app_inj_tail in E1. destruct E1 as [E1 _]. apply app_inj_tail in E1. destruct E1 as [E1 _]. exact E1. }
    subst inner. rewrite Rt in E2. injection E2 as <-. exists rows. split; [|reflexivity].
    apply (statement_run E sub_test args B Nb d id Hc _ 0 (conj L' V)) in E3. destruct E3 as [_ E3]. exact E3.
  - intros (rows & A & ->). exists (flats T), "list"%string, (statement_said B d id (map (tokens false) phs)), (0 + questions (map (tokens false) phs)), rows.
    split; [exact Tk|]. split; [exact Rt|]. split; [|reflexivity]. apply (statement_run E sub_test args B Nb d id Hc _ 0 (conj L' V)). split; [reflexivity|exact A].
Qed.
Lemma count_served : forall n qs ft db b style text args E sub_test, fst (build_query n style qs b) = ROk (text, args) -> serves_counts E sub_test db ->
  (exists k, counts E sub_test args (counted text) k /\ count_builder n qs ft db b style = ROk k) \/
  (exists e, db (counted text) args = QErr e /\ forall k, count_builder n qs ft db b style <> ROk k).
Proof.
  intros n qs ft db b style text args E sub_test H Sv. unfold count_builder, count. rewrite H. fold (counted text). specialize (Sv (counted text) args).
  destruct (db (counted text) args) as [k| |e]; [left; exists k; split; [exact Sv|reflexivity]|destruct Sv|right].
  exists e. split; [reflexivity|]. intros k. destruct (interpolate ft (counted text) args); discriminate.
Qed.
Theorem count_question : forall B oss style d id, style <> style_dollar -> book oss B -> Forall xnamed B -> complete B d id -> used_once B d id ->
  exists qs, made oss qs /\ forall n, size_of B d id <= n -> exists text args,
    fst (build_query n style qs (query id)) = ROk (text, args) /\ forall E sub_test ft db, serves_counts E sub_test db ->
    (exists rows, book_answers E sub_test (map lean B) d id rows /\ count_builder n qs ft db (query id) style = ROk (Z.of_nat (List.length rows))) \/
    (exists e, db (counted text) args = QErr e /\ forall k, count_builder n qs ft db (query id) style <> ROk k).
Proof.
  intros B oss style d id Hs Hb Nb Hc Hu. destruct (nest_question B oss style d id Hs Hb Hc Hu) as (qs & M & H). exists qs. split; [exact M|].
  intros n Hn. eexists. eexists. split; [apply H; exact Hn|]. intros E sub_test ft db Sv.
  destruct (count_served n qs ft db (query id) style _ _ E sub_test (H n Hn) Sv) as [(k & C & K)|K]; [left|right; exact K].
  apply counted_all in C; [|exact Nb|exact Hc|apply marks_operands, question_marks|apply map_length|rewrite question_toks; apply (question_values E [])].
  destruct C as (rows & A & ->). exists rows. split; [exact A|exact K].
Qed.
Theorem count_dollar : forall B oss d id, book oss B -> Forall xnamed B -> complete B d id -> used_once B d id -> forallb hashable (args_of B d id) = true ->
  exists qs, made oss qs /\ forall n, size_of B d id <= n -> exists text args,
    fst (build_query n style_dollar qs (query id)) = ROk (text, args) /\ forall E sub_test ft db, by_value E -> serves_counts E sub_test db ->
    (exists rows, book_answers E sub_test (map lean B) d id rows /\ count_builder n qs ft db (query id) style_dollar = ROk (Z.of_nat (List.length rows))) \/
    (exists e, db (counted text) args = QErr e /\ forall k, count_builder n qs ft db (query id) style_dollar <> ROk k).
Proof.
  intros B oss d id Hb Nb Hc Hu Hh. destruct (nest_dollar B oss d id Hb Hc Hu Hh) as (qs & phs & M & P & H). exists qs. split; [exact M|].
  pose proof (dollar_operands _ _ _ P) as DO. destruct (dollar_marks _ _ _ P) as [K0 L].
  intros n Hn. eexists. eexists. split; [apply H; exact Hn|]. intros E sub_test ft db Hv Sv.
  destruct (count_served n qs ft db (query id) style_dollar _ _ E sub_test (H n Hn) Sv) as [(k & C & K)|K]; [left|right; exact K].
  apply counted_all in C; [|exact Nb|exact Hc|apply marks_operands; exact K0|exact L|apply dollar_values; assumption].
  destruct C as (rows & A & ->). exists rows. split; [exact A|exact K].
Qed.
Theorem same_number : forall D m l l', answers D m l -> answers D m l' -> List.length l = List.length l'.
Proof.
  intros D m l l' (s & P & _ & ->) (t & Q & _ & ->). assert (L : List.length s = List.length t).
  { destruct (m_distinct m).
    - destruct P as [Np P], Q as [Nq Q]. apply Permutation_length, NoDup_Permutation; [exact Np|exact Nq|]. intros x. rewrite P, Q. reflexivity.
    - rewrite (Permutation_length P), (Permutation_length Q). reflexivity. }
  unfold cut. destruct (0 <? m_limit m)%Z, (0 <? m_offset m)%Z; rewrite ?firstn_length, ?skipn_length, L; reflexivity.
Qed.
