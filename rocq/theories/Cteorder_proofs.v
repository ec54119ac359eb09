(** Proofs for Prop_cteorder.v: the order of common table expressions. *)
From Coq Require Import Strings.String Strings.Ascii NArith ZArith List Bool Lia Sorting.Permutation Sorting.Sorted.
From Verif Require Import GoStr GoNum Syntax Value Util Model Sqlf Sqlb Spec_syntax RefSem Spec_build
  Spec_util Spec_eval Spec_query Spec_sql Spec_nest Spec_interp Spec_answer Spec_views Views_proofs Nexec_proofs Spec_sqltok Spec_read Spec_nread Spec_exec Spec_nexec Spec_cteorder.
Import ListNotations.
Open Scope string_scope.
Open Scope list_scope.

Lemma independent_sym : forall B w v, independent B w v -> independent B v w.
Proof. intros B w v (N & H). split; [congruence|]. intros d. destruct (H d). split; assumption. Qed.
Lemma moved_sym : forall B ws vs, moved B ws vs -> moved B vs ws.
Proof. intros B ws vs H. induction H as [ws|ws w v vs H|ws vs us H1 I1 H2 I2]; [apply moved_same|apply moved_swap, independent_sym, H|exact (moved_then _ _ _ _ I2 I1)]. Qed.
Lemma moved_change : forall B B' ws vs, (forall d i y, In y (reads B' d i) -> In y (reads B d i)) -> moved B ws vs -> moved B' ws vs.
Proof.
  intros B B' ws vs R H. induction H as [ws|ws w v vs (N & H)|ws vs us H1 I1 H2 I2]; [apply moved_same|apply moved_swap|exact (moved_then _ _ _ _ I1 I2)].
  split; [exact N|]. intros d. destruct (H d) as (H1 & H2). split; intros X; [apply H1, R, X|apply H2, R, X].
Qed.
Lemma moved_filter : forall B f ws vs, moved B ws vs -> moved B (filter f ws) (filter f vs).
Proof.
  intros B f ws vs H. induction H as [ws|ws w v vs H|ws vs us H1 I1 H2 I2]; [apply moved_same| |exact (moved_then _ _ _ _ I1 I2)].
  rewrite !filter_app. cbn [filter]. destruct (f w), (f v); try apply moved_same. apply moved_swap, H.
Qed.
Lemma moved_perm : forall B ws vs, moved B ws vs -> Permutation ws vs.
Proof. intros B ws vs H. induction H as [ws|ws w v vs H|ws vs us H1 I1 H2 I2]; [apply Permutation_refl|apply Permutation_app_head, perm_swap|exact (Permutation_trans I1 I2)]. Qed.

(** ** What is read *)
Lemma with_reads_in : forall (r r' : nat -> list string) ws b b' y, (forall i z, In z (r i) <-> In z (r' i)) -> (forall z, In z b <-> In z b') ->
  In y (with_reads r ws b) <-> In y (with_reads r' ws b').
Proof.
  intros r r' ws b b' y H Hb. revert y. induction ws as [|w ws IH]; intros y; cbn [with_reads]; [apply Hb|]. rewrite !in_app_iff, !filter_In, H, IH. reflexivity.
Qed.
Lemma with_reads_moved : forall B d ws vs, moved B ws vs -> forall b y, In y (with_reads (reads B d) ws b) <-> In y (with_reads (reads B d) vs b).
Proof.
  intros B d ws vs H. induction H as [ws|ws w v vs (N & H)|ws vs us H1 I1 H2 I2]; intros b y; [reflexivity| |rewrite I1; apply I2].
  revert y. induction ws as [|u ws IH]; intros y; cbn [app with_reads]; [|rewrite !in_app_iff, !filter_In, IH; reflexivity].
  destruct (H d) as (Hv & Hw). rewrite !in_app_iff, !filter_In, !in_app_iff, !filter_In.
  destruct (String.eqb_spec y (w_name w)) as [Ew|Ew], (String.eqb_spec y (w_name v)) as [Ev|Ev]; try rewrite <- Ew in Hv; try rewrite <- Ev in Hw; cbn [negb]; intuition congruence.
Qed.

Definition rel (B : list xstmt) (B' : list xstmt) : Prop :=
  forall i, match nth_error B i, nth_error B' i with Some x, Some x' => rewithed B x x' | None, None => True | _, _ => False end.
Lemma reads_moved : forall B B', rel B B' -> forall d i y, In y (reads B d i) <-> In y (reads B' d i).
Proof.
  intros B B' S. induction d as [|d IH]; intros i y; [reflexivity|]. cbn [reads]. pose proof (S i) as K.
  destruct (nth_error B i) as [x|], (nth_error B' i) as [x'|]; try contradiction; [|reflexivity]. destruct K as (Es & Ec & Eu & M).
  rewrite (with_reads_moved B d (emitted x) (emitted x') (moved_filter _ _ _ _ M)). apply with_reads_in; [exact IH|]. intros z. unfold inner. rewrite Es, Ec, Eu, !in_app_iff, !in_flat_map.
  split; (intros [Hz|(j & Hj & Hz)]; [left; exact Hz|right; exists j; split; [exact Hj|apply IH, Hz]]).
Qed.
Lemma rel_sym : forall B B', rel B B' -> rel B' B.
Proof.
  intros B B' S i. pose proof (S i) as K. destruct (nth_error B i) as [x|], (nth_error B' i) as [x'|]; auto. destruct K as (Es & Ec & Eu & M).
  repeat (split; [auto|]). apply moved_sym, (moved_change B); [|exact M]. intros d j y. apply (reads_moved B B' S).
Qed.
Lemma rel_names : forall B B', rel B B' -> forall i, names_of B' i = names_of B i.
Proof. intros B B' S i. unfold names_of. pose proof (S i) as K. destruct (nth_error B i) as [x|], (nth_error B' i) as [x'|]; try contradiction; [|reflexivity]. destruct K as (-> & _). reflexivity. Qed.
Lemma rel_nth : forall B B', rewithed_book B B' -> rel B B'.
Proof.
  intros B B' F. unfold rel. unfold rewithed_book in F. generalize dependent (rewithed B). intros R F. induction F as [|x x' l l' H F IH]; intros [|i]; cbn [nth_error]; auto. apply IH.
Qed.
Lemma rel_lean : forall B B', rel B B' -> rel (map lean B) (map lean B').
Proof.
  intros B B' S i. rewrite !nth_lean. pose proof (S i) as K. destruct (nth_error B i) as [x|], (nth_error B' i) as [x'|]; cbn [option_map]; auto. destruct K as (Es & Ec & Eu & M).
  unfold rewithed, lean, emitted. cbn [x_stmt x_conds x_unions x_withs]. rewrite Es. repeat (split; [auto|]). apply (moved_change B); [intros d j y; rewrite lean_reads; auto|apply moved_filter, M].
Qed.

(** ** The tables *)
Section Tables.
Variable D : database.
Variable sub : string -> d_val D -> list (list (d_val D)) -> bool.
Notation tables := (string -> list (row_of (d_val D))).
Section One.
Variable B : list xstmt.
Hypothesis Hlean : forall id x, nth_error B id = Some x -> emitted x = x_withs x /\ m_shown (x_stmt x) = m_joins (x_stmt x).
Variable d : nat.
Notation wt := (with_tables D B (answer D sub B d)).
Lemma tables_same : forall ws (E1 E2 E1' : tables), (forall a, E1 a = E2 a) -> wt ws E1 E1' -> exists E2', wt ws E2 E2' /\ forall a, E1' a = E2' a.
Proof.
  induction ws as [|w ws IH]; intros E1 E2 E1' H W; cbn [with_tables] in *; [subst E1'; exists E2; split; [reflexivity|exact H]|].
  destruct W as (l & Hl & W). destruct (fun X => IH _ (bind_table D (w_name w) (map (Spec_views.named D (names_of B (w_id w))) l) E2) _ X W) as (E2' & W2 & G).
  { intros a. unfold bind_table. destruct (String.eqb a (w_name w)); [reflexivity|apply H]. }
  exists E2'. split; [|exact G]. exists l. split; [apply (coincide D sub B Hlean d E1); [intros a _; apply H|exact Hl]|exact W2].
Qed.
Lemma tables_moved : forall ws vs, moved B ws vs -> forall (E E1 : tables), wt ws E E1 -> exists E2, wt vs E E2 /\ forall a, E1 a = E2 a.
Proof.
  intros ws vs H. induction H as [ws|ws w v vs (N & H)|ws vs us H1 I1 H2 I2]; intros E E1 W.
  - exists E1. split; [exact W|reflexivity].
  - revert E W. induction ws as [|u ws IH]; intros E W; cbn [app with_tables] in *.
    + destruct W as (lw & Hw & lv & Hv & W). destruct (H d) as (Rv & Rw).
      assert (Hv' : answer D sub B d E (w_id v) lv).
      { apply (coincide D sub B Hlean d) with (2 := Hv). intros a Ha. unfold bind_table. destruct (String.eqb_spec a (w_name w)) as [->|_]; [contradiction|reflexivity]. }
      set (E0 := bind_table D (w_name v) (map (Spec_views.named D (names_of B (w_id v))) lv) E).
      assert (Hw' : answer D sub B d E0 (w_id w) lw).
      { apply (coincide D sub B Hlean d) with (2 := Hw). intros a Ha. unfold E0, bind_table. destruct (String.eqb_spec a (w_name v)) as [->|_]; [contradiction|reflexivity]. }
      destruct (fun X => tables_same vs _ (bind_table D (w_name w) (map (Spec_views.named D (names_of B (w_id w))) lw) E0) _ X W) as (E2 & W2 & G).
      { intros a. unfold E0, bind_table. destruct (String.eqb_spec a (w_name v)), (String.eqb_spec a (w_name w)); try reflexivity; congruence. }
      exists E2. split; [|exact G]. exists lv. split; [exact Hv'|]. exists lw. split; [exact Hw'|exact W2].
    + destruct W as (l & Hl & W). destruct (IH _ W) as (E2 & W2 & G). exists E2. split; [|exact G]. exists l. split; assumption.
  - destruct (I1 E E1 W) as (E2 & W2 & G). destruct (I2 E E2 W2) as (E3 & W3 & G'). exists E3. split; [exact W3|]. intros a. rewrite G. apply G'.
Qed.
End One.

Lemma answer_moved : forall B B', rel B B' -> (forall id x, nth_error B' id = Some x -> emitted x = x_withs x /\ m_shown (x_stmt x) = m_joins (x_stmt x)) ->
  forall d E id l, answer D sub B d E id l -> answer D sub B' d E id l.
Proof.
  intros B B' S Hlean. induction d as [|d IH]; intros E id l H; [exact H|]. cbn [answer] in *. pose proof (S id) as K.
  destruct (nth_error B id) as [x|] eqn:Q; [|destruct H]. destruct (nth_error B' id) as [x'|] eqn:Q'; [|contradiction]. destruct K as (Es & Ec & Eu & M).
  destruct H as (E1 & ts & a & us & W & T & A & U & O).
  assert (W' : with_tables D B' (answer D sub B' d) (x_withs x) E E1).
  { clear -IH W S. revert E W. induction (x_withs x) as [|w ws IHw]; intros E W; [exact W|]. cbn [with_tables] in *. destruct W as (l & Hl & W). exists l. split; [apply IH, Hl|]. rewrite (rel_names B B' S). apply IHw, W. }
  assert (M' : moved B' (x_withs x) (x_withs x')). { apply (moved_change B); [|exact M]. intros e j y. apply (reads_moved B B' S). }
  destruct (tables_moved B' Hlean d _ _ M' E E1 W') as (E2 & W2 & G).
  assert (X : forall i b, answer D sub B d E1 i b -> answer D sub B' d E2 i b). { intros i b Hb. apply (coincide D sub B' Hlean d E1); [intros y _; apply G|apply IH, Hb]. }
  exists E2, ts, a, us. rewrite Ec, Eu, Es. split; [exact W2|]. split; [|split; [|split; [|exact O]]].
  - apply (tests_mono D sub x (answer D sub B d E1)); [|exact T]. intros i b _. apply X.
  - apply (answers_ext D E1 E2); [intros t _; apply G|exact A].
  - apply (forall2_mono _ _ (answer D sub B d E1)) with (2 := U). intros i b _. apply X.
Qed.
End Tables.

(** ** Execution *)
Lemma refs_moved : forall B x x' j, rewithed B x x' -> In j (refs x') -> In j (refs x).
Proof.
  intros B x x' j (_ & Ec & Eu & M). unfold refs. rewrite Ec, Eu, !in_app_iff. intros [H|H]; [left|right; exact H].
  apply (Permutation_in j (Permutation_sym (Permutation_map w_id (moved_perm _ _ _ (moved_filter B w_emitted _ _ M))))). exact H.
Qed.
Lemma complete_moved : forall B B', rel B B' -> forall d id, complete B d id -> complete B' d id.
Proof.
  intros B B' S. induction d as [|d IH]; intros id H; [exact H|]. cbn [complete] in *. pose proof (S id) as K. destruct (nth_error B id) as [x|], (nth_error B' id) as [x'|]; try contradiction.
  intros j Hj. apply IH, H. exact (refs_moved B x x' j K Hj).
Qed.
Lemma perm_flat : forall A C (f g : A -> list C) l l', (forall a, Permutation (f a) (g a)) -> Permutation l l' -> Permutation (flat_map f l) (flat_map g l').
Proof.
  intros A C f g l l' H P. transitivity (flat_map g l); [|apply Permutation_flat_map, P]. clear P. induction l as [|a l IH]; [constructor|]. cbn [flat_map]. apply Permutation_app; [apply H|exact IH].
Qed.
Lemma args_moved : forall B B', rel B B' -> forall d id, Permutation (args_of B d id) (args_of B' d id).
Proof.
  intros B B' S. induction d as [|d IH]; intros id; [constructor|]. cbn [args_of]. pose proof (S id) as K. destruct (nth_error B id) as [x|], (nth_error B' id) as [x'|]; try contradiction; [|constructor].
  destruct K as (Es & Ec & Eu & M). rewrite Ec, Eu. apply Permutation_app; [|apply Permutation_app]; apply perm_flat; try apply Permutation_refl.
  - intros w. apply IH.
  - exact (moved_perm _ _ _ (moved_filter B w_emitted _ _ M)).
  - intros [c|c o i]; [apply Permutation_refl|apply IH].
  - exact IH.
Qed.
Lemma hashable_moved : forall B B' d id, rel B B' -> forallb hashable (args_of B d id) = true -> forallb hashable (args_of B' d id) = true.
Proof. intros B B' d id S H. rewrite forallb_forall in *. intros v Hv. apply H, (Permutation_in v (Permutation_sym (args_moved B B' S d id)) Hv). Qed.
Lemma book_answers_moved : forall E sub_test B B' d id rows, rel B B' -> book_answers E sub_test (map lean B) d id rows -> book_answers E sub_test (map lean B') d id rows.
Proof. intros E sub_test B B' d id rows S. apply answer_moved; [apply rel_lean, S|apply lean_lean]. Qed.
Theorem cteorder_question : forall B B' oss oss' style d id, style <> style_dollar -> book oss B -> book oss' B' -> Forall xnamed B -> Forall xnamed B' -> complete B d id -> used_once B d id -> used_once B' d id ->
  rewithed_book B B' ->
  exists qs qs', made oss qs /\ made oss' qs' /\ forall n, size_of B d id <= n -> size_of B' d id <= n -> exists s args s' args',
    fst (build_query n style qs (query id)) = ROk (s, args) /\ fst (build_query n style qs' (query id)) = ROk (s', args') /\
    forall E sub_test rows, executes_all E sub_test args s rows <-> executes_all E sub_test args' s' rows.
Proof.
  intros B B' oss oss' style d id Hs Hb Hb' N N' C U U' S. apply rel_nth in S. destruct (nexec_question B oss style d id Hs Hb N C U) as (qs & A & H).
  destruct (nexec_question B' oss' style d id Hs Hb' N' (complete_moved B B' S d id C) U') as (qs' & A' & H').
  exists qs, qs'. split; [exact A|]. split; [exact A'|]. intros n Hn Hn'. destruct (H n Hn) as (s & args & X & R). destruct (H' n Hn') as (s' & args' & X' & R').
  exists s, args, s', args'. split; [exact X|]. split; [exact X'|]. intros E sub rows. rewrite R, R'. split; apply book_answers_moved; [exact S|apply rel_sym, S].
Qed.
Theorem cteorder_dollar : forall B B' oss oss' d id, book oss B -> book oss' B' -> Forall xnamed B -> Forall xnamed B' -> complete B d id -> used_once B d id -> used_once B' d id ->
  rewithed_book B B' -> forallb hashable (args_of B d id) = true ->
  exists qs qs', made oss qs /\ made oss' qs' /\ forall n, size_of B d id <= n -> size_of B' d id <= n -> exists s args s' args',
    fst (build_query n style_dollar qs (query id)) = ROk (s, args) /\ fst (build_query n style_dollar qs' (query id)) = ROk (s', args') /\
    forall E sub_test rows, by_value E -> executes_all E sub_test args s rows <-> executes_all E sub_test args' s' rows.
Proof.
  intros B B' oss oss' d id Hb Hb' N N' C U U' S Hh. apply rel_nth in S. destruct (nexec_dollar B oss d id Hb N C U Hh) as (qs & A & H).
  destruct (nexec_dollar B' oss' d id Hb' N' (complete_moved B B' S d id C) U' (hashable_moved B B' d id S Hh)) as (qs' & A' & H').
  exists qs, qs'. split; [exact A|]. split; [exact A'|]. intros n Hn Hn'. destruct (H n Hn) as (s & args & X & R). destruct (H' n Hn') as (s' & args' & X' & R').
  exists s, args, s', args'. split; [exact X|]. split; [exact X'|]. intros E sub rows Hv. rewrite (R E sub rows Hv), (R' E sub rows Hv). split; apply book_answers_moved; [exact S|apply rel_sym, S].
Qed.
