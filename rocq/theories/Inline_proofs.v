(** Proofs for Prop_inline.v: selecting everything from a common table expression. *)
From Coq Require Import Strings.String Strings.Ascii NArith ZArith List Bool Lia Sorting.Permutation Sorting.Sorted.
From Verif Require Import GoStr GoNum Syntax Value Util Model Sqlf Sqlb Spec_syntax RefSem Spec_build
  Spec_util Spec_eval Spec_query Spec_sql Spec_nest Spec_interp Spec_answer Spec_views Nread2_proofs Nexec_proofs Reunite_proofs Spec_sqltok Spec_read Spec_nread Spec_exec Spec_nexec Spec_inline.
Import ListNotations.
Open Scope string_scope.
Open Scope list_scope.

Lemma lean_names : forall B i, names_of (map lean B) i = names_of B i.
Proof. intros B i. unfold names_of. rewrite nth_lean'. destruct (nth_error B i); reflexivity. Qed.
Lemma lean_matching : forall B d i, matching B d i -> matching (map lean B) d i.
Proof.
  intros B. induction d as [|d IH]; intros i H; [exact I|]. cbn [matching] in *. rewrite nth_lean'. destruct (nth_error B i) as [y|]; [|exact I]. cbn [option_map]. intros j Hj. rewrite !lean_names. destruct (H j Hj) as (L & M). split; [exact L|apply IH; exact M].
Qed.
(** Looking up all names gives all values. *)
Lemma named_all : forall D names vs, NoDup names -> List.length vs = List.length names -> map (Spec_views.named D names vs) names = vs.
Proof.
  intros D names. induction names as [|c names IH]; intros [|v vs] N L; try discriminate L; [reflexivity|]. inversion N as [|? ? Nc N']; subst. cbn [map]. f_equal.
  - unfold Spec_views.named. cbn. rewrite String.eqb_refl. reflexivity.
  - transitivity (map (Spec_views.named D names vs) names); [|apply IH; [exact N'|injection L as L; exact L]]. apply map_ext_in. intros c' Hc. unfold Spec_views.named. cbn [combine find fst snd].
    destruct (String.eqb c c') eqn:E; [apply String.eqb_eq in E; subst c'; contradiction|reflexivity].
Qed.

Section Answers.
Variable D : database.
Variable sub : string -> d_val D -> list (list (d_val D)) -> bool.
Variable B : list xstmt.
Lemma answer_width : forall d E i l, matching B d i -> answer D sub B d E i l -> forall v, In v l -> List.length v = List.length (names_of B i).
Proof.
  induction d as [|d IH]; intros E i l M H v Hv; [destruct H|]. cbn [answer matching] in *. destruct (nth_error B i) as [y|] eqn:Q; [|destruct H].
  destruct H as (E' & ts & a & us & _ & _ & (s & R & _ & C) & U & T).
  assert (W : In v (map (out_row D (x_stmt y)) a) -> List.length v = List.length (names_of B i)).
  { intros Hm. apply in_map_iff in Hm. destruct Hm as (r & <- & Hr). assert (Hs : In r s).
    { rewrite C in Hr. unfold cut in Hr. clear -Hr. assert (K1 : forall n (l : list (result_row (with_rows D E'))), incl (firstn n l) l) by (intros n l x Hx; rewrite <- (firstn_skipn n l); apply in_or_app; left; exact Hx).
      assert (K2 : forall n (l : list (result_row (with_rows D E'))), incl (skipn n l) l) by (intros n l x Hx; rewrite <- (firstn_skipn n l); apply in_or_app; right; exact Hx).
      repeat match type of Hr with context [if ?c then _ else _] => destruct c end; repeat first [apply K1 in Hr|apply K2 in Hr]; exact Hr. }
    assert (Hm : In r (results_where (with_rows D E') (x_stmt y) ts)) by (destruct (m_distinct (x_stmt y)); [apply R; exact Hs|apply (Permutation_in r R); exact Hs]).
    unfold results_where in Hm. apply in_map_iff in Hm. destruct Hm as (g & <- & _). unfold names_of. rewrite Q. unfold out_row, out_names. cbn [fst snd]. rewrite !app_length, !map_length. destruct (m_distinct (x_stmt y)); [|reflexivity]. rewrite !map_length, seq_length. reflexivity. }
  unfold together in T. destruct us as [|u us]; [subst l; apply W; exact Hv|]. destruct T as (_ & T). apply T in Hv. destruct Hv as (b & [<-|Hb] & Hv); [apply W; exact Hv|].
  destruct (f2_right _ _ _ _ _ U b Hb) as (j & Hj & Hb'). destruct (M j Hj) as (L & Mj). rewrite <- L. apply (IH E' j b Mj Hb' v Hv).
Qed.
Hypothesis O : forall a b, d_before D [] a b.
Lemma all_answers : forall d E id i w a deps l, a <> "" -> NoDup (names_of B i) -> matching B d i ->
  nth_error B id = Some (mkX (mkStmt false (map (pair a) (names_of B i)) (w, a) [] [] [] [] 0 0) [mkWith w deps i true] [] []) ->
  answer D sub B (S d) E id l <-> exists l', answer D sub B d E i l' /\ Permutation l l'.
Proof.
  intros d E id i w a deps l Ha N M Q. cbn [answer]. rewrite Q. cbn [x_stmt x_withs x_conds x_unions with_tables w_id w_name].
  set (m := mkStmt false (map (pair a) (names_of B i)) (w, a) [] [] [] [] 0 0).
  assert (Ea : is_empty a = false) by (destruct a; [contradiction Ha; reflexivity|reflexivity]).
  assert (R : forall b, answer D sub B d E i b -> results_where (with_rows D (bind_table D w (map (Spec_views.named D (names_of B i)) b) E)) m [] = map (fun v => (v, [])) b).
  { intros b Hb. assert (HT : bind_table D w (map (Spec_views.named D (names_of B i)) b) E w = map (Spec_views.named D (names_of B i)) b) by (unfold bind_table; rewrite String.eqb_refl; reflexivity).
    revert HT. generalize (bind_table D w (map (Spec_views.named D (names_of B i)) b) E). intros T HT. unfold results_where, groups_of, where_rows, from_rows. cbn [m m_groups m_joins m_main m_cols m_orders fold_left fst snd map forallb with_rows d_rows]. rewrite HT.
    pose proof (answer_width d E i b M Hb) as Wd. clear Hb HT. induction b as [|v b IH]; [reflexivity|]. cbn [map filter]. f_equal; [|apply IH; intros u Hu; apply Wd; right; exact Hu].
    f_equal. rewrite map_map. transitivity (map (Spec_views.named D (names_of B i) v) (names_of B i)); [|exact (named_all D _ v N (Wd v (or_introl eq_refl)))].
    apply map_ext. intros c. unfold col_value. cbn [fst snd hd]. rewrite Ea. unfold bind, known_as. cbn [fst snd]. rewrite Ea, String.eqb_refl. reflexivity. }
  assert (Z : forall b, map (out_row D m) (map (fun v => (v, [])) b) = b) by (induction b as [|v b IH]; [reflexivity|]; cbn [map]; rewrite IH; f_equal; apply app_nil_r).
  split.
  - intros (E' & ts & x & us & (b & Hb & ->) & T & (s & P & _ & C) & U & G). inversion T. subst ts. inversion U. subst us. cbn [together] in G. subst l. exists b. split; [exact Hb|].
    cbn [m m_distinct] in P. fold m in P. pose proof (eq_ind _ (Permutation s) P _ (R b Hb)) as P1. clear P. rename P1 into P. apply (Permutation_map (out_row D m)) in P. subst x. exact (eq_ind _ (Permutation _) P _ (Z b)).
  - intros (b & Hb & P). exists (bind_table D w (map (Spec_views.named D (names_of B i)) b) E), [], (map (fun v => (v, [])) l), []. split; [exists b; split; [exact Hb|reflexivity]|]. split; [constructor|].
    split; [|split; [constructor|]].
    + exists (map (fun v => (v, [])) l). cbn [m m_distinct]. fold m. split; [exact (eq_ind_r (Permutation _) (Permutation_map _ P) (R b Hb))|]. split; [|reflexivity].
      clear -O. induction l as [|v l IH]; cbn [map]; constructor; [exact IH|]. apply Forall_forall. intros z Hz. apply in_map_iff in Hz. destruct Hz as (u & <- & _). apply O.
    + symmetry. exact (Z l).
Qed.
End Answers.

Lemma all_lean : forall B id i w a deps, nth_error B id = Some (mkX (mkStmt false (map (pair a) (names_of B i)) (w, a) [] [] [] [] 0 0) [mkWith w deps i true] [] []) ->
  nth_error (map lean B) id = Some (mkX (mkStmt false (map (pair a) (names_of (map lean B) i)) (w, a) [] [] [] [] 0 0) [mkWith w deps i true] [] []).
Proof. intros B id i w a deps H. rewrite nth_lean', H, lean_names. reflexivity. Qed.
Lemma all_book : forall E sub_test B d id i w a rows, selects_all B id i w a -> matching B d i -> orderless E ->
  book_answers E sub_test (map lean B) (S d) id rows <-> exists rows', book_answers E sub_test (map lean B) d i rows' /\ Permutation rows rows'.
Proof.
  intros E sub_test B d id i w a rows (Ha & N & deps & Q) M O. unfold book_answers. apply (all_answers (database_of E) _ (map lean B) O d _ id i w a deps rows Ha); [rewrite lean_names; exact N|apply lean_matching; exact M|apply all_lean; exact Q].
Qed.
Lemma all_parts : forall B d id i w a, selects_all B id i w a -> complete B (S d) id -> used_once B (S d) id ->
  complete B d i /\ used_once B d i /\ size_of B d i <= size_of B (S d) id /\ args_of B (S d) id = args_of B d i.
Proof.
  intros B d id i w a (_ & _ & deps & Q) C U. cbn [complete size_of args_of] in *. unfold used_once in *. cbn [members] in U. rewrite Q in *. cbn [emitted x_withs filter w_emitted flat_map x_conds x_unions] in *. unfold refs, emitted in *. cbn [x_withs x_conds x_unions filter w_emitted map flat_map app w_id] in *.
  split; [apply C; left; reflexivity|]. split; [|split; [cbn [map list_sum fold_right]; lia|rewrite !app_nil_r; reflexivity]].
  rewrite app_nil_r in U. cbn [filter] in U. destruct (changes B id); [inversion U; assumption|exact U].
Qed.
Theorem inline_question : forall B oss style d id i w a, style <> style_dollar -> book oss B -> Forall xnamed B -> complete B (S d) id -> used_once B (S d) id -> selects_all B id i w a -> matching B d i ->
  exists qs, made oss qs /\ forall n, size_of B (S d) id <= n -> exists s args s' args',
    fst (build_query n style qs (query id)) = ROk (s, args) /\ fst (build_query n style qs (query i)) = ROk (s', args') /\
    forall E sub_test rows, orderless E -> executes_all E sub_test args s rows <-> exists rows', executes_all E sub_test args' s' rows' /\ Permutation rows rows'.
Proof.
  intros B oss style d id i w a Hs Hb N C U A M. destruct (all_parts B d id i w a A C U) as (C' & U' & Sz & _).
  destruct (nexec_question B oss style (S d) id Hs Hb N C U) as (qs & Mq & H). destruct (nexec_question B oss style d i Hs Hb N C' U') as (qs' & Mq' & H'). rewrite (made_unique _ _ _ Mq' Mq) in H'.
  exists qs. split; [exact Mq|]. intros n Hn. destruct (H n Hn) as (s & args & X & R). destruct (H' n (Nat.le_trans _ _ _ Sz Hn)) as (s' & args' & X' & R').
  exists s, args, s', args'. split; [exact X|]. split; [exact X'|]. intros E sub rows O. rewrite R, (all_book E sub B d id i w a rows A M O).
  split; intros (l & Hl & P); exists l; (split; [apply R'; exact Hl|exact P]).
Qed.
Theorem inline_dollar : forall B oss d id i w a, book oss B -> Forall xnamed B -> complete B (S d) id -> used_once B (S d) id -> selects_all B id i w a -> matching B d i -> forallb hashable (args_of B d i) = true ->
  exists qs, made oss qs /\ forall n, size_of B (S d) id <= n -> exists s args s' args',
    fst (build_query n style_dollar qs (query id)) = ROk (s, args) /\ fst (build_query n style_dollar qs (query i)) = ROk (s', args') /\
    forall E sub_test rows, by_value E -> orderless E -> executes_all E sub_test args s rows <-> exists rows', executes_all E sub_test args' s' rows' /\ Permutation rows rows'.
Proof.
  intros B oss d id i w a Hb N C U A M Hh. destruct (all_parts B d id i w a A C U) as (C' & U' & Sz & Ea).
  destruct (nexec_dollar B oss (S d) id Hb N C U ltac:(rewrite Ea; exact Hh)) as (qs & Mq & H). destruct (nexec_dollar B oss d i Hb N C' U' Hh) as (qs' & Mq' & H'). rewrite (made_unique _ _ _ Mq' Mq) in H'.
  exists qs. split; [exact Mq|]. intros n Hn. destruct (H n Hn) as (s & args & X & R). destruct (H' n (Nat.le_trans _ _ _ Sz Hn)) as (s' & args' & X' & R').
  exists s, args, s', args'. split; [exact X|]. split; [exact X'|]. intros E sub rows Hv O. rewrite (R E sub rows Hv), (all_book E sub B d id i w a rows A M O).
  split; intros (l & Hl & P); exists l; (split; [apply (R' E sub l Hv); exact Hl|exact P]).
Qed.
