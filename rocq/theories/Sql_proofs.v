(** Proofs for whole queries. *)
From Coq Require Import Strings.String Strings.Ascii NArith ZArith List Bool Lia.
From Verif Require Import GoStr GoNum Syntax Value Util Model Sqlf Sqlb Spec_syntax Spec_eval Spec_query Spec_sql
  Lex_proofs Num_proofs Grammar_proofs Text_proofs Sim_proofs Eval_proofs Use_proofs Join_proofs Join2_proofs
  Deps_proofs Query_proofs Ops_proofs Query2_proofs Clause_proofs Ops2_proofs Query3_proofs Spec_build Store_proofs Build_proofs.
Import ListNotations.
Open Scope string_scope.

(* ------------------------------------------------------------------ *)
(** * Texts without outer blanks *)

Lemma trim_vis : forall s, vis_str s -> trim_space s = s.
Proof.
  intros s [(a & r & E1 & V1) (r2 & b & E2 & V2)]. unfold trim_space. rewrite E1, trim_left_vis by exact V1.
  rewrite <- E1, E2, trim_right_app by exact V2. reflexivity.
Qed.
Lemma vis_app : forall a m b, vis_str a -> vis_str b -> vis_str (a ++ m ++ b).
Proof.
  intros a m b [(x & r & E1 & V1) _] [_ (r2 & y & E2 & V2)]. split.
  - exists x, (r ++ m ++ b). rewrite E1. auto.
  - exists (a ++ m ++ r2), y. rewrite E2, !append_assoc. auto.
Qed.
Lemma vis_app2 : forall a b, vis_str a -> vis_str b -> vis_str (a ++ b).
Proof. intros a b Ha Hb. apply (vis_app a "" b Ha Hb). Qed.
Lemma word_char_vis : forall a, word_char a = true -> vis a = true.
Proof.
  intros a H. unfold word_char in H. apply andb_true_iff in H as [H _]. unfold in_range in H.
  apply andb_true_iff in H as [H1 H2]. apply N.leb_le in H1, H2. unfold vis.
  apply andb_true_iff. split; [apply N.ltb_lt; lia|]. apply negb_true_iff. unfold is_space.
  replace (code a <=? 255)%N with true by (symmetry; apply N.leb_le; lia). unfold in_range.
  replace (code a <=? 13)%N with false by (symmetry; apply N.leb_gt; lia). rewrite andb_false_r.
  repeat (apply orb_false_iff; split); try reflexivity; apply N.eqb_neq; lia.
Qed.
Lemma word_vis : forall s, word s = true -> vis_str s.
Proof.
  intros s H. unfold word in H. apply andb_true_iff in H as [H1 H2]. split.
  - destruct s as [|a s]; [discriminate H1|]. exists a, s. split; [reflexivity|].
    cbn in H2. apply andb_true_iff in H2. apply word_char_vis, H2.
  - induction s as [|a s IH]; [discriminate H1|]. cbn in H2. apply andb_true_iff in H2 as [Ha Hs].
    destruct s as [|b s]; [exists "", a; split; [reflexivity|apply word_char_vis, Ha]|].
    destruct (IH eq_refl Hs) as (r & y & E & V). exists (String a r), y. rewrite E. auto.
Qed.
Lemma all_imp : forall (p q : ascii -> bool) s, (forall a, p a = true -> q a = true) -> all p s = true -> all q s = true.
Proof.
  induction s as [|a s IH]; intros Hi H; [reflexivity|]. cbn in *. apply andb_true_iff in H as [H1 H2].
  rewrite (Hi a H1). apply IH; assumption.
Qed.
Lemma word_plain_text : forall s, word s = true -> plain_text s = true.
Proof.
  intros s H. unfold word in H. apply andb_true_iff in H as [_ H]. unfold plain_text. revert H. apply all_imp.
  intros a Ha. unfold word_char in Ha. apply andb_true_iff in Ha. apply Ha.
Qed.
Lemma operator_plain : forall s, operator s = true -> plain_text s = true /\ starts is_digit s = false.
Proof.
  intros s H. unfold operator in H. apply andb_true_iff in H as [H1 H2]. apply negb_true_iff in H2. split; [|exact H2].
  unfold plain_text. revert H1. apply all_imp. intros a Ha. apply orb_true_iff in Ha as [Ha|Ha].
  - unfold word_char in Ha. apply andb_true_iff in Ha. apply Ha.
  - apply Ascii.eqb_eq in Ha. subst a. reflexivity.
Qed.
Lemma col_vis : forall c, col_ok c = true -> vis_str (col_text c).
Proof.
  intros [t n] H. unfold col_ok in H. cbn [fst snd] in H. apply andb_true_iff in H as [H1 H2]. unfold col_text. cbn [fst snd].
  destruct (is_empty t) eqn:E; [apply word_vis, H2|]. cbn [orb] in H1. apply vis_app; apply word_vis; assumption.
Qed.
Lemma table_vis : forall t, table_ok t = true -> vis_str (table_text t).
Proof.
  intros [t n] H. unfold table_ok in H. cbn [fst snd] in H. apply andb_true_iff in H as [H1 H2]. unfold table_text. cbn [fst snd].
  destruct (is_empty n) eqn:E; [apply word_vis, H1|]. cbn [orb] in H2. apply vis_app; apply word_vis; assumption.
Qed.
Lemma empty_plain : forall s, is_empty s = true -> plain_text s = true.
Proof. intros [|a s] H; [reflexivity|discriminate H]. Qed.
Lemma vis_not_empty : forall s, vis_str s -> is_empty s = false.
Proof. intros s H. apply vis_nonempty in H. destruct s; [congruence|reflexivity]. Qed.

Lemma vis_join : forall sep l, Forall vis_str l -> l <> [] -> vis_str (str_join sep l).
Proof.
  intros sep. induction l as [|x l IH]; intros F H; [congruence|]. inversion F as [|? ? Fx Fl]; subst.
  destruct l as [|y l]; [exact Fx|]. cbn [str_join]. apply vis_app; [exact Fx|]. apply IH; [exact Fl|discriminate].
Qed.
Lemma nonempty_vis : forall l, Forall vis_str l -> nonempty_items l = l.
Proof.
  induction l as [|x l IH]; intro F; [reflexivity|]. inversion F; subst. unfold nonempty_items in *. cbn [filter].
  rewrite vis_not_empty by assumption. cbn [negb]. f_equal. apply IH. assumption.
Qed.
Lemma join_split : forall sep a b, a <> [] -> b <> [] -> str_join sep (a ++ b) = str_join sep a ++ sep ++ str_join sep b.
Proof.
  intros sep. induction a as [|x a IH]; intros b Ha Hb; [congruence|]. destruct a as [|y a].
  - cbn [app str_join]. destruct b; [congruence|reflexivity].
  - change ((x :: y :: a) ++ b)%list with (x :: ((y :: a) ++ b))%list.
    change (str_join sep (x :: ((y :: a) ++ b)%list)) with (x ++ sep ++ str_join sep ((y :: a) ++ b)%list).
    rewrite IH by (congruence || assumption). cbn [str_join]. rewrite !append_assoc. reflexivity.
Qed.

(* ------------------------------------------------------------------ *)
(** * Parts *)

Definition E0 : env := [builtins].
Lemma col_build : forall n c st, col_ok c = true -> build (S (S n)) E0 (col_call c) st = (ROk (col_text c), st).
Proof.
  intros n [t x] st H. pose proof (col_vis _ H) as V. unfold col_ok in H. cbn [fst snd] in H. apply andb_true_iff in H as [H1 H2].
  unfold col_call. cbn [fst snd]. rewrite column_text; [|apply orb_true_iff in H1 as [H1|H1]; [apply empty_plain, H1|apply word_plain_text, H1]|apply word_plain_text, H2].
  unfold word in H2. apply andb_true_iff in H2 as [H2 _]. apply negb_true_iff in H2. rewrite H2.
  unfold col_text in V |- *. cbn [fst snd] in *. rewrite trim_vis by exact V. reflexivity.
Qed.
Lemma cols_build : forall n cs st, Forall (fun c => col_ok c = true) cs ->
  do_all (build (S (S n)) E0) (map col_call cs) st = (ROk (map col_text cs), st).
Proof.
  induction cs as [|c cs IH]; intros st F; [reflexivity|]. inversion F as [|? ? Fc Fs]; subst.
  cbn [map do_all]. rewrite col_build by exact Fc. rewrite (IH st Fs). reflexivity.
Qed.

Lemma eval_f2 : forall rb rc jf e fc b c frags X, fr_frags fc = b :: c :: frags -> lookup_fn e "f" = Some FnFragment ->
  eval_expr rb rc jf e fc (unstrip (ACall "f" [LNum (float_of_N 2)])) X =
  safe "f" (let '(r, st') := rb e c (fs_st X) in (r, mkFS st' (fs_ua X) (mark 1 (fs_uf X)))).
Proof.
  intros rb rc jf e fc b c frags X Hf Hl. cbn [unstrip eval_expr]. unfold eval_function. rewrite Hl, eval_call_fragment.
  cbn [List.length Nat.eqb eval_args eval_arg call_index lit_int]. rewrite int_of_float_N by reflexivity.
  unfold func_fragment. rewrite Hf. unfold nth1. replace ((1 <=? Z.of_N 2)%Z && (Z.of_N 2 <=? Z.of_nat (List.length (b :: c :: frags)))%Z) with true; [reflexivity|].
  cbn [List.length]. symmetry. apply andb_true_intro. split; apply Z.leb_le; lia.
Qed.
Lemma on_build : forall n b c st t1 st1 t2 st2,
  build (S n) E0 b st = (ROk t1, st1) -> build (S n) E0 c st1 = (ROk t2, st2) ->
  build (S (S n)) E0 (BFrag (Ff "#f1=#f2" [b; c])) st = (ROk (trim_space (t1 ++ "=" ++ t2)), st2).
Proof.
  intros n b c st t1 st1 t2 st2 H1 H2.
  change (Ff "#f1=#f2" [b; c]) with (Frag (print [Indexed "f" 1; Text "="; Indexed "f" 2]) [] [b; c] "" "").
  rewrite build_parts by (vm_compute; reflexivity). cbn [denote print1 map]. rewrite clause_cons.
  rewrite (eval_f1 _ _ _ E0 (mkFrame [] [b; c]) b [c] _ eq_refl eq_refl). cbn [fs_st]. rewrite H1. cbn [safe andthen].
  rewrite clause_cons. cbn [unstrip eval_expr andthen]. rewrite clause_cons.
  change (ECall "f" [LNum (float_of_N 2)] _) with (unstrip (ACall "f" [LNum (float_of_N 2)])).
  rewrite (eval_f2 _ _ _ E0 (mkFrame [] [b; c]) b c [] _ eq_refl eq_refl). cbn [fs_st]. rewrite H2.
  cbn [safe andthen clause mark map all_used forallb fs_ua fs_uf finish fs_st andb]. rewrite append_nil_r. rewrite wrapped_none. reflexivity.
Qed.

Lemma join_vis : forall j, table_ok (j_table j) = true -> col_ok (j_left j) = true -> col_ok (j_right j) = true -> vis_str (join_sql j).
Proof.
  intros j Ht Hl Hr. unfold join_sql. apply vis_app.
  - destruct (j_kind j); (split; [eexists _, _; split; [reflexivity|reflexivity]|]).
    + exists "INNER JOI", "N"%char. split; reflexivity.
    + exists "LEFT JOI", "N"%char. split; reflexivity.
    + exists "RIGHT JOI", "N"%char. split; reflexivity.
    + exists "FULL JOI", "N"%char. split; reflexivity.
    + exists "LEFT JOI", "N"%char. split; reflexivity.
  - apply vis_app; [apply table_vis, Ht|]. apply vis_app; apply col_vis; assumption.
Qed.
Definition optional (j : join) : bool := match j_kind j with JOptional _ => true | _ => false end.
Definition jt (j : join) : from_table := join_table (kind_text (j_kind j)) (j_table j) (Ff "#f1=#f2" [col_call (j_left j); col_call (j_right j)]) (optional j).
Lemma jbuild : forall n j st, table_ok (j_table j) = true -> col_ok (j_left j) = true -> col_ok (j_right j) = true ->
  build (S (S (S (S n)))) E0 (table_builder (jt j)) st = (ROk (join_sql j), st).
Proof.
  intros n j st Ht Hl Hr. pose proof (join_vis j Ht Hl Hr) as VJ.
  pose proof (col_vis _ Hl) as Vl. pose proof (col_vis _ Hr) as Vr. pose proof (table_vis _ Ht) as Vt.
  assert (Vo : vis_str (col_text (j_left j) ++ "=" ++ col_text (j_right j))) by (apply vis_app; assumption).
  pose proof (on_build (S n) _ _ st _ _ _ _ (col_build n _ st Hl) (col_build n _ st Hr)) as Ho. rewrite trim_vis in Ho by exact Vo.
  unfold table_ok in Ht. apply andb_true_iff in Ht as [Ht1 Ht2].
  pose proof (join_text (S (S n)) E0 (kind_text (j_kind j)) (j_table j) "#f1=#f2" [] [col_call (j_left j); col_call (j_right j)] "" ""
    (col_text (j_left j) ++ "=" ++ col_text (j_right j)) st st eq_refl) as J.
  change (table_builder (jt j)) with (BFrag (Ff (join_raw (kind_text (j_kind j)) (j_table j)) [BFrag (with_prefix (Frag "#f1=#f2" [] [col_call (j_left j); col_call (j_right j)] "" "") "ON")])).
  rewrite J; [|destruct (j_kind j); reflexivity|apply word_plain_text, Ht1|apply orb_true_iff in Ht2 as [H|H]; [apply empty_plain, H|apply word_plain_text, H]|exact Ho].
  change (table_and_alias (j_table j)) with (table_text (j_table j)).
  unfold wrapped. rewrite (vis_not_empty _ Vo). cbn [is_empty].
  assert (E : kind_text (j_kind j) ++ " " ++ table_text (j_table j) ++ " " ++ (("ON" ++ " ") ++ (col_text (j_left j) ++ "=" ++ col_text (j_right j)) ++ "")
              = join_sql j).
  { unfold join_sql. rewrite append_nil_r, !append_assoc. reflexivity. }
  rewrite E, trim_vis by exact VJ. reflexivity.
Qed.

(* ------------------------------------------------------------------ *)
(** * Conditions *)

Lemma commit_vis : forall v st ph st', commit v st = (ROk ph, st') -> vis_str ph.
Proof.
  intros v st ph st' H. unfold commit in H. destruct (st_dollar st).
  - destruct (hashable v); [|discriminate H]. destruct (dict_find v (st_dict st)); injection H as <- _; apply vis_dollar.
  - injection H as <- _. apply vis_question.
Qed.
Lemma commits_vis : forall vs st phs st', do_all commit vs st = (ROk phs, st') -> Forall vis_str phs.
Proof.
  induction vs as [|v vs IH]; intros st phs st' H; cbn [do_all] in H; [injection H as <- _; constructor|].
  destruct (commit v st) as [[ph|er|er|] st1] eqn:E; try discriminate H.
  destruct (do_all commit vs st1) as [[ps|er|er|] st2] eqn:E2; try discriminate H. injection H as <- _.
  constructor; [exact (commit_vis _ _ _ _ E)|exact (IH _ _ _ E2)].
Qed.
Lemma commits_heap : forall vs st phs st' h, do_all commit vs st = (ROk phs, st') ->
  do_all commit vs (set_heap st h) = (ROk phs, set_heap st' h).
Proof.
  induction vs as [|v vs IH]; intros st phs st' h H; cbn [do_all] in H |- *; [injection H as <- <-; reflexivity|].
  rewrite Sim_proofs.commit_heap. destruct (commit v st) as [[ph|er|er|] st1] eqn:E; try discriminate H. cbn [fst snd].
  destruct (do_all commit vs st1) as [[ps|er|er|] st2] eqn:E2; try discriminate H. injection H as <- <-.
  rewrite (IH _ _ _ h E2). reflexivity.
Qed.
Lemma do_all_split : forall A (step : A -> store -> outcome string * store) a b st phs st', do_all step (a ++ b) st = (ROk phs, st') ->
  exists st1, do_all step a st = (ROk (firstn (List.length a) phs), st1) /\ do_all step b st1 = (ROk (skipn (List.length a) phs), st').
Proof.
  intros A step. induction a as [|x a IH]; intros b st phs st' H; cbn [app do_all] in H |- *.
  - exists st. split; [reflexivity|exact H].
  - destruct (step x st) as [[s|er|er|] st1]; try discriminate H.
    destruct (do_all step (a ++ b) st1) as [[ss|er|er|] st2] eqn:E; try discriminate H. injection H as <- <-.
    destruct (IH b st1 ss st2 E) as (st3 & E1 & E2). exists st3. cbn [List.length firstn skipn]. rewrite E1. split; [reflexivity|exact E2].
Qed.

Definition cond_builder (x : cond) : builder := hd BNil (condition (cond_call x)).
Lemma cond_build : forall n x st phs st', cond_ok x -> do_all commit (cond_args x) st = (ROk phs, st') ->
  List.length (cond_args x) <= n ->
  build (S (S (S n))) E0 (cond_builder x) st = (ROk (cond_text x phs), st') /\ vis_str (cond_text x phs).
Proof.
  intros n x st phs st' [Hc Hx] Hd Hn. pose proof (commits_vis _ _ _ _ Hd) as V. pose proof (col_vis _ Hc) as Vc.
  destruct x as [c op v|c l|c l]; cbn [cond_col cond_args cond_text] in *.
  - cbn [do_all] in Hd. destruct (commit v st) as [[ph|er|er|] st1] eqn:E; try discriminate Hd. injection Hd as <- <-.
    cbn [str_join]. inversion V as [|? ? Vp _]; subst. assert (Va : vis_str (col_text c ++ op ++ ph)) by (apply vis_app; assumption).
    split; [|exact Va]. destruct (operator_plain _ Hx) as [P1 P2].
    pose proof (compared (S n) E0 op (col_call c) v st (col_text c) st ph st1 eq_refl P1 P2 (col_build n c st Hc) E) as K.
    rewrite trim_vis in K by exact Va. exact K.
  - assert (Va : vis_str (col_text c ++ " IN (" ++ str_join ", " phs ++ ")")).
    { replace (col_text c ++ " IN (" ++ str_join ", " phs ++ ")") with (col_text c ++ (" IN (" ++ str_join ", " phs) ++ ")") by (rewrite !append_assoc; reflexivity).
      apply vis_app; [exact Vc|]. split; [exists ")"%char, ""|exists "", ")"%char]; split; reflexivity. }
    split; [|exact Va].
    pose proof (listed_in n E0 " IN " (col_call c) (flat l) st (col_text c) st phs st' eq_refl eq_refl eq_refl eq_refl eq_refl (col_build n c st Hc) Hd Hn) as K.
    rewrite nonempty_vis in K by exact V. rewrite trim_vis in K; [exact K|exact Va].
  - assert (Va : vis_str (col_text c ++ " NOT IN (" ++ str_join ", " phs ++ ")")).
    { replace (col_text c ++ " NOT IN (" ++ str_join ", " phs ++ ")") with (col_text c ++ (" NOT IN (" ++ str_join ", " phs) ++ ")") by (rewrite !append_assoc; reflexivity).
      apply vis_app; [exact Vc|]. split; [exists ")"%char, ""|exists "", ")"%char]; split; reflexivity. }
    split; [|exact Va].
    pose proof (listed_in n E0 " NOT IN " (col_call c) (flat l) st (col_text c) st phs st' eq_refl eq_refl eq_refl eq_refl eq_refl (col_build n c st Hc) Hd Hn) as K.
    rewrite nonempty_vis in K by exact V. rewrite trim_vis in K; [exact K|exact Va].
Qed.
Lemma conds_build : forall n cs st phs st', Forall cond_ok cs -> do_all commit (flat_map cond_args cs) st = (ROk phs, st') ->
  List.length (flat_map cond_args cs) <= n ->
  do_all (build (S (S (S n))) E0) (map cond_builder cs) st = (ROk (cond_texts cs phs), st') /\ Forall vis_str (cond_texts cs phs).
Proof.
  intros n. induction cs as [|x cs IH]; intros st phs st' F Hd Hn; cbn [flat_map map cond_texts do_all] in *.
  - injection Hd as <- <-. split; [reflexivity|constructor].
  - inversion F as [|? ? Fx Fs]; subst. rewrite app_length in Hn. destruct (do_all_split _ _ _ _ _ _ _ Hd) as (st1 & D1 & D2).
    destruct (cond_build n x st _ st1 Fx D1) as [B1 V1]; [lia|]. destruct (IH st1 _ st' Fs D2) as [B2 V2]; [lia|].
    rewrite B1, B2. split; [reflexivity|constructor; assumption].
Qed.
Lemma conditions_where : forall os, conditions os = conditions (filter is_where os).
Proof.
  induction os as [|o os IH]; [reflexivity|]. unfold conditions in *. cbn [flat_map filter]. rewrite IH.
  destruct o as [|cols|z|z|cols|bs|t|kind t on opt|[f|]|col op v|col l|col l|col o|nm b deps|]; reflexivity.
Qed.
Lemma conditions_calls : forall cs, conditions (map cond_call cs) = map cond_builder cs.
Proof. induction cs as [|x cs IH]; [reflexivity|]. unfold conditions in *. cbn [map flat_map]. rewrite IH. destruct x; reflexivity. Qed.

(* ------------------------------------------------------------------ *)
(** * Ordering *)

Lemma order_word_some : forall o, (o <= 5)%N -> order_word o = Some (nth (N.to_nat o) order_words "").
Proof.
  intros o H. unfold order_word. apply nth_error_nth'. unfold order_words. cbn [List.length]. lia.
Qed.
Lemma order_word_vis : forall o, (o <= 5)%N -> vis_str (nth (N.to_nat o) order_words "").
Proof.
  intros o H. assert (K : N.to_nat o < 6) by lia. destruct (N.to_nat o) as [|[|[|[|[|[|k]]]]]]; [..|lia]; clear;
  (split; [eexists _, _; split; [reflexivity|reflexivity]|]).
  - exists "AS", "C"%char. split; reflexivity.
  - exists "ASC NULLS FIRS", "T"%char. split; reflexivity.
  - exists "ASC NULLS LAS", "T"%char. split; reflexivity.
  - exists "DES", "C"%char. split; reflexivity.
  - exists "DESC NULLS FIRS", "T"%char. split; reflexivity.
  - exists "DESC NULLS LAS", "T"%char. split; reflexivity.
Qed.
Lemma itoa_nat_digits : forall i, all is_digit (itoa_nat i) = true /\ itoa_nat i <> "".
Proof. intros i. unfold itoa_nat. split; [apply all_digits_uint2|destruct (Nat.to_uint i); discriminate]. Qed.
Lemma digits_vis : forall s, all is_digit s = true -> s <> "" -> vis_str s.
Proof.
  intros s H N. split.
  - destruct s as [|a s]; [congruence|]. exists a, s. split; [reflexivity|]. cbn in H. apply andb_true_iff in H. apply digit_vis, H.
  - destruct (last_digit s H N) as (r & a & E & Ha). exists r, a. split; [exact E|apply digit_vis, Ha].
Qed.
Lemma alias_vis : forall i, vis_str (nth_alias i).
Proof.
  intros i. destruct (itoa_nat_digits i) as [H N]. unfold nth_alias. apply vis_app2; [|apply digits_vis; assumption].
  split; [exists "_"%char, "order_"|exists "_order", "_"%char]; split; reflexivity.
Qed.
Lemma alias_plain : forall i, plain_text (order_alias i) = true.
Proof. intros i. unfold order_alias. rewrite plain_app. rewrite (digits_plain (itoa_nat i)) by apply itoa_nat_digits. reflexivity. Qed.

Definition ord_items (d : bool) (i : nat) (os : list (col * N)) : list builder :=
  map (fun x => let '(i, b, w) := x in
    if d then BFrag (F (order_alias i ++ " " ++ w)) else BFrag (Ff ("#f1 " ++ w) [b]))
    (valid_orders i (map (fun o => (col_call (fst o), snd o)) os)).
Definition ord_texts (d : bool) (i : nat) (os : list (col * N)) : list string :=
  map (fun x => let '(i, (c, o)) := x in
    (if d then nth_alias i else col_text c) ++ " " ++ nth (N.to_nat o) order_words "")
    (combine (seq i (List.length os)) os).
Lemma ord_build : forall n d os i st, Forall (fun o => col_ok (fst o) = true) os -> Forall (fun o => (snd o <= 5)%N) os ->
  do_all (build (S (S (S n))) E0) (ord_items d i os) st = (ROk (ord_texts d i os), st) /\ Forall vis_str (ord_texts d i os).
Proof.
  intros n d. induction os as [|[c o] os IH]; intros i st Fo G; [split; [reflexivity|constructor]|].
  inversion Fo as [|? ? Fc Fs]; inversion G as [|? ? Go Gs]; subst. cbn [fst snd] in *.
  unfold ord_items, ord_texts. cbn [map valid_orders fst snd List.length seq combine]. rewrite (order_word_some o Go). cbn [map].
  destruct (IH (S i) st Fs Gs) as [E V]. unfold ord_items, ord_texts in E, V. pose proof (order_word_vis o Go) as Vw.
  set (w := nth (N.to_nat o) order_words "") in *.
  assert (Va : vis_str ((if d then nth_alias i else col_text c) ++ " " ++ w)) by (apply vis_app; [destruct d; [apply alias_vis|apply col_vis, Fc]|exact Vw]).
  split; [|constructor; [exact Va|exact V]]. cbn [do_all].
  destruct (word_plain o w (order_word_some o Go)) as [P1 P2].
  assert (B : build (S (S (S n))) E0 (if d then BFrag (F (order_alias i ++ " " ++ w)) else BFrag (Ff ("#f1 " ++ w) [col_call c])) st
    = (ROk ((if d then nth_alias i else col_text c) ++ " " ++ w), st)).
  { destruct d.
    - unfold F. rewrite plain_frag, wrapped_none; [|rewrite !plain_app, alias_plain, P1; reflexivity]. rewrite trim_vis by exact Va. reflexivity.
    - rewrite (order_text (S n) E0 o w _ st (col_text c) st eq_refl (order_word_some o Go) (col_build n c st Fc)). rewrite trim_vis by exact Va. reflexivity. }
  rewrite B, E. reflexivity.
Qed.
Definition hid_items (i : nat) (os : list (col * N)) : list builder :=
  map (fun x => let '(i, b, w) := x in BFrag (Ff ("#f1 AS " ++ order_alias i) [b]))
    (valid_orders i (map (fun o => (col_call (fst o), snd o)) os)).
Definition hid_texts (i : nat) (os : list (col * N)) : list string :=
  map (fun x => col_text (fst (snd x)) ++ " AS " ++ nth_alias (fst x)) (combine (seq i (List.length os)) os).
Lemma hid_build : forall n os i st, Forall (fun o => col_ok (fst o) = true) os -> Forall (fun o => (snd o <= 5)%N) os ->
  do_all (build (S (S (S n))) E0) (hid_items i os) st = (ROk (hid_texts i os), st) /\ Forall vis_str (hid_texts i os).
Proof.
  intros n. induction os as [|[c o] os IH]; intros i st Fo G; [split; [reflexivity|constructor]|].
  inversion Fo as [|? ? Fc Fs]; inversion G as [|? ? Go Gs]; subst. cbn [fst snd] in *.
  unfold hid_items, hid_texts. cbn [map valid_orders fst snd List.length seq combine]. rewrite (order_word_some o Go). cbn [map fst snd].
  destruct (IH (S i) st Fs Gs) as [E V]. unfold hid_items, hid_texts in E, V.
  assert (Va : vis_str (col_text c ++ " AS " ++ nth_alias i)) by (apply vis_app; [apply col_vis, Fc|apply alias_vis]).
  split; [|constructor; [exact Va|exact V]]. cbn [do_all].
  rewrite (hidden_text (S n) E0 i _ st (col_text c) st eq_refl (col_build n c st Fc)).
  change (col_text c ++ " AS " ++ order_alias i) with (col_text c ++ " AS " ++ nth_alias i). rewrite trim_vis by exact Va. rewrite E. reflexivity.
Qed.
Lemma ord_len : forall d os i, Forall (fun o => (snd o <= 5)%N) os -> List.length (ord_items d i os) = List.length os.
Proof.
  intros d. induction os as [|[c o] os IH]; intros i G; [reflexivity|]. inversion G as [|? ? Go Gs]; subst. cbn [fst snd] in *.
  unfold ord_items in *. cbn [map valid_orders fst snd]. rewrite (order_word_some o Go). cbn [map List.length]. f_equal. apply IH. exact Gs.
Qed.
Lemma hid_len : forall os i, Forall (fun o => (snd o <= 5)%N) os -> List.length (hid_items i os) = List.length os.
Proof.
  induction os as [|[c o] os IH]; intros i G; [reflexivity|]. inversion G as [|? ? Go Gs]; subst. cbn [fst snd] in *.
  unfold hid_items in *. cbn [map valid_orders fst snd]. rewrite (order_word_some o Go). cbn [map List.length]. f_equal. apply IH. exact Gs.
Qed.
Lemma orders_errors : forall os, Forall (fun o : col * N => (snd o <= 5)%N) os ->
  flat_map (fun x : builder * N => match order_word (snd x) with Some _ => [] | None => [bad_order (snd x)] end)
    (map (fun o => (col_call (fst o), snd o)) os) = [].
Proof.
  induction os as [|[c o] os IH]; intro G; [reflexivity|]. inversion G as [|? ? Go Gs]; subst. cbn [map flat_map fst snd] in *.
  rewrite (order_word_some o Go). apply IH. exact Gs.
Qed.

(* ------------------------------------------------------------------ *)
(** * Tables *)

Definition with_names (l : list from_table) : list (string * nat) := combine (map (fun ft => known_as (ft_names ft)) l) (seq 0 (List.length l)).
Definition tables_are (q : qb) (l : list from_table) : Prop :=
  tables_of q = (l, seq 0 (List.length l), rev (with_names l), []).
Lemma combine_snoc : forall A B (a : list A) (b : list B) x y, List.length a = List.length b -> combine (a ++ [x]) (b ++ [y]) = (combine a b ++ [(x, y)])%list.
Proof.
  intros A B. induction a as [|u a IH]; intros [|v b] x y H; try discriminate H; [reflexivity|]. cbn. f_equal. apply IH. injection H as H. exact H.
Qed.
Lemma with_names_snoc : forall l ft, with_names (l ++ [ft]) = (with_names l ++ [(known_as (ft_names ft), List.length l)])%list.
Proof.
  intros l ft. unfold with_names. rewrite map_app, app_length. cbn [map List.length]. rewrite Nat.add_1_r, seq_S. cbn [Nat.add].
  apply combine_snoc. rewrite map_length, seq_length. reflexivity.
Qed.
Lemma with_names_in : forall l t id, In (t, id) (with_names l) -> exists ft, nth_error l id = Some ft /\ known_as (ft_names ft) = t.
Proof.
  induction l as [|ft l IH] using rev_ind; intros t id H; [destruct H|]. rewrite with_names_snoc in H. apply in_app_or in H as [H|[H|[]]].
  - destruct (IH t id H) as (x & E & K). exists x. split; [|exact K]. rewrite nth_error_app1; [exact E|]. apply nth_error_Some. congruence.
  - injection H as <- <-. exists ft. rewrite nth_error_app2, Nat.sub_diag by lia. split; reflexivity.
Qed.
Lemma assoc_none : forall l t, ~ In t (map fst l) -> @assoc nat t l = None.
Proof.
  induction l as [|[k v] l IH]; intros t H; [reflexivity|]. cbn [assoc]. destruct (String.eqb t k) eqn:E.
  - apply String.eqb_eq in E. subst k. exfalso. apply H. left. reflexivity.
  - apply IH. intro K. apply H. right. exact K.
Qed.
Lemma assoc_some : forall l t, In t (map fst l) -> exists id, @assoc nat t l = Some id /\ In (t, id) l.
Proof.
  induction l as [|[k v] l IH]; intros t H; [destruct H|]. cbn [assoc]. destruct (String.eqb t k) eqn:E.
  - apply String.eqb_eq in E. subst k. exists v. split; [reflexivity|left; reflexivity].
  - destruct H as [H|H]; [cbn in H; subst k; rewrite String.eqb_refl in E; discriminate E|].
    destruct (IH t H) as (id & E2 & K). exists id. split; [exact E2|right; exact K].
Qed.
Lemma names_of : forall l, map fst (rev (with_names l)) = rev (map (fun ft => known_as (ft_names ft)) l).
Proof.
  intros l. rewrite map_rev. f_equal. unfold with_names. assert (G : forall (a : list string) (b : list nat), List.length a = List.length b -> map fst (combine a b) = a).
  { induction a as [|x a IH]; intros [|y b] H; try discriminate H; [reflexivity|]. cbn. f_equal. apply IH. injection H as H. exact H. }
  apply G. rewrite map_length, seq_length. reflexivity.
Qed.

Lemma join_adds : forall j q l, table_ok (j_table j) = true -> tables_are q l -> l <> [] ->
  ~ In (known_as (j_table j)) (map (fun ft => known_as (ft_names ft)) l) ->
  exists q', apply_op (join_call j) q = ROk q' /\ tables_are q' (l ++ [jt j]).
Proof.
  intros j q l Ht Hq Hl Hn. unfold tables_are, tables_of in *. injection Hq as E1 E2 E3 E4.
  assert (Hf : is_empty (fst (j_table j)) = false).
  { unfold table_ok, word in Ht. destruct (is_empty (fst (j_table j))); [discriminate Ht|reflexivity]. }
  assert (Ha : assoc (applied (j_table j)) (q_tdict q) = None).
  { rewrite E3. apply assoc_none. rewrite names_of. intro K. apply in_rev in K. exact (Hn K). }
  assert (Hs : q_tables q <> []) by (rewrite E2; destruct l; [congruence|discriminate]).
  assert (J : apply_op (join_call j) q = qb_join (kind_text (j_kind j)) (j_table j) (join_on j) (optional j) q) by (unfold join_call, optional; destruct (j_kind j); reflexivity).
  rewrite J. unfold qb_join. rewrite Hf. destruct (q_tables q) as [|id ids] eqn:Et; [congruence|]. unfold join_on at 1. rewrite Ha. eexists. split; [reflexivity|].
  cbn [set_tables q_tobjs q_tables q_tdict q_errors]. rewrite E1, E3, E4, Et, E2. rewrite app_length, with_names_snoc, rev_app_distr. cbn [List.length rev app].
  rewrite Nat.add_1_r, seq_S. reflexivity.
Qed.
Lemma joins_add : forall js q l, Forall (fun j => table_ok (j_table j) = true) js -> tables_are q l -> l <> [] ->
  NoDup (map (fun ft => known_as (ft_names ft)) l ++ map (fun j => known_as (j_table j)) js) ->
  exists q', apply_ops (map join_call js) q = ROk q' /\ tables_are q' (l ++ map jt js).
Proof.
  induction js as [|j js IH]; intros q l F Hq Hl Hn; cbn [map apply_ops] in *.
  - exists q. rewrite app_nil_r. split; [reflexivity|exact Hq].
  - inversion F as [|? ? Fj Fs]; subst. destruct (join_adds j q l Fj Hq Hl) as (q1 & E1 & T1).
    { intro K. apply NoDup_remove_2 in Hn. apply Hn. apply in_or_app. left. exact K. }
    rewrite E1. destruct (IH q1 (l ++ [jt j])%list Fs T1) as (q2 & E2 & T2).
    + destruct l; discriminate.
    + rewrite map_app. cbn [map]. rewrite <- app_assoc. exact Hn.
    + exists q2. split; [exact E2|]. rewrite <- app_assoc in T2. exact T2.
Qed.
Lemma tables_made : forall m, names_ok m -> exists q, apply_ops (OFrom (m_main m) :: map join_call (m_joins m)) new_qb = ROk q /\
  tables_are q (main_table (m_main m) :: map jt (m_joins m)).
Proof.
  intros m (_ & Hm & Hj & Hn & _). cbn [apply_ops apply_op].
  assert (Hf : is_empty (fst (m_main m)) = false).
  { unfold table_ok, word in Hm. destruct (is_empty (fst (m_main m))); [discriminate Hm|reflexivity]. }
  destruct (joins_add (m_joins m) (qb_from (m_main m) new_qb) [main_table (m_main m)] Hj) as (q & E & T).
  - unfold tables_are, qb_from. rewrite Hf. reflexivity.
  - discriminate.
  - exact Hn.
  - exists q. split; [exact E|exact T].
Qed.

(* ------------------------------------------------------------------ *)
(** * Every call succeeds *)

Definition works (o : qop) : Prop := forall q, exists q', apply_op o q = ROk q'.
Lemma works_all : forall os, Forall works os -> forall q, exists q', apply_ops os q = ROk q'.
Proof.
  induction os as [|o os IH]; intros F q; cbn [apply_ops]; [eauto|]. inversion F as [|? ? Fo Fs]; subst. destruct (Fo q) as (q1 & E). rewrite E. apply IH. exact Fs.
Qed.
Lemma calls_work : forall os m, stmt_ok m -> describes os m -> Forall works os.
Proof.
  intros os m ((_ & _ & _ & _ & _ & Hc & _) & _) (_ & Ht & Hw & _). apply Forall_forall. intros o Ho q.
  destruct (is_table_op o) eqn:T.
  { assert (K : In o (filter is_table_op os)) by (apply filter_In; split; assumption). rewrite Ht in K. destruct K as [<-|K]; [cbn; eauto|].
    apply in_map_iff in K as (j & <- & _). unfold join_call. destruct (j_kind j); cbn [apply_op OInnerJoin OLeftJoin ORightJoin OFullJoin OLeftJoinOptional]; unfold qb_join, join_on;
      (destruct (is_empty _); [eauto|]); (destruct (assoc _ _); eauto). }
  destruct (is_where o) eqn:W.
  { assert (K : In o (filter is_where os)) by (apply filter_In; split; assumption). rewrite Hw in K.
    apply in_map_iff in K as (x & <- & Hx). rewrite Forall_forall in Hc. destruct (Hc x Hx) as [_ C].
    destruct x as [c op v|c l|c l]; cbn [cond_call apply_op]; [eauto|..]; destruct C as (vs & E); unfold where_in; rewrite E; eauto. }
  destruct o as [|[|b cols]|z|z|cols|bs|t|kind t on opt|[f|]|col op v|col l|col l|col o|nm b deps|]; try discriminate T; try discriminate W; cbn [apply_op]; eauto.
Qed.

(* ------------------------------------------------------------------ *)
(** * What is mentioned *)

Lemma col_mentions : forall c t, mentions (col_call c) t -> t = fst c /\ t <> "".
Proof.
  intros [a b] t H. unfold col_call, column, F in H. cbn [fst snd] in H. inversion H; subst.
  - split; [reflexivity|assumption].
  - match goal with K : In _ _ |- _ => destruct K end.
Qed.
Lemma col_no_nil : forall c, ~ has_nil (col_call c).
Proof. intros [a b] H. unfold col_call, column, F in H. inversion H; subst. match goal with K : In _ _ |- _ => destruct K end. Qed.
Lemma cond_mentions : forall x t, mentions (cond_builder x) t -> t = fst (cond_col x) /\ t <> "".
Proof.
  intros x t H. destruct x; cbn in H; inversion H; subst;
  match goal with K : In _ _ |- _ => destruct K as [<-|[]] end; apply col_mentions; assumption.
Qed.
Lemma cond_no_nil : forall x, ~ has_nil (cond_builder x).
Proof.
  intros x H. destruct x; cbn in H; inversion H; subst;
  match goal with K : In _ _ |- _ => destruct K as [<-|[]] end; eapply col_no_nil; eassumption.
Qed.
Lemma joined_mentions : forall sep p bs t, mentions (BFrag (joined_by sep p bs)) t -> exists b, In b bs /\ mentions b t.
Proof. intros sep p bs t H. unfold joined_by in H. inversion H; subst. eauto. Qed.
Lemma joined_no_nil : forall sep p bs, (forall b, In b bs -> ~ has_nil b) -> ~ has_nil (BFrag (joined_by sep p bs)).
Proof. intros sep p bs F H. unfold joined_by in H. inversion H; subst. eapply F; eassumption. Qed.
Lemma jt_mentions : forall j f t, ft_frag (jt j) = Some f -> mentions (BFrag f) t -> (t = fst (j_left j) \/ t = fst (j_right j)) /\ t <> "".
Proof.
  intros j f t E H. unfold jt, join_table in E. cbn [ft_frag] in E. injection E as <-. inversion H as [? ? ? ? ? b ? Hi Hm| | | |]; subst. destruct Hi as [<-|[]].
  unfold prefixed, Ff in Hm. cbn [f_raw f_args f_frags f_suffix] in Hm. inversion Hm as [? ? ? ? ? b ? Hi Hc| | | |]; subst.
  destruct Hi as [<-|[<-|[]]]; apply col_mentions in Hc as [-> Hn]; split; auto.
Qed.
Lemma col_mentioned : forall c, fst c <> "" -> mentions (col_call c) (fst c).
Proof. intros [a b] H. apply mn_col. exact H. Qed.
Lemma cond_mentioned : forall x, fst (cond_col x) <> "" -> mentions (cond_builder x) (fst (cond_col x)).
Proof. intros x H. destruct x; cbn; eapply mn_frag; [left; reflexivity|apply col_mentioned; exact H|left; reflexivity|apply col_mentioned; exact H|left; reflexivity|apply col_mentioned; exact H]. Qed.
Lemma joined_mentioned : forall sep p bs b t, In b bs -> mentions b t -> mentions (BFrag (joined_by sep p bs)) t.
Proof. intros sep p bs b t H M. eapply mn_frag; eassumption. Qed.
Lemma jt_mentioned : forall j c, c = j_left j \/ c = j_right j -> fst c <> "" -> exists f, ft_frag (jt j) = Some f /\ mentions (BFrag f) (fst c).
Proof.
  intros j c H N. eexists. split; [reflexivity|]. eapply mn_frag; [left; reflexivity|]. unfold prefixed, Ff. cbn [f_raw f_args f_frags f_suffix].
  eapply mn_frag; [|apply col_mentioned; exact N]. destruct H as [->| ->]; [left; reflexivity|right; left; reflexivity].
Qed.

(** The joins that are kept. *)
Section Shown.
Variables (m : stmt) (cs : list col) (q : qb).
Let l := main_table (m_main m) :: map jt (m_joins m).
Hypothesis Hok : names_ok m.
Hypothesis Hsh : shown_ok m cs.
Hypothesis Ht : tables_are q l.
Hypothesis Hd : q_distinct q = m_distinct m.
Hypothesis Hcl : forall t, (exists b, In b (clause_builders q) /\ mentions b t) <->
  (exists c, In c (m_cols m ++ cs ++ m_groups m ++ map fst (m_orders m))%list /\ t = fst c /\ t <> "").
Lemma shown_names : map (fun ft => known_as (ft_names ft)) l = m_tables m.
Proof. unfold l, m_tables. cbn [map]. rewrite map_map. reflexivity. Qed.
Lemma shown_unique : forall a b, In a l -> In b l -> known_as (ft_names a) = known_as (ft_names b) -> a = b.
Proof.
  assert (N : NoDup (map (fun ft => known_as (ft_names ft)) l)) by (rewrite shown_names; apply Hok).
  revert N. generalize l. induction l0 as [|x l0 IH]; intros N a b Ha Hb E; [destruct Ha|]. cbn [map] in N. inversion N as [|? ? N1 N2]; subst.
  destruct Ha as [<-|Ha], Hb as [<-|Hb]; [reflexivity|..].
  - exfalso. apply N1. rewrite E. apply (in_map (fun ft => known_as (ft_names ft))). exact Hb.
  - exfalso. apply N1. rewrite <- E. apply (in_map (fun ft => known_as (ft_names ft))). exact Ha.
  - apply (IH N2); assumption.
Qed.
Lemma shown_of : forall t ft, table_of q t = Some ft -> In ft l /\ known_as (ft_names ft) = t.
Proof.
  intros t ft E. unfold table_of in E. assert (T3 : q_tdict q = rev (with_names l)) by exact (f_equal (fun x => snd (fst x)) Ht).
  assert (T1 : q_tobjs q = l) by exact (f_equal (fun x => fst (fst (fst x))) Ht). destruct (assoc t (q_tdict q)) as [id|] eqn:A; [|discriminate E].
  rewrite T3 in A. apply assoc_in in A. apply in_rev in A. destruct (with_names_in l t id A) as (x & X & K). rewrite T1, X in E. injection E as <-.
  split; [eapply nth_error_In; exact X|exact K].
Qed.
Lemma shown_known : forall ft, In ft l -> table_of q (known_as (ft_names ft)) = Some ft.
Proof.
  intros ft H. assert (K : In (known_as (ft_names ft)) (map fst (rev (with_names l)))).
  { rewrite names_of. apply -> in_rev. apply (in_map (fun ft => known_as (ft_names ft))). exact H. }
  destruct (assoc_some _ _ K) as (id & E & I1). apply in_rev in I1. destruct (with_names_in l _ id I1) as (x & X & N).
  assert (T3 : q_tdict q = rev (with_names l)) by exact (f_equal (fun x => snd (fst x)) Ht).
  assert (T1 : q_tobjs q = l) by exact (f_equal (fun x => fst (fst (fst x))) Ht).
  unfold table_of. rewrite T3, E, T1, X. f_equal. apply shown_unique; [eapply nth_error_In; exact X|exact H|exact N].
Qed.
Lemma shown_main : main_of q = Some (main_table (m_main m)).
Proof.
  assert (T2 : q_tables q = seq 0 (List.length l)) by exact (f_equal (fun x => snd (fst (fst x))) Ht).
  assert (T1 : q_tobjs q = l) by exact (f_equal (fun x => fst (fst (fst x))) Ht). unfold main_of. rewrite T2, T1. reflexivity.
Qed.
Lemma shown_not_main : forall j, In j (m_joins m) -> ft_names (jt j) <> ft_names (main_table (m_main m)).
Proof.
  intros j Hj E. destruct Hok as (_ & _ & _ & N & _). unfold m_tables in N. inversion N as [|? ? N1 _]; subst. apply N1.
  apply in_map_iff. exists j. split; [|exact Hj]. exact (f_equal known_as E).
Qed.
Lemma shown_needed : forall t, needed q t <-> needs m cs t.
Proof.
  intros t. split; intro H.
  - induction H as [b t Hb Hm|t ft f u _ IH Hft Hn Hf Hm].
    + destruct (proj1 (Hcl t)) as (c & Hc & -> & Hne); [eauto|]. apply ns_col; assumption.
    + apply shown_of in Hft as [Hi <-]. destruct Hi as [<-|Hi].
      * rewrite shown_main in Hn. exfalso. apply Hn. reflexivity.
      * apply in_map_iff in Hi as (j & <- & Hj). destruct (jt_mentions j f u Hf Hm) as [[->| ->] Hne]; (eapply ns_join; [exact IH|exact Hj| |exact Hne]); auto.
  - induction H as [c Hc Hn|j c _ IH Hj Hc Hn].
    + destruct (proj2 (Hcl (fst c))) as (b & Hb & Hm); [eauto|]. eapply nd_clause; eassumption.
    + destruct (jt_mentioned j c Hc Hn) as (f & Hf & Hm). eapply (nd_join q _ (jt j) f); [exact IH| | |exact Hf|exact Hm].
      * apply (shown_known (jt j)). right. apply in_map. exact Hj.
      * rewrite shown_main. cbn [option_map]. intro E. injection E as E. exact (shown_not_main j Hj (eq_sym E)).
Qed.
Lemma shown_belongs : forall j, In j (m_joins m) -> (belongs q (jt j) <-> appears j = true).
Proof.
  intros j Hj. specialize (Hsh j Hj). unfold belongs. rewrite Hd. split.
  - intros H. apply Hsh. destruct (j_kind j) eqn:K; try exact I. intro D. destruct H as [H|[H|[H|H]]].
    + congruence.
    + unfold jt, join_table, optional in H. rewrite K in H. discriminate H.
    + rewrite shown_main in H. injection H as H. exfalso. exact (shown_not_main j Hj (eq_sym H)).
    + destruct H as (t & ft & N & T & E). apply shown_of in T as [_ <-]. apply shown_needed in N. rewrite E in N. exact N.
  - intros H. apply Hsh in H. destruct (j_kind j) eqn:K; try (right; left; unfold jt, join_table, optional; rewrite K; reflexivity).
    destruct (m_distinct m) eqn:D; [|left; reflexivity]. right. right. right. exists (known_as (j_table j)), (jt j). split; [apply shown_needed, H, eq_refl|].
    split; [|reflexivity]. apply (shown_known (jt j)). right. apply in_map. exact Hj.
Qed.
Lemma shown_filter : forall kt kc, listed q = l -> selection q kt kc -> (ctes_aliased q \/ forall j, In j (m_joins m) -> appears j = true) ->
  filter kt (listed q) = main_table (m_main m) :: map jt (m_shown m).
Proof.
  intros kt kc Hl (S1 & _ & S3) Ha. rewrite Hl in *. unfold l at 1. cbn [filter].
  rewrite (S1 (main_table (m_main m))); [f_equal| |]. 2:{ left. reflexivity. } 2:{ right. right. left. rewrite shown_main. reflexivity. }
  assert (G : forall j, In j (m_joins m) -> kt (jt j) = appears j).
  { intros j Hj. assert (I1 : In (jt j) l) by (right; apply in_map; exact Hj). pose proof (shown_belongs j Hj) as B. specialize (S1 (jt j) I1).
    destruct (appears j) eqn:E; [apply S1, B; reflexivity|]. destruct Ha as [Ha|Ha]; [|rewrite (Ha j Hj) in E; discriminate E].
    destruct (kt (jt j)) eqn:K; [|reflexivity]. assert (X : false = true); [|discriminate X]. apply B. apply (proj1 (S3 Ha)); [exact I1|exact K]. }
  unfold m_shown. clear - G. induction (m_joins m) as [|j js IH]; [reflexivity|]. cbn [map filter]. rewrite (G j (or_introl eq_refl)).
  destruct (appears j); cbn [map]; rewrite IH by (intros i Hi; apply G; right; exact Hi); reflexivity.
Qed.
Lemma shown_defined : forall t, needs m cs t -> (forall c, In c (m_cols m ++ cs ++ m_groups m ++ map fst (m_orders m))%list -> fst c = "" \/ In (fst c) (m_tables m)) -> In t (m_tables m).
Proof.
  intros t H U. assert (G : forall c, In c (m_used m) -> fst c <> "" -> In (fst c) (m_tables m)).
  { intros c Hc Hn. destruct Hok as (_ & _ & _ & _ & O5 & _). rewrite Forall_forall in O5. destruct (O5 c Hc) as [_ [E|E]]; [congruence|exact E]. }
  destruct H as [c Hc Hn|j c _ Hj Hc Hn].
  - destruct (U c Hc) as [E|E]; [congruence|exact E].
  - apply G; [|exact Hn]. unfold m_used. do 4 (apply in_or_app; right). apply in_or_app. destruct Hc as [->| ->]; [left|right]; apply in_map; exact Hj.
Qed.
End Shown.
Lemma join_call_ok : forall j, op_ok (join_call j).
Proof.
  intros j. assert (K : ~ has_nil (BFrag (Ff "#f1=#f2" [col_call (j_left j); col_call (j_right j)]))).
  { intro H. unfold Ff in H. inversion H; subst. match goal with K : In _ _ |- _ => destruct K as [<-|[<-|[]]] end; eapply col_no_nil; eassumption. }
  unfold join_call. destruct (j_kind j); exact K.
Qed.

(* ------------------------------------------------------------------ *)
(** * The whole query *)

Lemma joined_clause : forall n sep p bs st ss st', sep = ", " \/ sep = " AND " -> is_empty p = false ->
  do_all (build (S (S n)) E0) bs st = (ROk ss, st') -> Forall vis_str ss -> List.length bs <= n ->
  build (S (S (S n))) E0 (BFrag (joined_by sep p bs)) st = (ROk (match ss with [] => "" | _ => p ++ " " ++ str_join sep ss end), st').
Proof.
  intros n sep p bs st ss st' Hs Hp Hd V Hn. rewrite (clause_text n E0 sep p bs st ss st' eq_refl eq_refl Hs Hd Hn). rewrite nonempty_vis by exact V.
  destruct ss as [|x ss]; [reflexivity|]. pose proof (vis_join sep (x :: ss) V ltac:(discriminate)) as W. rewrite trim_vis by exact W.
  unfold wrapped. rewrite vis_not_empty by exact W. rewrite Hp. cbn [is_empty]. rewrite append_nil_r, append_assoc. reflexivity.
Qed.
Lemma joined_hidden : forall n bs st ss st',
  do_all (build (S (S n)) E0) bs st = (ROk ss, st') -> Forall vis_str ss -> List.length bs <= n ->
  build (S (S (S n))) E0 (BFrag (joined_by ", " "" bs)) st = (ROk (str_join ", " ss), st').
Proof.
  intros n bs st ss st' Hd V Hn. rewrite (clause_text n E0 ", " "" bs st ss st' eq_refl eq_refl (or_introl eq_refl) Hd Hn). rewrite nonempty_vis by exact V.
  rewrite wrapped_none. destruct ss as [|x ss]; [reflexivity|]. rewrite trim_vis by (apply vis_join; [exact V|discriminate]). reflexivity.
Qed.
Lemma if_any_clause : forall p sep ss, Forall vis_str ss -> if_any (match ss with [] => "" | _ => p ++ " " ++ str_join sep ss end) = list_clause p sep ss.
Proof.
  intros p sep [|x ss] V; [reflexivity|]. unfold if_any, list_clause. destruct p; reflexivity.
Qed.
Lemma list_clause_vis : forall p sep ss, vis_str p -> Forall vis_str ss -> Forall vis_str (list_clause p sep ss).
Proof.
  intros p sep [|x ss] Vp V; [constructor|]. unfold list_clause. constructor; [|constructor]. apply vis_app; [exact Vp|]. apply vis_join; [exact V|discriminate].
Qed.
Lemma itoa_pos_vis : forall z, (0 < z)%Z -> vis_str (itoa z).
Proof.
  intros [|p|p] H; try lia. unfold itoa. cbn [Z.to_int Numbers.DecimalString.NilZero.string_of_int].
  apply digits_vis; [apply all_digits_uint2|]. destruct (Pos.to_uint p); discriminate.
Qed.
Lemma number_vis : forall p z, (exists a r, p = String a r /\ vis a = true) -> Forall vis_str (number_clause p z).
Proof.
  intros p z (a & r & -> & Va). unfold number_clause. destruct (0 <? z)%Z eqn:E; [|constructor]. apply Z.ltb_lt in E. constructor; [|constructor].
  destruct (itoa_pos_vis z E) as [_ (r2 & b & E2 & Vb)]. split; [exists a, (r ++ itoa z); split; [reflexivity|exact Va]|].
  exists (String a r ++ r2), b. rewrite E2, append_assoc. split; [reflexivity|exact Vb].
Qed.
Lemma froms_build : forall n js st, Forall (fun j => table_ok (j_table j) = true) js ->
  Forall (fun c => col_ok c = true) (map j_left js) -> Forall (fun c => col_ok c = true) (map j_right js) ->
  do_all (fun ft => build (S (S (S (S n)))) E0 (table_builder ft)) (map jt js) st = (ROk (map join_sql js), st) /\ Forall vis_str (map join_sql js).
Proof.
  intros n. induction js as [|j js IH]; intros st F1 F2 F3; [split; [reflexivity|constructor]|]. cbn [map] in *.
  inversion F1; inversion F2; inversion F3; subst. cbn [do_all]. rewrite jbuild by assumption. destruct (IH st) as [E V]; try assumption. rewrite E.
  split; [reflexivity|]. constructor; [apply join_vis; assumption|exact V].
Qed.
Lemma set_q_get : forall st q r, st_heap st = [q] -> get_q (set_q st 0 r) 0 = r /\ st_heap (set_q st 0 r) = [r].
Proof. intros st q r H. unfold set_q, get_q. cbn [st_heap set_heap]. rewrite H. split; reflexivity. Qed.

Theorem query_sql : forall m os style phs st', stmt_ok m -> describes os m ->
  do_all commit (m_args m) (new_store style []) = (ROk phs, st') ->
  exists q, apply_ops os new_qb = ROk q /\
    forall n, 5 + m_size m <= n -> fst (build_query n style [q] (BQuery (Some 0))) = ROk (sql m phs, st_args st').
Proof.
  intros m os style phs st' Hok Hdesc Hcom.
  destruct (works_all os (calls_work os m Hok Hdesc) new_qb) as (q & Hq). exists q. split; [exact Hq|]. intros n Hn.
  destruct Hok as [ONames OShown]. destruct (tables_made m ONames) as (q0 & Hq0 & T0). destruct Hdesc as (D1 & D2 & D3 & D4 & D5 & D6 & D7 & D8 & D9 & D10 & D11).
  assert (T : tables_are q (main_table (m_main m) :: map jt (m_joins m))).
  { unfold tables_are in *. rewrite <- T0. rewrite <- D2 in Hq0. exact (tables_ops os new_qb new_qb q q0 eq_refl Hq Hq0). }
  clear q0 Hq0 T0. pose proof ONames as (O1 & O2 & O3 & O4 & O5 & O6 & O7).
  set (l := main_table (m_main m) :: map jt (m_joins m)) in *.
  assert (T1 : q_tobjs q = l) by exact (f_equal (fun x => fst (fst (fst x))) T).
  assert (T2 : q_tables q = seq 0 (List.length l)) by exact (f_equal (fun x => snd (fst (fst x))) T).
  assert (T3 : q_tdict q = rev (with_names l)) by exact (f_equal (fun x => snd (fst x)) T).
  assert (T4 : q_errors q = []) by exact (f_equal snd T).
  destruct (described_clauses os q Hq) as (C1 & C2 & C3 & C4 & C5 & C6 & C7 & C8 & C9 & C10 & C11).
  rewrite D1 in C1. rewrite conditions_where, D3, conditions_calls in C2. rewrite D4 in C3. rewrite D5 in C4. rewrite D10 in C5. rewrite D11 in C6.
  rewrite D6 in C7. rewrite D7 in C8. rewrite D8 in C9. rewrite D9 in C10.
  assert (Hops : Forall op_ok os).
  { apply Forall_forall. intros o Ho. destruct (is_table_op o) eqn:Et; [|destruct o; try exact I; discriminate Et].
    assert (K : In o (filter is_table_op os)) by (apply filter_In; split; assumption). rewrite D2 in K. destruct K as [<-|K]; [exact I|].
    apply in_map_iff in K as (j & <- & _). apply join_call_ok. }
  destruct (ops_ok os q Hops Hq) as [Tok Cok].
  assert (Hlist : listed q = l).
  { unfold listed. rewrite T1, T2. clear. generalize l. intro l0. transitivity (map (fun id => nth id l0 no_table) (seq 0 (List.length l0))); [reflexivity|].
    induction l0 as [|x l0 IH]; [reflexivity|]. cbn [List.length seq map nth]. f_equal. rewrite <- seq_shift, map_map. exact IH. }
  assert (Hmain : main_of q = Some (main_table (m_main m))) by (unfold main_of; rewrite T2, T1; reflexivity).
  assert (Hnames : map (fun ft => known_as (ft_names ft)) l = m_tables m).
  { unfold l, m_tables. cbn [map]. rewrite map_map. reflexivity. }
  assert (Hknown : forall t, In t (m_tables m) -> exists ft, table_of q t = Some ft).
  { intros t Hi. rewrite <- Hnames in Hi. apply in_map_iff in Hi as (ft & <- & Hi). exists ft. exact (shown_known m q ONames T ft Hi). }
  assert (Hused : forall c, In c (m_used m) -> col_ok c = true /\ (fst c = "" \/ In (fst c) (m_tables m))) by (rewrite Forall_forall in O5; exact O5).
  assert (U1 : forall c, In c (m_cols m) -> In c (m_used m)) by (intros c H; unfold m_used; apply in_or_app; left; exact H).
  assert (U2 : forall x, In x (m_conds m) -> In (cond_col x) (m_used m)) by (intros x H; unfold m_used; apply in_or_app; right; apply in_or_app; left; apply in_map; exact H).
  assert (U3 : forall c, In c (m_groups m) -> In c (m_used m)) by (intros c H; unfold m_used; do 2 (apply in_or_app; right); apply in_or_app; left; exact H).
  assert (U4 : forall c, In c (map fst (m_orders m)) -> In c (m_used m)) by (intros c H; unfold m_used; do 3 (apply in_or_app; right); apply in_or_app; left; exact H).
  assert (U5 : forall c, In c (map j_left (m_joins m)) -> In c (m_used m)) by (intros c H; unfold m_used; do 4 (apply in_or_app; right); apply in_or_app; left; exact H).
  assert (U6 : forall c, In c (map j_right (m_joins m)) -> In c (m_used m)) by (intros c H; unfold m_used; do 5 (apply in_or_app; right); exact H).
  assert (Hclauses : forall t, (exists b, In b (clause_builders q) /\ mentions b t) <->
    (exists c, In c (m_cols m ++ map cond_col (m_conds m) ++ m_groups m ++ map fst (m_orders m))%list /\ t = fst c /\ t <> "")).
  { intros t. unfold clause_builders. rewrite C1, C11, C2, C3, C4, map_map. cbn [fst app]. split.
    - intros (b & Hb & Hm). destruct Hb as [<-|[<-|[<-|[<-|Hb]]]].
      + apply joined_mentions in Hm as (b & Hb & Hm). apply in_map_iff in Hb as (c & <- & Hc). apply col_mentions in Hm. exists c. split; [apply in_or_app; left; exact Hc|exact Hm].
      + apply joined_mentions in Hm as (b & [] & _).
      + apply joined_mentions in Hm as (b & Hb & Hm). apply in_map_iff in Hb as (x & <- & Hx). apply cond_mentions in Hm. exists (cond_col x). split; [|exact Hm].
        apply in_or_app; right; apply in_or_app; left; apply in_map; exact Hx.
      + apply joined_mentions in Hm as (b & Hb & Hm). apply in_map_iff in Hb as (c & <- & Hc). apply col_mentions in Hm. exists c. split; [|exact Hm].
        do 2 (apply in_or_app; right); apply in_or_app; left; exact Hc.
      + apply in_map_iff in Hb as (o & <- & Ho). apply col_mentions in Hm. exists (fst o). split; [|exact Hm]. do 3 (apply in_or_app; right). apply in_map. exact Ho.
    - intros (c & Hc & -> & Hne). apply in_app_or in Hc as [Hc|Hc]; [|apply in_app_or in Hc as [Hc|Hc]; [|apply in_app_or in Hc as [Hc|Hc]]].
      + eexists. split; [left; reflexivity|]. eapply joined_mentioned; [apply in_map; exact Hc|apply col_mentioned, Hne].
      + apply in_map_iff in Hc as (x & <- & Hx). eexists. split; [right; right; left; reflexivity|]. eapply joined_mentioned; [apply in_map; exact Hx|apply cond_mentioned, Hne].
      + eexists. split; [right; right; right; left; reflexivity|]. eapply joined_mentioned; [apply in_map; exact Hc|apply col_mentioned, Hne].
      + apply in_map_iff in Hc as (o & <- & Ho). exists (col_call (fst o)). split; [|apply col_mentioned, Hne]. do 4 right. apply (in_map (fun x => col_call (fst x))). exact Ho. }
  assert (Hneed : forall t, needed q t -> In t (m_tables m)).
  { intros t Hi. apply (shown_needed m (map cond_col (m_conds m)) q ONames T Hclauses) in Hi. apply (shown_defined m _ ONames t Hi).
    intros c Hc. apply Hused. unfold m_used. apply in_app_or in Hc as [Hc|Hc]; [|apply in_app_or in Hc as [Hc|Hc]; [|apply in_app_or in Hc as [Hc|Hc]]].
    - apply in_or_app; left; exact Hc.
    - apply in_or_app; right; apply in_or_app; left; exact Hc.
    - do 2 (apply in_or_app; right); apply in_or_app; left; exact Hc.
    - do 3 (apply in_or_app; right); apply in_or_app; left; exact Hc. }
  assert (Hnil : forall b, In b (clause_builders q) -> ~ has_nil b).
  { intros b Hb. unfold clause_builders in Hb. rewrite C1, C11, C2, C3, C4, map_map in Hb. cbn [fst app] in Hb.
    destruct Hb as [<-|[<-|[<-|[<-|Hb]]]].
    - apply joined_no_nil. intros b Hb. apply in_map_iff in Hb as (c & <- & _). apply col_no_nil.
    - apply joined_no_nil. intros b [].
    - apply joined_no_nil. intros b Hb. apply in_map_iff in Hb as (c & <- & _). apply cond_no_nil.
    - apply joined_no_nil. intros b Hb. apply in_map_iff in Hb as (c & <- & _). apply col_no_nil.
    - apply in_map_iff in Hb as (o & <- & _). apply col_no_nil. }
  destruct (query_builds 0 (new_store style [q]) (main_table (m_main m))) as (kt & kc & Sel & Build).
  { exact Tok. } { exact Cok. } { exact Hmain. } { exact Hnil. }
  { intros t Ht Hu. destruct (Hknown t (Hneed t Ht)) as (ft & E). unfold undefined in Hu. change (get_q (new_store style [q]) 0) with q in Hu. congruence. }
  { exact C10. }
  change (get_q (new_store style [q]) 0) with q in Sel.
  assert (Hkept : filter kt (listed q) = main_table (m_main m) :: map jt (m_shown m)).
  { apply (shown_filter m (map cond_col (m_conds m)) q ONames OShown T C9 Hclauses kt kc Hlist Sel). left.
    intros c i ft K _ _. apply K. unfold cte_of. rewrite (ds_cdict _ _ _ (ops_described _ _ _ Hq)), D11. reflexivity. }
  (* the texts *)
  unfold m_size in Hn. destruct n as [|[|[|[|[|k]]]]]; try lia.
  assert (Lk : List.length (m_cols m) <= k /\ List.length (m_conds m) <= k /\ List.length (m_args m) <= k /\ List.length (m_groups m) <= k /\ List.length (m_orders m) <= k) by lia.
  clear Hn. destruct Lk as (L1 & L2 & L3 & L4 & L5).
  set (st0 := new_store style [q]). set (st1 := set_heap st' [q]).
  assert (Hcom1 : do_all commit (m_args m) st0 = (ROk phs, st1)) by exact (commits_heap _ _ _ _ [q] Hcom).
  assert (Fcols : Forall (fun c => col_ok c = true) (m_cols m)) by (apply Forall_forall; intros c Hc; apply Hused, U1, Hc).
  assert (Fgroups : Forall (fun c => col_ok c = true) (m_groups m)) by (apply Forall_forall; intros c Hc; apply Hused, U3, Hc).
  assert (Forders : Forall (fun o => col_ok (fst o) = true) (m_orders m)) by (apply Forall_forall; intros o Ho; apply Hused, U4, in_map, Ho).
  assert (Fl : Forall (fun c => col_ok c = true) (map j_left (m_joins m))) by (apply Forall_forall; intros c Hc; apply Hused, U5, Hc).
  assert (Fr : Forall (fun c => col_ok c = true) (map j_right (m_joins m))) by (apply Forall_forall; intros c Hc; apply Hused, U6, Hc).
  assert (Vcols : forall cs, Forall (fun c => col_ok c = true) cs -> Forall vis_str (map col_text cs)).
  { intros cs Fc. apply Forall_forall. intros s Hs. apply in_map_iff in Hs as (c & <- & Hc). apply col_vis. rewrite Forall_forall in Fc. exact (Fc c Hc). }
  assert (Hsub : forall j, In j (m_shown m) -> In j (m_joins m)) by (intros j Hj; apply filter_In in Hj; apply Hj).
  destruct (froms_build k (m_shown m) st0) as [Bj Vj].
  { rewrite Forall_forall in *. auto. } { rewrite Forall_map, Forall_forall in *. auto. } { rewrite Forall_map, Forall_forall in *. auto. }
  assert (Bm : build (S (S (S (S k)))) E0 (table_builder (main_table (m_main m))) st0 = (ROk (table_text (m_main m)), st0)).
  { pose proof (table_vis _ O2) as Vm. unfold table_ok in O2. apply andb_true_iff in O2 as [W1 W2].
    change (table_builder (main_table (m_main m))) with (BFrag (F (table_and_alias (m_main m)))). rewrite main_text; [change (table_and_alias (m_main m)) with (table_text (m_main m)); rewrite trim_vis by exact Vm; reflexivity|apply word_plain_text, W1|].
    apply orb_true_iff in W2 as [W|W]; [apply empty_plain, W|apply word_plain_text, W]. }
  destruct (conds_build k (m_conds m) st0 phs st1 O6 Hcom1 L3) as [Bc Vc].
  set (P := if m_distinct m then "SELECT DISTINCT" else "SELECT").
  assert (HP : vis_str P).
  { unfold P. destruct (m_distinct m); (split; [eexists _, _; split; [reflexivity|reflexivity]|]).
    - exists "SELECT DISTINC", "T"%char. split; reflexivity.
    - exists "SELEC", "T"%char. split; reflexivity. }
  set (st2 := set_q st1 0 (with_orders q)). set (st3 := set_q st2 0 (with_select (with_orders q))).
  destruct (set_q_get st1 q (with_orders q) eq_refl) as [G2 H2]. fold st2 in G2, H2.
  destruct (set_q_get st2 _ (with_select (with_orders q)) H2) as [G3 H3]. fold st3 in G3, H3.
  destruct (ord_build k (m_distinct m) (m_orders m) 1 st2 Forders O7) as [Bo Vo].
  destruct (hid_build k (m_orders m) 1 st3 Forders O7) as [Bh Vh].
  assert (Vhid : Forall vis_str (hidden_texts m)) by (unfold hidden_texts; destruct (m_distinct m); [exact Vh|constructor]).
  assert (Hsel : select_clause q = joined_by ", " P (map col_call (m_cols m))) by (unfold select_clause; rewrite C1, C9; reflexivity).
  assert (Htouch : q_touches (get_q st3 0) = joined_by ", " "" (hidden_columns q)).
  { rewrite G3. cbn [with_select with_orders set_selects set_errors set_touches q_touches]. rewrite C11. reflexivity. }
  assert (Hord : order_clause q = joined_by ", " "ORDER BY" (ord_items (m_distinct m) 1 (m_orders m))).
  { unfold order_clause, order_items, ord_items. rewrite C4, C9. reflexivity. }
  eassert (A : assembled (build (S (S (S (S k)))) E0) kt kc 0 st0 _ st3).
  { eapply (asm _ kt kc 0 st0 q []) with (us := []).
    - reflexivity.
    - exact T4.
    - rewrite C6. reflexivity.
    - rewrite Hkept. cbn [do_all]. rewrite Bm, Bj. reflexivity.
    - rewrite C2. apply (joined_clause (S k) " AND " "WHERE" _ st0 (cond_texts (m_conds m) phs) st1); [right; reflexivity|reflexivity|exact Bc|exact Vc|rewrite map_length; lia].
    - rewrite C3. apply (joined_clause (S k) ", " "GROUP BY" _ st1 (map col_text (m_groups m)) st1); [left; reflexivity|reflexivity|apply cols_build, Fgroups|apply Vcols, Fgroups|rewrite map_length; lia].
    - change (get_q st1 0) with q. fold st2. rewrite Hord.
      apply (joined_clause (S k) ", " "ORDER BY" _ st2 (ord_texts (m_distinct m) 1 (m_orders m)) st2); [left; reflexivity|reflexivity|exact Bo|exact Vo|rewrite ord_len by exact O7; lia].
    - rewrite G2. fold st3. rewrite Hsel.
      apply (joined_clause (S k) ", " P _ st3 (map col_text (m_cols m)) st3); [left; reflexivity|apply vis_not_empty, HP|apply cols_build, Fcols|apply Vcols, Fcols|rewrite map_length; lia].
    - destruct (m_cols m); [congruence|]. cbn [map]. unfold P. destruct (m_distinct m); reflexivity.
    - rewrite Htouch. apply (joined_hidden (S k) _ st3 (hidden_texts m) st3); [|exact Vhid|].
      + unfold hidden_columns, hidden_texts. rewrite C9, C4. destruct (m_distinct m); [exact Bh|reflexivity].
      + unfold hidden_columns. rewrite C9, C4. destruct (m_distinct m); [fold (hid_items 1 (m_orders m)); rewrite hid_len by exact O7; lia|cbn; lia].
    - rewrite C5. reflexivity. }
  rewrite C5, C6 in A. cbn [filter map combine] in A.
  pose proof (Build _ _ _ _ A) as BB. unfold build_query. unfold E0 in BB. rewrite BB. cbn [fst]. clear BB.
  change (st_args st3) with (st_args st'). apply (f_equal (fun x => ROk (x, st_args st'))).
  unfold layout. cbn [s_with s_select s_hidden s_from s_where s_group s_order s_limit s_offset s_union with_clause filter].
  rewrite C7, C8. rewrite !if_any_clause by (assumption || (apply Vcols; assumption)).
  unfold sql. fold P.
  assert (X : (if is_empty (str_join ", " (hidden_texts m)) then match map col_text (m_cols m) with [] => "" | _ => P ++ " " ++ str_join ", " (map col_text (m_cols m)) end
    else match map col_text (m_cols m) with [] => "" | _ => P ++ " " ++ str_join ", " (map col_text (m_cols m)) end ++ ", " ++ str_join ", " (hidden_texts m))
    = P ++ " " ++ str_join ", " (map col_text (m_cols m) ++ hidden_texts m)).
  { destruct (map col_text (m_cols m)) as [|c cs] eqn:E; [destruct (m_cols m); [congruence|discriminate E]|].
    destruct (hidden_texts m) as [|h hs] eqn:Eh; [rewrite app_nil_r; reflexivity|].
    rewrite vis_not_empty by (apply vis_join; [exact Vhid|discriminate]).
    rewrite (join_split ", " (c :: cs) (h :: hs)) by discriminate. rewrite !append_assoc. reflexivity. }
  rewrite X. clear X.
  assert (Y : list_clause P ", " (map col_text (m_cols m) ++ hidden_texts m) = [P ++ " " ++ str_join ", " (map col_text (m_cols m) ++ hidden_texts m)]).
  { unfold list_clause. destruct (map col_text (m_cols m)) as [|c cs] eqn:E; [destruct (m_cols m); [congruence|discriminate E]|]. reflexivity. }
  rewrite <- Y. cbn [list_clause] in *. 
  match goal with |- trim_space (str_join " " ?a) = str_join " " ?b => change b with a end. apply trim_vis. apply vis_join.
  - repeat (apply Forall_app; split); try constructor.
    + apply list_clause_vis; [exact HP|]. apply Forall_app. split; [apply Vcols, Fcols|exact Vhid].
    + apply (vis_app "FROM" " "); [split; [eexists _, _; split; [reflexivity|reflexivity]|exists "FRO", "M"%char; split; reflexivity]|].
      apply vis_join; [|discriminate]. constructor; [apply table_vis, O2|exact Vj].
    + constructor.
    + apply list_clause_vis; [|exact Vc]. split; [eexists _, _; split; [reflexivity|reflexivity]|exists "WHER", "E"%char; split; reflexivity].
    + apply list_clause_vis; [|apply Vcols, Fgroups]. split; [eexists _, _; split; [reflexivity|reflexivity]|exists "GROUP B", "Y"%char; split; reflexivity].
    + apply list_clause_vis; [|exact Vo]. split; [eexists _, _; split; [reflexivity|reflexivity]|exists "ORDER B", "Y"%char; split; reflexivity].
    + apply number_vis. eexists _, _. split; reflexivity.
    + apply number_vis. eexists _, _. split; reflexivity.
  - rewrite Y. discriminate.
Qed.

(* ------------------------------------------------------------------ *)
(** * The placeholders *)

Lemma do_all_commits : forall vs st phs st', do_all commit vs st = (ROk phs, st') -> commit_all vs st = (map ROk phs, st').
Proof.
  induction vs as [|v vs IH]; intros st phs st' H; cbn [do_all commit_all] in *; [injection H as <- <-; reflexivity|].
  destruct (commit v st) as [[ph|er|er|] st1]; try discriminate H.
  destruct (do_all commit vs st1) as [[ps|er|er|] st2] eqn:E; try discriminate H. injection H as <- <-.
  rewrite (IH _ _ _ E). reflexivity.
Qed.
Lemma commits_succeed : forall vs st, st_dollar st = true -> forallb hashable vs = true -> exists phs st', do_all commit vs st = (ROk phs, st').
Proof.
  induction vs as [|v vs IH]; intros st Hd Hh; [cbn; eauto|]. cbn [forallb] in Hh. apply andb_true_iff in Hh as [Hv Hh]. cbn [do_all].
  assert (K : exists ph st1, commit v st = (ROk ph, st1) /\ st_dollar st1 = true).
  { unfold commit. rewrite Hd, Hv. destruct (dict_find v (st_dict st)); eauto. }
  destruct K as (ph & st1 & E & D1). rewrite E. destruct (IH st1 D1 Hh) as (ps & st2 & E2). rewrite E2. eauto.
Qed.
Lemma denotes_grow : forall a x s v, dollar_denotes a s v -> dollar_denotes (a ++ x) s v.
Proof.
  intros a x s v (k & w & E & L & N & S). exists k, w. rewrite app_length. split; [exact E|]. split; [lia|]. split; [|exact S].
  rewrite nth_error_app1; [exact N|]. lia.
Qed.
Lemma commit_sound : forall v st, sound_store st -> sound_store (snd (commit v st)).
Proof. intros v st Hs Hd. rewrite commit_dollar in Hd. apply (commit_dollar_ok v st). split; [exact Hd|exact (Hs Hd)]. Qed.
Lemma commits_denote : forall vs st phs st', st_dollar st = true -> sound_store st -> do_all commit vs st = (ROk phs, st') ->
  exists x, st_args st' = (st_args st ++ x)%list /\ Forall2 (dollar_denotes (st_args st')) phs vs.
Proof.
  induction vs as [|v vs IH]; intros st phs st' Hd Hs H; cbn [do_all] in H.
  - injection H as <- <-. exists []. rewrite app_nil_r. split; [reflexivity|constructor].
  - destruct (commit v st) as [[ph|er|er|] st1] eqn:E; try discriminate H.
    destruct (do_all commit vs st1) as [[ps|er|er|] st2] eqn:E2; try discriminate H. injection H as <- <-.
    assert (K : st_dollar st1 = true /\ sound_store st1 /\ (exists y, st_args st1 = (st_args st ++ y)%list) /\ dollar_denotes (st_args st1) ph v).
    { unfold commit in E. rewrite Hd in E. destruct (hashable v) eqn:Hv; [|discriminate E].
      destruct (dict_find v (st_dict st)) as [k|] eqn:F.
      - injection E as <- <-. split; [exact Hd|]. split; [exact Hs|]. split; [exists []; rewrite app_nil_r; reflexivity|].
        destruct (Hs Hd v k F) as (K1 & w & N & G). exists k, w. rewrite itoa_nat_dec. split; [reflexivity|]. split; [|split; [exact N|right; exact G]].
        split; [exact K1|]. assert (k - 1 < List.length (st_args st)) by (apply nth_error_Some; congruence). lia.
      - assert (Hs1 : sound_store st1).
        { assert (C : commit v st = (ROk ph, st1)) by (unfold commit; rewrite Hd, Hv, F; exact E).
          pose proof (commit_sound v st Hs) as S1. rewrite C in S1. exact S1. }
        injection E as <- <-. split; [reflexivity|]. split; [exact Hs1|]. cbn [st_args]. split; [eauto|].
        exists (S (List.length (st_args st))), v. rewrite itoa_nat_dec. split; [reflexivity|]. rewrite app_length. cbn [List.length].
        split; [lia|]. split; [|left; reflexivity]. rewrite nth_error_app2 by lia. replace (S (List.length (st_args st)) - 1 - List.length (st_args st)) with 0 by lia. reflexivity. }
    destruct K as (D1 & S1 & (y & Y) & P). destruct (IH st1 ps st2 D1 S1 E2) as (x & X & Q). exists (y ++ x)%list.
    rewrite X, Y, app_assoc. split; [reflexivity|]. rewrite <- Y, <- X. constructor; [|exact Q]. rewrite X. apply denotes_grow. exact P.
Qed.

Theorem query_sql_question : forall m os style, style <> style_dollar -> stmt_ok m -> describes os m ->
  exists q, apply_ops os new_qb = ROk q /\
    forall n, 5 + m_size m <= n ->
      fst (build_query n style [q] (BQuery (Some 0))) = ROk (sql m (map (fun _ => "?") (m_args m)), m_args m).
Proof.
  intros m os style Hs Hok Hd. assert (D : st_dollar (new_store style []) = false) by (cbn; apply Z.eqb_neq; exact Hs).
  destruct (commit_question (m_args m) _ D) as (st' & E & A & _). cbn [new_store st_args app] in A.
  destruct (query_sql m os style _ st' Hok Hd E) as (q & Hq & B). exists q. split; [exact Hq|]. rewrite A in B. exact B.
Qed.
Theorem query_sql_dollar : forall m os, stmt_ok m -> describes os m -> forallb hashable (m_args m) = true ->
  exists q phs, apply_ops os new_qb = ROk q /\ Forall2 (dollar_denotes (firsts [] (m_args m))) phs (m_args m) /\
    forall n, 5 + m_size m <= n ->
      fst (build_query n style_dollar [q] (BQuery (Some 0))) = ROk (sql m phs, firsts [] (m_args m)).
Proof.
  intros m os Hok Hd Hh. destruct (commits_succeed (m_args m) (new_store style_dollar []) eq_refl Hh) as (phs & st' & E).
  destruct (query_sql m os style_dollar _ st' Hok Hd E) as (q & Hq & B). exists q, phs. split; [exact Hq|].
  pose proof (do_all_commits _ _ _ _ E) as C. destruct (commits_dedup [] (m_args m) 0 0 VNil VNil RFuel RFuel Hh) as [A _]. rewrite C in A. cbn [snd] in A.
  destruct (commits_denote (m_args m) (new_store style_dollar []) phs st' eq_refl ltac:(intros _ v k K; discriminate K) E) as (x & _ & F). rewrite A in F, B. split; [exact F|exact B].
Qed.
