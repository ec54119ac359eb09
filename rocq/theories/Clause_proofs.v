(** The text of tables, joins, conditions and order items. *)
From Coq Require Import Strings.String Strings.Ascii NArith ZArith List Bool Lia.
From Verif Require Import GoStr GoNum Syntax Value Util Model Sqlf Sqlb Spec_syntax Spec_eval Spec_query
  Lex_proofs Num_proofs Grammar_proofs Eval_proofs Use_proofs Join_proofs Join2_proofs.
Import ListNotations.
Open Scope string_scope.

Definition finish (f : fragment) (p s : string) (r : outcome string * fstate) : outcome string * store :=
  match r with
  | (ROk body, S') =>
      if all_used (fs_ua S') && all_used (fs_uf S') then (ROk (wrapped p (trim_space body) s), fs_st S')
      else (RErr (in_frag f (unused (fs_ua S') (fs_uf S'))), fs_st S')
  | (RErr er, S') => (RErr (in_frag f er), fs_st S')
  | (RPanic er, S') => (RPanic er, fs_st S')
  | (RFuel, S') => (RFuel, fs_st S')
  end.
Lemma build_parts : forall n e l args frags p s st, wf l = true -> style_ok false l = true ->
  build (S (S n)) e (BFrag (Frag (print l) args frags p s)) st =
  finish (Frag (print l) args frags p s) p s (clause (build (S n)) (clause_n n (build (S n))) n e (mkFrame args frags) (map unstrip (denote 0 l))
    (mkFS st (map (fun _ => false) args) (map (fun _ => false) frags))).
Proof.
  intros n e l args frags p s st Hw Hs. cbn [build].
  assert (Hp : parsed (print l) = Some (norm (denote 0 l))) by (rewrite parsed_print, Hs by exact Hw; reflexivity).
  rewrite (build_parsed _ _ _ (Frag (print l) args frags p s) _ _ Hp). cbn [f_args f_frags f_prefix f_suffix].
  rewrite clause_n_S, clause_norm. unfold finish. destruct (clause _ _ _ _ _ _ _) as [[body|er|er|] S']; try reflexivity.
  destruct (_ && _); [|reflexivity]. cbn zeta. unfold wrapped. destruct (is_empty _); reflexivity.
Qed.

Lemma plain_app : forall a b, plain_text (a ++ b) = plain_text a && plain_text b.
Proof. intros a b. unfold plain_text. induction a as [|x a IH]; [reflexivity|]. cbn. rewrite IH, andb_assoc. reflexivity. Qed.

(** The reference #f1. *)
Lemma eval_f1 : forall rb rc jf e fc b frags X, fr_frags fc = b :: frags -> lookup_fn e "f" = Some FnFragment ->
  eval_expr rb rc jf e fc (unstrip (ACall "f" [LNum (float_of_N 1)])) X =
  safe "f" (let '(r, st') := rb e b (fs_st X) in (r, mkFS st' (fs_ua X) (mark 0 (fs_uf X)))).
Proof.
  intros rb rc jf e fc b frags X Hf Hl. cbn [unstrip eval_expr]. unfold eval_function. rewrite Hl, eval_call_fragment.
  cbn [List.length Nat.eqb eval_args eval_arg call_index lit_int]. rewrite int_of_float_N by reflexivity.
  unfold func_fragment. rewrite Hf. unfold nth1. replace ((1 <=? Z.of_N 1)%Z && (Z.of_N 1 <=? Z.of_nat (List.length (b :: frags)))%Z) with true; [reflexivity|].
  cbn [List.length]. symmetry. apply andb_true_intro. split; apply Z.leb_le; lia.
Qed.
Lemma eval_bind1 : forall rb rc jf e fc v args st X, fr_args fc = v :: args ->
  eval_expr rb rc jf e fc (unstrip (ABind st 1)) X = (let '(r, st') := commit v (fs_st X) in (r, mkFS st' (mark 0 (fs_ua X)) (fs_uf X))).
Proof.
  intros rb rc jf e fc v args st X Hf. cbn [unstrip eval_expr]. unfold func_arg. rewrite Hf. unfold nth1.
  replace ((1 <=? 1)%Z && (1 <=? Z.of_nat (List.length (v :: args)))%Z) with true; [reflexivity|].
  cbn [List.length]. symmetry. apply andb_true_intro. split; apply Z.leb_le; lia.
Qed.

(** Plain text around #f1. *)
Theorem around : forall n e a c b p s st t st', lookup_fn e "f" = Some FnFragment ->
  plain_text a = true -> plain_text c = true -> starts is_digit c = false ->
  build (S n) e b st = (ROk t, st') ->
  build (S (S n)) e (BFrag (Frag (a ++ "#f1" ++ c) [] [b] p s)) st = (ROk (wrapped p (trim_space (a ++ t ++ c)) s), st').
Proof.
  intros n e a c b p s st t st' Hl Ha Hc Hd Hb.
  assert (E : a ++ "#f1" ++ c = print [Text a; Indexed "f" 1; Text c]).
  { cbn [print print1]. rewrite append_nil_r. change (dec 1) with "1". rewrite !append_assoc. reflexivity. }
  rewrite E, build_parts; [|unfold wf; cbn [wf_at wf1 follow print print1]; rewrite !append_nil_r, Ha, Hc, Hd; reflexivity|reflexivity].
  cbn [denote print1 map]. rewrite clause_cons. cbn [unstrip eval_expr andthen]. rewrite clause_cons.
  change (ECall "f" [LNum (float_of_N 1)] _) with (unstrip (ACall "f" [LNum (float_of_N 1)])).
  rewrite (eval_f1 _ _ _ e (mkFrame [] [b]) b [] _ eq_refl Hl). cbn [fs_st]. rewrite Hb. cbn [safe andthen clause eval_expr unstrip mark map all_used forallb fs_ua fs_uf finish fs_st andb].
  rewrite append_nil_r. reflexivity.
Qed.
Theorem around_fails : forall n e a c b p s st o er st', lookup_fn e "f" = Some FnFragment ->
  plain_text a = true -> plain_text c = true -> starts is_digit c = false ->
  build (S n) e b st = (o, st') -> o = RErr er \/ o = RPanic er ->
  exists er2, build (S (S n)) e (BFrag (Frag (a ++ "#f1" ++ c) [] [b] p s)) st = (RErr er2, st') /\ is_invalid_index er2 = is_invalid_index er.
Proof.
  intros n e a c b p s st o er st' Hl Ha Hc Hd Hb Ho.
  assert (E : a ++ "#f1" ++ c = print [Text a; Indexed "f" 1; Text c]).
  { cbn [print print1]. rewrite append_nil_r. change (dec 1) with "1". rewrite !append_assoc. reflexivity. }
  rewrite E, build_parts; [|unfold wf; cbn [wf_at wf1 follow print print1]; rewrite !append_nil_r, Ha, Hc, Hd; reflexivity|reflexivity].
  cbn [denote print1 map]. rewrite clause_cons. cbn [unstrip eval_expr andthen]. rewrite clause_cons.
  change (ECall "f" [LNum (float_of_N 1)] _) with (unstrip (ACall "f" [LNum (float_of_N 1)])).
  rewrite (eval_f1 _ _ _ e (mkFrame [] [b]) b [] _ eq_refl Hl). cbn [fs_st]. rewrite Hb.
  destruct Ho as [->| ->]; cbn [safe andthen finish fs_st]; eexists; (split; [reflexivity|reflexivity]).
Qed.

(** Conditions made by Where2. *)
Theorem compared : forall n e op b v st t st1 ph st2, lookup_fn e "f" = Some FnFragment ->
  plain_text op = true -> starts is_digit op = false ->
  build (S n) e b st = (ROk t, st1) -> commit v st1 = (ROk ph, st2) ->
  build (S (S n)) e (BFrag (Frag ("#f1" ++ op ++ "$1") [v] [b] "" "")) st = (ROk (trim_space (t ++ op ++ ph)), st2).
Proof.
  intros n e op b v st t st1 ph st2 Hl Hop Hd Hb Hc.
  assert (E : "#f1" ++ op ++ "$1" = print [Indexed "f" 1; Text op; Dollar 1]).
  { cbn [print print1]. change (dec 1) with "1". rewrite !append_assoc. reflexivity. }
  assert (Hd2 : starts is_digit (op ++ "$1") = false) by (destruct op; [reflexivity|exact Hd]).
  rewrite E, build_parts; [|unfold wf; cbn [wf_at wf1 follow print print1]|reflexivity].
  2:{ change (dec 1) with "1". change ((op ++ ("$" ++ "1") ++ "") ++ "") with ((op ++ "$1") ++ ""). rewrite append_nil_r, Hd2, Hop. reflexivity. }
  cbn [denote print1 map]. rewrite clause_cons.
  rewrite (eval_f1 _ _ _ e (mkFrame [v] [b]) b [] _ eq_refl Hl). cbn [fs_st]. rewrite Hb. cbn [safe andthen]. rewrite clause_cons. cbn [unstrip eval_expr andthen].
  rewrite clause_cons. change (EBind style_dollar (Z.of_N 1) _) with (unstrip (ABind style_dollar 1)).
  rewrite (eval_bind1 _ _ _ e (mkFrame [v] [b]) v [] _ _ eq_refl). cbn [fs_st fs_ua fs_uf]. rewrite Hc.
  cbn [safe andthen clause mark map all_used forallb fs_ua fs_uf finish fs_st andb]. rewrite append_nil_r. unfold wrapped.
  destruct (is_empty (trim_space (t ++ op ++ ph))) eqn:Ez; [|cbn [is_empty append]; rewrite append_nil_r; reflexivity].
  destruct (trim_space (t ++ op ++ ph)); [reflexivity|discriminate].
Qed.

(** Conditions made by WhereIn and WhereNotIn. *)
Theorem listed_in : forall n e word b vs st t st1 phs st2, lookup_fn e "f" = Some FnFragment -> lookup_fn e "join" = Some FnJoin ->
  lookup_fn e "arg" = Some FnArg -> plain_text word = true -> starts is_digit word = false ->
  build (S (S n)) e b st = (ROk t, st1) -> do_all commit vs st1 = (ROk phs, st2) -> List.length vs <= n ->
  build (S (S (S n))) e (BFrag (Frag ("#f1" ++ word ++ "(#join('#arg', ', '))") vs [b] "" "")) st =
  (ROk (trim_space (t ++ word ++ "(" ++ str_join ", " (nonempty_items phs) ++ ")")), st2).
Proof.
  intros n e word b vs st t st1 phs st2 Hl Hj Ha Hop Hd Hb Hc Hn.
  set (tail := "(#join('#arg', ', '))").
  assert (E : "#f1" ++ word ++ tail = print [Indexed "f" 1; Text (word ++ "("); Call "join" [SStr "#arg"; SStr ", "]; Text ")"]).
  { cbn [print print1]. change (dec 1) with "1". change (sep_args [SStr "#arg"; SStr ", "]) with "'#arg', ', '". unfold tail. rewrite !append_assoc. reflexivity. }
  assert (Hd2 : starts is_digit (word ++ tail) = false) by (destruct word; [reflexivity|exact Hd]).
  rewrite E, build_parts; [|unfold wf; cbn [wf_at wf1 follow print print1]|reflexivity].
  2:{ change (sep_args [SStr "#arg"; SStr ", "]) with "'#arg', ', '". rewrite !append_nil_r, append_assoc. cbn [append]. fold tail. rewrite Hd2.
      rewrite plain_app, Hop. reflexivity. }
  cbn [denote print1 map]. rewrite clause_cons.
  rewrite (eval_f1 _ _ _ e (mkFrame vs [b]) b [] _ eq_refl Hl). cbn [fs_st]. rewrite Hb. cbn [safe andthen]. rewrite clause_cons. cbn [unstrip eval_expr andthen denote_arg].
  rewrite clause_cons. cbn [fs_ua fs_uf mark]. set (X := mkFS st1 _ _). set (rb := build (S (S n))).
  change (eval_expr rb (clause_n (S n) rb) (S n) e (mkFrame vs [b]) (ECall "join" [LStr "#arg"; LStr ", "] pos0) X)
    with (join_call rb n (S n) e (mkFrame vs [b]) "join" "arg" ", " [] X).
  assert (J : exists ua, join_call rb n (S n) e (mkFrame vs [b]) "join" "arg" ", " [] X = (ROk (str_join ", " (nonempty_items phs)), mkFS st2 ua [true]) /\ all_used ua = true).
  { destruct vs as [|v vs].
    - exists []. rewrite (args_none rb n (S n) e (mkFrame [] [b]) "join" "arg" ", " Hj eq_refl Ha); [|constructor|reflexivity|exact I|lia].
      cbn in Hc. injection Hc as <- <-. split; reflexivity.
    - set (bb := v :: vs) in *. eexists. rewrite (args_range rb n (S n) e (mkFrame bb [b]) "join" "arg" ", " Hj eq_refl Ha)
        with (from := 1%Z) (to := Z.of_nat (List.length bb)) (ss := phs) (st' := st2); auto.
      + cbn [fs_ua fs_uf fs_st X]. split; [reflexivity|].
        replace (Z.to_nat (1 - 1)) with 0 by lia. replace (Z.to_nat (Z.of_nat (List.length bb) - 1 + 1)) with (List.length bb) by lia.
        apply mark_all.
      + cbn [map range fr_args]. auto.
      + cbn [List.length bb]. lia.
      + cbn [fr_args]. lia.
      + unfold slice. cbn [fr_args X fs_st]. replace (Z.to_nat (1 - 1)) with 0 by lia.
        replace (Z.to_nat (Z.of_nat (List.length bb) - 1 + 1)) with (List.length bb) by lia. cbn [skipn]. rewrite firstn_all. exact Hc.
      + lia. }
  destruct J as (ua & -> & Hu). cbn [andthen clause unstrip eval_expr finish fs_ua fs_uf fs_st]. rewrite Hu. cbn [all_used forallb andb].
  rewrite !append_assoc, append_nil_r. cbn [append]. unfold wrapped. set (tt := trim_space _).
  destruct (is_empty tt) eqn:Ez; [|cbn [is_empty append]; rewrite append_nil_r; reflexivity].
  destruct tt; [reflexivity|discriminate].
Qed.

(** Tables and columns. *)
Theorem plain_frag : forall n e a p s st, plain_text a = true ->
  build (S (S n)) e (BFrag (Frag a [] [] p s)) st = (ROk (wrapped p (trim_space a) s), st).
Proof.
  intros n e a p s st Ha. pose proof (inert_verbatim n e [Text a] p s st eq_refl) as H. cbn [print print1] in H. rewrite append_nil_r in H.
  apply H. cbn. rewrite Ha. reflexivity.
Qed.
Lemma wrapped_none : forall b, wrapped "" b "" = b.
Proof. intros [|a b]; unfold wrapped; cbn [is_empty append]; [reflexivity|]. rewrite append_nil_r. reflexivity. Qed.
Lemma plain_table : forall t, plain_text (fst t) = true -> plain_text (snd t) = true -> plain_text (table_and_alias t) = true.
Proof. intros [x a] H1 H2. unfold table_and_alias. cbn [fst snd] in *. destruct (is_empty a); [exact H1|]. rewrite !plain_app, H1, H2. reflexivity. Qed.
Theorem main_text : forall n e t st, plain_text (fst t) = true -> plain_text (snd t) = true ->
  build (S (S n)) e (BFrag (F (table_and_alias t))) st = (ROk (trim_space (table_and_alias t)), st).
Proof. intros n e t st H1 H2. unfold F. rewrite plain_frag by (apply plain_table; assumption). rewrite wrapped_none. reflexivity. Qed.
Theorem column_text : forall n e t name st, plain_text t = true -> plain_text name = true ->
  build (S (S n)) e (column t name) st =
  (ROk (trim_space (if is_empty name then "" else if is_empty t then name else t ++ "." ++ name)), st).
Proof.
  intros n e t name st H1 H2. unfold column. change (build (S (S n)) e (BCol (Some (F (prebuild_column t name))) t) st)
    with (build (S (S n)) e (BFrag (F (prebuild_column t name))) st). unfold F. rewrite plain_frag, wrapped_none; [reflexivity|].
  unfold prebuild_column. destruct (is_empty name); [reflexivity|]. destruct (is_empty t); [exact H2|]. rewrite !plain_app, H1, H2. reflexivity.
Qed.
Theorem join_text : forall n e kind t raw args frags p s c st st', lookup_fn e "f" = Some FnFragment ->
  plain_text kind = true -> plain_text (fst t) = true -> plain_text (snd t) = true ->
  build (S n) e (BFrag (Frag raw args frags "" "")) st = (ROk c, st') ->
  build (S (S n)) e (BFrag (Ff (join_raw kind t) [BFrag (with_prefix (Frag raw args frags p s) "ON")])) st =
  (ROk (trim_space (kind ++ " " ++ table_and_alias t ++ " " ++ wrapped "ON" c s)), st').
Proof.
  intros n e kind t raw args frags p s c st st' Hl Hk H1 H2 Hc. change (with_prefix (Frag raw args frags p s) "ON") with (Frag raw args frags "ON" s). unfold Ff, join_raw.
  set (a := kind ++ " " ++ table_and_alias t ++ " ").
  assert (E : kind ++ " " ++ table_and_alias t ++ " #f1" = a ++ "#f1" ++ "") by (unfold a; rewrite !append_assoc; reflexivity).
  rewrite E. rewrite (around n e a "" _ "" "" st (wrapped "ON" c s) st' Hl); [|unfold a|reflexivity|reflexivity|].
  - rewrite wrapped_none, append_nil_r. unfold a. rewrite !append_assoc. reflexivity.
  - rewrite !plain_app, Hk, plain_table by assumption. reflexivity.
  - rewrite prefix_suffix, Hc. reflexivity.
Qed.
(** ORDER BY items. *)
Lemma word_plain : forall o w, order_word o = Some w -> plain_text w = true /\ starts is_digit w = false.
Proof.
  intros o w H. unfold order_word in H. apply nth_error_In in H. unfold order_words in H. cbn [In] in H.
  repeat (destruct H as [<-|H]; [split; reflexivity|]). destruct H.
Qed.
Theorem order_text : forall n e o w b st t st', lookup_fn e "f" = Some FnFragment -> order_word o = Some w ->
  build (S n) e b st = (ROk t, st') ->
  build (S (S n)) e (BFrag (Ff ("#f1 " ++ w) [b])) st = (ROk (trim_space (t ++ " " ++ w)), st').
Proof.
  intros n e o w b st t st' Hl Hw Hb. destruct (word_plain o w Hw) as [Hp Hd].
  change (Ff ("#f1 " ++ w) [b]) with (Frag ("" ++ "#f1" ++ (" " ++ w)) [] [b] "" "").
  rewrite (around n e "" (" " ++ w) b "" "" st t st' Hl); [|reflexivity|exact Hp|reflexivity|exact Hb]. rewrite wrapped_none. reflexivity.
Qed.
Lemma digits_plain : forall s, all is_digit s = true -> plain_text s = true.
Proof.
  induction s as [|a s IH]; [reflexivity|]. cbn. intros H. apply andb_prop in H. destruct H as [H1 H2]. unfold plain_text in IH. rewrite IH by exact H2.
  rewrite andb_true_r. destruct a as [[] [] [] [] [] [] [] []]; cbn in H1 |- *; try discriminate; reflexivity.
Qed.
Theorem hidden_text : forall n e i b st t st', lookup_fn e "f" = Some FnFragment -> build (S n) e b st = (ROk t, st') ->
  build (S (S n)) e (BFrag (Ff ("#f1 AS " ++ order_alias i) [b])) st = (ROk (trim_space (t ++ " AS " ++ order_alias i)), st').
Proof.
  intros n e i b st t st' Hl Hb. change (Ff ("#f1 AS " ++ order_alias i) [b]) with (Frag ("" ++ "#f1" ++ (" AS " ++ order_alias i)) [] [b] "" "").
  rewrite (around n e "" (" AS " ++ order_alias i) b "" "" st t st' Hl); [|reflexivity| |reflexivity|exact Hb]; [rewrite wrapped_none; reflexivity|].
  rewrite plain_app. unfold order_alias. rewrite plain_app. rewrite (digits_plain (itoa_nat i)); [reflexivity|].
  unfold itoa_nat. destruct (Nat.to_uint i); [reflexivity|..]; apply (all_digits_uint (_ _)).
Qed.

(** The clauses that join their members. *)
Lemma parsed_join : forall sep, sep = ", " \/ sep = " AND " ->
  parsed ("#join('#fragment', '" ++ sep ++ "')") = Some [ACall "join" [LStr ("#" ++ "fragment"); LStr sep]].
Proof. intros sep [->| ->]; vm_compute; reflexivity. Qed.
Theorem clause_text : forall n e sep prefix bs st ss st', lookup_fn e "join" = Some FnJoin -> lookup_fn e "fragment" = Some FnFragment ->
  sep = ", " \/ sep = " AND " -> do_all (build (S (S n)) e) bs st = (ROk ss, st') -> List.length bs <= n ->
  build (S (S (S n))) e (BFrag (joined_by sep prefix bs)) st = (ROk (wrapped prefix (trim_space (str_join sep (nonempty_items ss))) ""), st').
Proof.
  intros n e sep prefix bs st ss st' Hj Hf Hs Hd Hn. unfold joined_by. eapply joined_frags; [exact Hj|exact Hf|apply parsed_join; exact Hs|reflexivity|exact Hd|exact Hn].
Qed.
Theorem clause_drops : forall n e sep prefix pre x st ss st1 o er st2,
  lookup_fn e "join" = Some FnJoin -> lookup_fn e "fragment" = Some FnFragment -> sep = ", " \/ sep = " AND " ->
  do_all (build (S (S n)) e) pre st = (ROk ss, st1) -> build (S (S n)) e x st1 = (o, st2) ->
  o = RErr er \/ o = RPanic er -> is_invalid_index er = true -> List.length pre <= n ->
  build (S (S (S n))) e (BFrag (joined_by sep prefix (pre ++ [x]))) st =
  (ROk (wrapped prefix (trim_space (str_join sep (nonempty_items ss))) ""), st2).
Proof.
  intros n e sep prefix pre x st ss st1 o er st2 Hj Hf Hs Hd Hx Ho Hv Hn. unfold joined_by.
  exact (joined_swallows n e _ "join" "fragment" sep pre x [] prefix "" st ss st1 o er st2 Hj Hf (parsed_join sep Hs) eq_refl Hd Hx Ho Hv Hn).
Qed.
Theorem clause_fails : forall n e sep prefix bs st o er st',
  lookup_fn e "join" = Some FnJoin -> lookup_fn e "fragment" = Some FnFragment -> sep = ", " \/ sep = " AND " ->
  do_all (build (S (S n)) e) bs st = (o, st') -> o = RErr er \/ o = RPanic er -> is_invalid_index er = false -> List.length bs <= n ->
  exists er2, build (S (S (S n))) e (BFrag (joined_by sep prefix bs)) st = (RErr er2, st').
Proof.
  intros n e sep prefix bs st o er st' Hj Hf Hs Hd Ho Hv Hn. unfold joined_by.
  destruct (joined_fails n e _ "join" "fragment" sep bs prefix "" st o er st' Hj Hf (parsed_join sep Hs) eq_refl Hd Ho Hv Hn) as (er2 & E & _). eauto.
Qed.
