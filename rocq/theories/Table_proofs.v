(** Proofs about the names of tables and columns. *)
From Coq Require Import Strings.String Strings.Ascii NArith ZArith List Bool Lia.
From Verif Require Import GoStr GoNum Syntax Value Util Model Sqlf Sqlb Table Spec_syntax Spec_eval Spec_query Spec_table
  Lex_proofs Num_proofs Grammar_proofs Lossless_proofs Eval_proofs Use_proofs Join_proofs Join2_proofs Text_proofs Clause_proofs Sql_proofs.
Import ListNotations.
Open Scope string_scope.

Lemma print_app : forall l1 l2, print (l1 ++ l2) = print l1 ++ print l2.
Proof. induction l1 as [|p l1 IH]; intros l2; cbn [app print]; [reflexivity|]. rewrite IH, append_assoc. reflexivity. Qed.
Lemma dotted_eq : forall t name, prebuild_column t name = dotted t name.
Proof. intros [|a t] [|b name]; reflexivity. Qed.
Lemma column_frag : forall n e t name st, build n e (column t name) st = build n e (BFrag (F (dotted t name))) st.
Proof. intros [|n] e t name st; [reflexivity|]. unfold column. rewrite dotted_eq. reflexivity. Qed.
Lemma anonymous_frag : forall n e t name st, build n e (anonymous_column t name) st = build n e (BFrag (F name)) st.
Proof. intros [|n] e t name st; reflexivity. Qed.
Lemma inert_frag : forall n e l st, forallb is_inert l = true -> forallb wf1 l = true ->
  build (S (S n)) e (BFrag (F (print l))) st = (ROk (trim_space (print l)), st).
Proof.
  intros n e l st H1 H2. unfold F. rewrite (inert_verbatim n e l "" "" st H1 H2). cbn [is_empty append]. cbn zeta.
  destruct (trim_space (print l)); cbn [is_empty]; rewrite ?append_nil_r; reflexivity.
Qed.
Theorem anonymous_inert : forall n e t l st, forallb is_inert l = true -> forallb wf1 l = true ->
  build (S (S n)) e (anonymous_column t (print l)) st = (ROk (trim_space (print l)), st).
Proof. intros n e t l st H1 H2. rewrite anonymous_frag. apply inert_frag; assumption. Qed.
Theorem column_inert : forall n e lt l st, forallb is_inert lt = true -> forallb wf1 lt = true -> forallb is_inert l = true -> forallb wf1 l = true ->
  build (S (S n)) e (column (print lt) (print l)) st = (ROk (trim_space (dotted (print lt) (print l))), st).
Proof.
  intros n e lt l st H1 H2 H3 H4. rewrite column_frag. unfold dotted. destruct (print l) as [|b name] eqn:En; [exact (inert_frag n e [] st eq_refl eq_refl)|].
  destruct (print lt) as [|a t] eqn:Et; [rewrite <- En; apply inert_frag; assumption|].
  assert (E : (String a t ++ "." ++ String b name) = print (lt ++ Text "." :: l)%list).
  { rewrite print_app. cbn [print print1]. rewrite Et, En. reflexivity. }
  rewrite E. apply inert_frag; rewrite forallb_app; cbn [forallb is_inert wf1]; apply andb_true_intro; split; assumption.
Qed.

(** Quoted identifiers are a row of quoted texts. *)
Lemma twice_parts : forall q s acc, is_quote q = true -> no_nul s = true -> all (fun a => negb (Ascii.eqb a q) && negb (Ascii.eqb a nul)) acc = true ->
  exists l, forallb is_inert l = true /\ forallb wf1 l = true /\ print l = String q (acc ++ twice q s ++ String q "").
Proof.
  intros q s acc Hq. revert acc. 
  assert (B : forall acc, all (fun a => negb (Ascii.eqb a q) && negb (Ascii.eqb a nul)) acc = true -> body_ok q acc = true).
  { induction acc as [|a acc IH]; intros H; [reflexivity|]. cbn [all body_ok] in *. apply andb_prop in H as [H1 H2].
    apply andb_prop in H1 as [H1 H3]. apply negb_true_iff in H1. rewrite H1, H3, IH by exact H2. reflexivity. }
  induction s as [|a s IH]; intros acc Hs Ha.
  - exists [Quoted q acc]. cbn [forallb is_inert wf1 print print1 twice append]. rewrite Hq, B by exact Ha.
    split; [reflexivity|]. split; [reflexivity|]. rewrite append_nil_r. reflexivity.
  - change (negb (Ascii.eqb a nul) && no_nul s = true) in Hs. apply andb_prop in Hs as [Hn Hs]. cbn [twice].
    destruct (Ascii.eqb a q) eqn:E.
    + destruct (IH "" Hs eq_refl) as (l & I & W & P). exists (Quoted q acc :: l). cbn [forallb is_inert wf1 print print1].
      rewrite Hq, B, I, W, P by exact Ha. split; [reflexivity|]. split; [reflexivity|].
      cbn [append]. rewrite append_assoc. reflexivity.
    + destruct (IH (acc ++ String a "") Hs) as (l & I & W & P).
      { rewrite all_app, Ha. cbn [all]. rewrite E, Hn. reflexivity. }
      exists l. split; [exact I|]. split; [exact W|]. rewrite P, append_assoc. reflexivity.
Qed.
Lemma identifier_parts : forall q s, is_quote q = true -> no_nul s = true ->
  exists l, forallb is_inert l = true /\ forallb wf1 l = true /\ print l = identifier q s.
Proof. intros q s Hq Hs. exact (twice_parts q s "" Hq Hs eq_refl). Qed.
Lemma identifier_vis : forall q s, is_quote q = true -> vis_str (identifier q s).
Proof.
  intros q s H. assert (V : vis q = true).
  { unfold is_quote in H. repeat (apply orb_prop in H; destruct H as [H|H]); apply Ascii.eqb_eq in H; subst q; reflexivity. }
  split; [exists q; eexists; split; [reflexivity|exact V]|]. exists (String q (twice q s)), q. split; [reflexivity|exact V].
Qed.
Theorem column_identifier : forall n e q t q' name st, is_quote q = true -> is_quote q' = true -> no_nul t = true -> no_nul name = true ->
  build (S (S n)) e (column (identifier q t) (identifier q' name)) st = (ROk (identifier q t ++ "." ++ identifier q' name), st).
Proof.
  intros n e q t q' name st Hq Hq' Ht Hn. rewrite <- (trim_vis (identifier q t ++ "." ++ identifier q' name)) by (apply vis_app; apply identifier_vis; assumption). destruct (identifier_parts q t Hq Ht) as (lt & I1 & W1 & P1).
  destruct (identifier_parts q' name Hq' Hn) as (l & I & W & P). rewrite <- P1, <- P, column_inert by assumption.
  rewrite P1, P. reflexivity.
Qed.

(** A name without # is built verbatim or not at all. *)
Lemma no_hash_app : forall a b, no_hash (a ++ b) = no_hash a && no_hash b.
Proof. intros a b. apply all_app. Qed.
Lemma sources_plain : forall l srcs, Forall2 source l srcs -> no_hash (concat_all srcs) = true ->
  (exists sty k, In (ABind sty k) l) \/ norm l = cons_text (concat_all srcs) [].
Proof.
  induction 1 as [|x t l srcs Hx F IH]; intros H; [right; reflexivity|].
  change (concat_all (t :: srcs)) with (t ++ concat_all srcs) in *. rewrite no_hash_app in H. apply andb_prop in H as [H1 H2].
  destruct (IH H2) as [(sty & k & Hin)|E]; [left; exists sty, k; right; exact Hin|].
  inversion Hx; subst; try discriminate; try (left; eexists; eexists; left; reflexivity).
  right. cbn [norm]. rewrite E. generalize (concat_all srcs). intros [|c u]; cbn [cons_text is_empty]; [rewrite append_nil_r; reflexivity|].
  destruct t; cbn [append is_empty]; reflexivity.
Qed.
Lemma bind_norm : forall l sty k, In (ABind sty k) l -> In (ABind sty k) (norm l).
Proof.
  induction l as [|x l IH]; intros sty k H; [contradiction|]. destruct H as [->|H]; [left; reflexivity|].
  apply IH in H. destruct x as [t|s k'|nm la|nm]; cbn [norm]; [|right; exact H..].
  unfold cons_text. destruct (norm l) as [|[u|? ?|? ?|?] r]; [contradiction|..]; try (destruct (is_empty t); [exact H|right; exact H]).
  destruct H as [H|H]; [discriminate|]. right. exact H.
Qed.
Theorem verbatim_or_error : forall n e raw st s st', no_nul raw = true -> no_hash raw = true ->
  build n e (BFrag (F raw)) st = (ROk s, st') -> s = trim_space raw /\ st' = st.
Proof.
  intros n e raw st s st' Hn Hh H. destruct (parse_total raw) as [[es E]|(o & m & E)].
  - destruct (parse_lossless raw es Hn E) as (srcs & Fs & C). subst raw.
    assert (P : parsed (concat_all srcs) = Some (norm (map strip es))) by (unfold parsed; rewrite E; reflexivity).
    destruct (sources_plain _ _ Fs Hh) as [(sty & k & Hin)|En].
    + exfalso. refine (dangling_fails n e (concat_all srcs) [] [] "" "" st _ _ P (bind_norm _ _ _ Hin) _ s st' H).
      cbn [dangling List.length]. unfold outside. cbn. lia.
    + rewrite En in P. destruct n as [|n]; [discriminate|]. cbn [build] in H.
      change (F (concat_all srcs)) with (Frag (concat_all srcs) [] [] "" "") in H.
      rewrite (build_parsed _ _ _ (Frag (concat_all srcs) [] [] "" "") _ _ P) in H. cbn [f_args f_frags map f_prefix f_suffix is_empty] in H.
      destruct n as [|n]; [discriminate|]. rewrite clause_n_S, clause_cons_text in H. cbn [map clause fs_ua fs_uf all_used forallb andb fs_st append] in H. cbn zeta in H.
      cbn in H. rewrite append_nil_r in H. destruct (trim_space (concat_all srcs)) eqn:T; cbn [is_empty append] in H; injection H as <- <-;
        (split; [rewrite ?append_nil_r; reflexivity|reflexivity]).
  - exfalso. destruct n as [|n]; [discriminate|]. cbn [build] in H. unfold build_frag, F in H. cbn [f_raw] in H. rewrite E in H. discriminate.
Qed.

Theorem columns_identifier : forall n e q t q' names st, lookup_fn e "join" = Some FnJoin -> lookup_fn e "fragment" = Some FnFragment ->
  is_quote q = true -> is_quote q' = true -> no_nul t = true -> forallb no_nul names = true -> names <> [] -> List.length names <= n ->
  build (S (S (S n))) e (BFrag (joined_by ", " "SELECT" (columns (identifier q t) (map (identifier q') names)))) st =
  (ROk ("SELECT " ++ str_join ", " (map (fun x => identifier q t ++ "." ++ identifier q' x) names)), st).
Proof.
  intros n e q t q' names st Hj Hf Hq Hq' Ht Hn Hne Hl. set (f := fun x => identifier q t ++ "." ++ identifier q' x).
  assert (D : forall st, do_all (build (S (S n)) e) (columns (identifier q t) (map (identifier q') names)) st = (ROk (map f names), st)).
  { clear Hne Hl st. unfold columns. induction names as [|x names IH]; intros st; [reflexivity|]. cbn [forallb] in Hn. apply andb_prop in Hn as [H1 H2].
    cbn [map do_all]. rewrite column_identifier by assumption. rewrite (IH H2). reflexivity. }
  assert (V : Forall vis_str (map f names)).
  { apply Forall_forall. intros y Hy. apply in_map_iff in Hy as (x & <- & _). apply vis_app; apply identifier_vis; assumption. }
  rewrite (clause_text n e ", " "SELECT" _ st _ st Hj Hf (or_introl eq_refl) (D st)); [|unfold columns; rewrite !map_length; exact Hl].
  rewrite nonempty_vis by exact V.
  assert (W : vis_str (str_join ", " (map f names))) by (apply vis_join; [exact V|destruct names; [congruence|discriminate]]).
  rewrite trim_vis by exact W. unfold wrapped. rewrite (vis_not_empty _ W). cbn [is_empty]. rewrite append_nil_r. reflexivity.
Qed.

(** References in a name. *)
Lemma referring : forall t name r p, plain_text t = true -> plain_text name = true -> r <> "" -> print1 p = r ->
  exists a, plain_text a = true /\ dotted t (name ++ r) = print [Text a; p].
Proof.
  intros t name r p Ht Hn Hr Hp. destruct t as [|c t]; [exists name|exists (String c t ++ "." ++ name)].
  - split; [exact Hn|]. cbn [print]. rewrite Hp, append_nil_r. destruct name; [destruct r; [congruence|reflexivity]|reflexivity].
  - split; [rewrite !plain_app, Ht, Hn; reflexivity|]. cbn [print print1]. rewrite Hp, append_nil_r, !append_assoc.
    destruct name; [destruct r; [congruence|reflexivity]|reflexivity].
Qed.
Theorem question_name : forall n e t name st, plain_text t = true -> plain_text name = true ->
  exists er, build (S (S n)) e (column t (name ++ "?")) st = (RErr er, st) /\ is_invalid_index er = false.
Proof.
  intros n e t name st Ht Hn. rewrite column_frag. destruct (referring t name "?" Quest Ht Hn) as (a & Ha & ->); [discriminate|reflexivity|].
  unfold F. rewrite build_parts; [|unfold wf; cbn [wf_at wf1 follow print print1]; rewrite Ha; reflexivity|reflexivity].
  cbn [denote print1 map]. rewrite clause_cons. cbn [unstrip eval_expr andthen]. rewrite clause_cons. cbn [unstrip eval_expr andthen].
  eexists. split; [reflexivity|reflexivity].
Qed.
Theorem hash_name : forall n e t name k st, lookup_fn e "f" = Some FnFragment -> plain_text t = true -> plain_text name = true -> (k < 9007199254740992)%N ->
  exists er, build (S (S n)) e (column t (name ++ "#f" ++ dec k)) st = (RErr er, st) /\ is_invalid_index er = true.
Proof.
  intros n e t name k st Hf Ht Hn Hk. rewrite column_frag.
  destruct (referring t name ("#f" ++ dec k) (Indexed "f" k) Ht Hn) as (a & Ha & ->); [discriminate|reflexivity|].
  unfold F. rewrite build_parts; [|unfold wf; cbn [wf_at wf1 follow print print1]; rewrite Ha, (proj2 (N.ltb_lt _ _) Hk); reflexivity|reflexivity].
  cbn [denote print1 map]. rewrite clause_cons. cbn [unstrip eval_expr andthen]. rewrite clause_cons.
  cbn [unstrip eval_expr]. unfold eval_function. rewrite Hf, eval_call_fragment.
  cbn [List.length Nat.eqb eval_args eval_arg call_index lit_int]. rewrite int_of_float_N by exact Hk.
  unfold func_fragment. cbn [fr_frags]. unfold nth1. replace ((1 <=? Z.of_N k)%Z && (Z.of_N k <=? Z.of_nat (List.length (@nil builder)))%Z) with false.
  - cbn [safe andthen finish fs_st]. eexists. split; reflexivity.
  - symmetry. apply andb_false_iff. cbn [List.length]. destruct (1 <=? Z.of_N k)%Z eqn:C; [right|left; reflexivity]. apply Z.leb_le in C. apply Z.leb_gt. lia.
Qed.
Theorem hash_dropped : forall n e t name k sep prefix pre st ss st1, lookup_fn e "join" = Some FnJoin -> lookup_fn e "fragment" = Some FnFragment ->
  lookup_fn e "f" = Some FnFragment ->
  sep = ", " \/ sep = " AND " -> plain_text t = true -> plain_text name = true -> (k < 9007199254740992)%N ->
  do_all (build (S (S n)) e) pre st = (ROk ss, st1) -> List.length pre <= n ->
  build (S (S (S n))) e (BFrag (joined_by sep prefix (pre ++ [column t (name ++ "#f" ++ dec k)]))) st =
  build (S (S (S n))) e (BFrag (joined_by sep prefix pre)) st.
Proof.
  intros n e t name k sep prefix pre st ss st1 Hj Hff Hf Hs Ht Hn Hk Hd Hl. destruct (hash_name n e t name k st1 Hf Ht Hn Hk) as (er & B & I).
  rewrite (clause_drops n e sep prefix pre _ st ss st1 _ er _ Hj Hff Hs Hd B (or_introl eq_refl) I Hl).
  symmetry. apply clause_text; assumption.
Qed.

(** Which table a column belongs to. *)
Theorem column_mentions : forall t name u, mentions (column t name) u <-> t <> "" /\ u = t.
Proof.
  intros t name u. unfold column, F. split.
  - intros H. inversion H as [|? ? Ht| raw args frags p s b ? Hin Hm| |]; subst; [auto|contradiction].
  - intros [H ->]. constructor. exact H.
Qed.
Theorem anonymous_mentions : forall t name u, mentions (anonymous_column t name) u <-> t <> "" /\ u = t.
Proof.
  intros t name u. unfold anonymous_column, F. split.
  - intros H. inversion H as [|? ? Ht| raw args frags p s b ? Hin Hm| |]; subst; [auto|contradiction].
  - intros [H ->]. constructor. exact H.
Qed.
Theorem expr_mentions : forall f u, mentions (BCol (Some f) "") u <-> mentions (BFrag f) u.
Proof.
  intros [raw args frags p s] u. split; intros H.
  - inversion H as [|? ? Ht| raw' args' frags' p' s' b ? Hin Hm| |]; subst; [congruence|]. eapply mn_frag; eassumption.
  - inversion H as [raw' args' frags' p' s' b ? Hin Hm| | | |]; subst. eapply mn_expr; eassumption.
Qed.

(** Lists of columns: one for each name or expression, in order. *)
Theorem columns_each : forall t names, Forall2 (fun name c => (forall n e st, build n e c st = build n e (BFrag (F (dotted t name))) st) /\
  (forall u, mentions c u <-> t <> "" /\ u = t)) names (columns t names).
Proof.
  intros t names. unfold columns. induction names as [|x names IH]; constructor; [|exact IH]. split; [intros; apply column_frag|apply column_mentions].
Qed.
Theorem anonymous_each : forall t names, Forall2 (fun name c => (forall n e st, build n e c st = build n e (BFrag (F name)) st) /\
  (forall u, mentions c u <-> t <> "" /\ u = t)) names (anonymous_columns t names).
Proof.
  intros t names. unfold anonymous_columns. induction names as [|x names IH]; constructor; [|exact IH]. split; [intros; apply anonymous_frag|apply anonymous_mentions].
Qed.
Theorem expr_each : forall fs, Forall2 (fun f c => match f with
  | Some f => (forall n e st, build n e c st = build n e (BFrag f) st) /\ (forall u, mentions c u <-> mentions (BFrag f) u)
  | None => (forall n e st, build (S n) e c st = (ROk "", st)) /\ (forall u, ~ mentions c u)
  end) fs (expr_columns fs).
Proof.
  intros fs. unfold expr_columns. induction fs as [|[f|] fs IH]; constructor; try exact IH.
  - split; [intros [|n] e st; reflexivity|apply expr_mentions].
  - split; [reflexivity|]. intros u H. inversion H. congruence.
Qed.

(** Aliased tables. *)
Theorem aliased_methods : forall x b a name names, let t := new_table_aliased x a in let u := if is_empty a then x else a in
  with_alias (new_table_aliased x b) a = t /\ table_names t = [x; a] /\
  acolumns t names = columns u names /\
  aanonymous_column t name = anonymous_column u name /\ aanonymous_columns t names = anonymous_columns u names /\
  forall n e st, build (S n) e (BTabAl (fst t) (snd t)) st = (ROk u, st).
Proof. intros x b [|c a] name names; repeat apply conj; reflexivity. Qed.
