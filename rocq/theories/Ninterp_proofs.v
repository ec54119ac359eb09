(** Proofs for Prop_nshown.v: statements of several queries with their values
    inserted. *)
From Coq Require Import Strings.String Strings.Ascii NArith ZArith List Bool Lia.
From Verif Require Import GoStr GoNum Syntax Value Util Model Sqlf Sqlb Spec_syntax Num_proofs Lex_proofs Text_proofs Util_proofs RefSem Spec_build
  Spec_util Spec_eval Spec_query Spec_sql Spec_nest Spec_interp Sql_proofs Nest_proofs Interp_proofs Spec_nread.
Import ListNotations.
Open Scope string_scope.
Open Scope list_scope.

(** The template [t] has the placeholders [k], ..., [k + n - 1] and gives [g]. *)
Definition gives (k n : nat) (g : list string -> string) (t : text) : Prop :=
  clean_text t /\ placeholders t = seq k n /\
  forall f phs, List.length phs = n -> (forall i, i < n -> f (k + i) = nth i phs ""%string) -> render f t = g phs.
Lemma render_lit : forall f s, render f (tlit s) = s.
Proof. intros f s. unfold render. cbn. apply append_nil_r. Qed.
Lemma plain_lit : forall s, plain_text s = true -> clean_text (tlit s).
Proof. intros s H. apply clean_lit, passive_plain, H. Qed.
Lemma closed_clean : forall a t, plain_text a = true -> clean_text t -> clean_text (tapp (tlit a) (tapp t (tlit ")"))).
Proof.
  intros a t Ha Ht. apply clean_app; [apply plain_lit; exact Ha| |left; reflexivity].
  apply clean_app; [exact Ht|apply plain_lit; reflexivity|right; split; [discriminate|reflexivity]].
Qed.
Lemma closed_placeholders : forall a t, placeholders (tapp (tlit a) (tapp t (tlit ")"))) = placeholders t.
Proof. intros a t. rewrite !placeholders_app. unfold placeholders at 1 3. cbn [tlit snd map app]. apply app_nil_r. Qed.
Lemma closed_render : forall f a t, render f (tapp (tlit a) (tapp t (tlit ")"))) = (a ++ render f t ++ ")")%string.
Proof. intros f a t. rewrite !render_app, !render_lit. reflexivity. Qed.

Lemma share_gives : forall A (args : A -> list value) text l,
  (forall a, In a l -> forall k, exists t, gives k (List.length (args a)) (text a) t) ->
  forall k, exists ts, List.length ts = List.length l /\ Forall clean_text ts /\ concat (map placeholders ts) = seq k (List.length (flat_map args l)) /\
    forall f phs, List.length phs = List.length (flat_map args l) -> (forall i, i < List.length phs -> f (k + i) = nth i phs ""%string) -> map (render f) ts = share args text l phs.
Proof.
  intros A args text l. induction l as [|a l IH]; intros H k; [exists []; repeat split; constructor|].
  destruct (H a (or_introl eq_refl) k) as (t & C & P & R). destruct (IH (fun b Hb => H b (or_intror Hb)) (k + List.length (args a))) as (ts & Lt & Cs & Ps & Rs).
  exists (t :: ts). split; [cbn [List.length]; lia|]. split; [constructor; assumption|]. split.
  - cbn [map concat flat_map]. rewrite P, Ps, List.app_length, seq_app. reflexivity.
  - intros f phs L Hf. cbn [flat_map] in L. rewrite List.app_length in L. cbn [map share]. f_equal.
    + apply R; [apply firstn_length_le; lia|]. intros i Hi. rewrite nth_firstn by exact Hi. apply Hf. lia.
    + apply Rs; [rewrite skipn_length; lia|]. intros i Hi. rewrite skipn_length in Hi. rewrite nth_skip, <- Nat.add_assoc. apply Hf. lia.
Qed.

Definition withs_t (names : list string) (ts : list text) : list text :=
  match names with [] => [] | _ => [tapp (tlit "With ") (tjoin ", " (map (fun p => tapp (tlit (fst p ++ " AS (")) (tapp (snd p) (tlit ")"))) (combine names ts)))] end.
Definition where_ts (cs : list text) : list text := match cs with [] => [] | _ => [tapp (tlit "WHERE ") (tjoin " AND " cs)] end.
Definition unions_t (us : list text) : list text := map (fun u => tapp (tlit "UNION (") (tapp u (tlit ")"))) us.
Definition level_t (x : xstmt) (ws cs us : list text) : text :=
  tjoin " " (withs_t (map w_name (emitted x)) ws ++ map tlit (before_where (x_stmt x)) ++ where_ts cs ++ map tlit (after_where (x_stmt x)) ++ unions_t us).
Lemma level_clean : forall x ws cs us, names_ok (x_stmt x) -> plain_names x -> Forall clean_text ws -> Forall clean_text cs -> Forall clean_text us -> clean_text (level_t x ws cs us).
Proof.
  intros x ws cs us N Pn Cw Cc Cu. destruct (stmt_plain _ N) as [P1 P2].
  assert (So : solid " ") by (split; [discriminate|reflexivity]).
  apply clean_join; [apply passive_plain; reflexivity|exact So|]. repeat (apply Forall_app; split); try (apply lits_clean; assumption).
  - unfold withs_t. destruct (map w_name (emitted x)) as [|n ns] eqn:E; [constructor|]. constructor; [|constructor].
    apply clean_app; [apply plain_lit; reflexivity| |left; reflexivity]. apply clean_join; [apply passive_plain; reflexivity|split; [discriminate|reflexivity]|].
    apply Forall_forall. intros t Ht. apply in_map_iff in Ht. destruct Ht as ([m u] & <- & Hp). cbn [fst snd]. apply closed_clean.
    + rewrite plain_app. apply andb_true_iff. split; [|reflexivity]. apply in_combine_l in Hp. rewrite <- E in Hp. apply in_map_iff in Hp. destruct Hp as (w & <- & Hw).
      unfold emitted in Hw. apply filter_In in Hw. unfold plain_names in Pn. rewrite Forall_forall in Pn. apply Pn, Hw.
    + apply in_combine_r in Hp. rewrite Forall_forall in Cw. apply Cw, Hp.
  - unfold where_ts. destruct cs as [|c cs]; [constructor|]. constructor; [|constructor]. apply clean_app; [apply plain_lit; reflexivity| |left; reflexivity].
    apply clean_join; [apply passive_plain; reflexivity|split; [discriminate|reflexivity]|exact Cc].
  - unfold unions_t. apply Forall_forall. intros t Ht. apply in_map_iff in Ht. destruct Ht as (u & <- & Hu). rewrite Forall_forall in Cu. apply closed_clean; [reflexivity|apply Cu, Hu].
Qed.
Lemma level_placeholders : forall x ws cs us, List.length ws = List.length (emitted x) ->
  placeholders (level_t x ws cs us) = concat (map placeholders ws) ++ concat (map placeholders cs) ++ concat (map placeholders us).
Proof.
  intros x ws cs us L. unfold level_t. rewrite placeholders_join, !map_app, !concat_app, !lits_placeholders. cbn [app]. f_equal; [|f_equal].
  - rewrite <- (map_length w_name) in L. revert L. unfold withs_t. generalize (map w_name (emitted x)) as ns. intros ns. destruct ns as [|n ns].
    + destruct ws; [reflexivity|discriminate].
    + intros L. cbn [map concat]. rewrite app_nil_r, placeholders_app, placeholders_join. unfold placeholders at 1. cbn [tlit snd map app]. rewrite map_map.
      change (tapp (tlit (n ++ " AS (")) ) with (tapp (tlit (n ++ " AS ("))). revert ws L. generalize (n :: ns) as l. induction l as [|m l IH]; intros [|t ws] L; try discriminate; [reflexivity|].
      cbn [combine map concat fst snd]. rewrite closed_placeholders, IH; [reflexivity|]. cbn [List.length] in L. lia.
  - unfold where_ts. destruct cs as [|c cs]; [reflexivity|]. cbn [map concat]. rewrite app_nil_r, placeholders_app, placeholders_join. reflexivity.
  - unfold unions_t. rewrite map_map. f_equal. apply map_ext. intros u. apply closed_placeholders.
Qed.
Lemma level_render : forall x f ws cs us, List.length ws = List.length (emitted x) ->
  render f (level_t x ws cs us) = xtext x (map (render f) ws) (map (render f) cs) (map (render f) us).
Proof.
  intros x f ws cs us L. unfold level_t. rewrite render_join, !map_app, !lits_render. unfold xtext, before_where, after_where. rewrite <- !app_assoc. f_equal. f_equal; [|do 3 f_equal].
  - unfold withs_t, list_clause. revert ws L. generalize (emitted x) as l. intros l. destruct l as [|w l]; intros [|t ws] L; try discriminate; [reflexivity|].
    cbn [map]. rewrite render_app, render_join, render_lit. cbn [map combine].
    assert (E : forall l ws, List.length ws = List.length l ->
      map (render f) (map (fun p : string * text => tapp (tlit (fst p ++ " AS (")) (tapp (snd p) (tlit ")"))) (combine (map w_name l) ws)) =
      map (fun wt : with_item * string => (w_name (fst wt) ++ " AS (" ++ snd wt ++ ")")%string) (combine l (map (render f) ws))).
    { clear. induction l as [|w l IH]; intros [|t ws] L; try discriminate; [reflexivity|]. cbn [map combine fst snd]. rewrite closed_render, append_assoc. f_equal. apply IH. cbn [List.length] in L. lia. }
    specialize (E (w :: l) (t :: ws) L). cbn [map combine] in E. rewrite E. reflexivity.
  - unfold where_ts, list_clause. destruct cs as [|c cs]; [reflexivity|]. cbn [map]. rewrite render_app, render_join, render_lit. reflexivity.
  - do 4 f_equal. unfold unions_t. rewrite !map_map. apply map_ext. intros u. apply closed_render.
Qed.
Theorem statement_gives : forall B, Forall (fun x => xstmt_ok x /\ plain_names x) B -> forall d id, complete B d id ->
  forall k, exists t, gives k (List.length (args_of B d id)) (text_of B d id) t.
Proof.
  intros B HB. induction d as [|d IH]; intros id Hc k; [destruct Hc|]. cbn [complete args_of text_of] in *. destruct (nth_error B id) as [x|] eqn:E; [|destruct Hc].
  assert (Ox : xstmt_ok x /\ plain_names x) by (rewrite Forall_forall in HB; apply HB; eapply nth_error_In; exact E). destruct Ox as [(N & _ & Ok & _) Pn].
  destruct (share_gives _ (fun w => args_of B d (w_id w)) (fun w => text_of B d (w_id w)) (emitted x)) with (k := k) as (ws & Lw & Cw & Pw & Rw).
  { intros w Hw j. apply IH, Hc, in_or_app. left. apply in_map, Hw. }
  set (nw := List.length (flat_map (fun w => args_of B d (w_id w)) (emitted x))) in *.
  destruct (share_gives _ (xcond_args (args_of B d)) (xcond_text (text_of B d)) (x_conds x)) with (k := k + nw) as (cs & _ & Cc & Pc & Rc).
  { intros c Hin j. rewrite Forall_forall in Ok. specialize (Ok c Hin). destruct c as [c|c o i].
    - exists (cond_t j c). split; [apply cond_clean; exact Ok|]. split; [apply cond_placeholders|]. intros f phs L Hf. apply cond_render; [exact L|]. rewrite L. exact Hf.
    - destruct Ok as [Oc Oo]. destruct (IH i) with (k := j) as (t & C & P & R).
      { apply Hc, in_or_app. right. apply in_or_app. left. apply in_flat_map. exists (Sub c o i). split; [exact Hin|left; reflexivity]. }
      exists (tapp (tlit (col_text c ++ o ++ "(")) (tapp t (tlit ")"))). split; [|split].
      + apply closed_clean; [|exact C]. rewrite !plain_app, (col_plain c Oc), (proj1 (Sql_proofs.operator_plain o Oo)). reflexivity.
      + rewrite closed_placeholders. exact P.
      + intros f phs L Hf. rewrite closed_render, (R f phs L Hf), !append_assoc. reflexivity. }
  set (nc := List.length (flat_map (xcond_args (args_of B d)) (x_conds x))) in *.
  destruct (share_gives _ (args_of B d) (text_of B d) (x_unions x)) with (k := k + nw + nc) as (us & _ & Cu & Pu & Ru).
  { intros u Hu j. apply IH, Hc, in_or_app. right. apply in_or_app. right. exact Hu. }
  exists (level_t x ws cs us). split; [apply level_clean; assumption|]. rewrite !List.app_length. fold nw nc. split.
  - rewrite level_placeholders, Pw, Pc, Pu by exact Lw. rewrite !seq_app. reflexivity.
  - intros f phs L Hf. rewrite level_render by exact Lw.
    assert (A1 : List.length (firstn nw phs) = nw) by (apply firstn_length_le; lia). assert (A2 : List.length (skipn nw phs) = List.length phs - nw) by apply skipn_length.
    assert (A3 : List.length (firstn nc (skipn nw phs)) = nc) by (apply firstn_length_le; lia).
    rewrite (Rw f (firstn nw phs)), (Rc f (firstn nc (skipn nw phs))), (Ru f (skipn nc (skipn nw phs))); [reflexivity| | | | | |].
    + rewrite !skipn_length. lia.
    + rewrite !skipn_length. intros i Hi. rewrite !nth_skip, <- !Nat.add_assoc. apply Hf. lia.
    + exact A3.
    + rewrite A3. intros i Hi. rewrite nth_firstn by exact Hi. rewrite nth_skip, <- Nat.add_assoc. apply Hf. lia.
    + exact A1.
    + rewrite A1. intros i Hi. rewrite nth_firstn by exact Hi. apply Hf. lia.
Qed.
Lemma book_ok : forall oss B, book oss B -> Forall plain_names B -> Forall (fun x => xstmt_ok x /\ plain_names x) B.
Proof.
  intros oss B H. induction H as [|os x oss B [Hx _] H IH]; intros P; [constructor|]. inversion P; subst. constructor; [split; assumption|apply IH; assumption].
Qed.
Theorem nest_shown_question : forall ft B oss style d id lits, style <> style_dollar -> book oss B -> Forall plain_names B -> complete B d id -> used_once B d id ->
  Forall2 (literal ft) (args_of B d id) lits ->
  exists qs, made oss qs /\ forall n, size_of B d id <= n -> exists s args,
    fst (build_query n style qs (query id)) = ROk (s, args) /\ interpolate ft s args = ROk (text_of B d id lits).
Proof.
  intros ft B oss style d id lits Hs Hb Pn Hc Hu Hl. destruct (nest_question B oss style d id Hs Hb Hc Hu) as (qs & M & H). exists qs. split; [exact M|].
  intros n Hn. eexists. eexists. split; [exact (H n Hn)|]. destruct (statement_gives B (book_ok oss B Hb Pn) d id Hc 0) as (t & C & P & R).
  assert (Rq : render qmark t = text_of B d id (map (fun _ => "?"%string) (args_of B d id))).
  { apply R; [apply map_length|]. intros j Hj. cbn [Nat.add]. apply nth_error_Some in Hj.
    destruct (nth_error (args_of B d id) j) as [v|] eqn:N; [|congruence]. symmetry. apply nth_error_nth. rewrite nth_error_map, N. reflexivity. }
  assert (Rl : render (fun j => nth j lits ""%string) t = text_of B d id lits) by (apply R; [symmetry; eapply f2_len; exact Hl|intros j _; reflexivity]).
  rewrite <- Rq, <- Rl.
  apply (question_text ft (args_of B d id) (fun j => nth j lits ""%string) t (List.length (args_of B d id)) C P). intros j Hj. apply nth_error_Some in Hj.
  destruct (nth_error (args_of B d id) j) as [v|] eqn:N; [|congruence]. exists v. split; [reflexivity|]. apply (f2_nth _ _ _ _ _ ""%string Hl N).
Qed.
Theorem nest_shown_dollar : forall ft B oss d id lits, book oss B -> Forall plain_names B -> complete B d id -> used_once B d id -> forallb hashable (args_of B d id) = true ->
  (Z.of_nat (List.length (args_of B d id)) < 9223372036854775808)%Z -> Forall2 (literal ft) (args_of B d id) lits -> literal_by_value ft (args_of B d id) ->
  exists qs, made oss qs /\ forall n, size_of B d id <= n -> exists s args,
    fst (build_query n style_dollar qs (query id)) = ROk (s, args) /\ interpolate ft s args = ROk (text_of B d id lits).
Proof.
  intros ft B oss d id lits Hb Pn Hc Hu Hh Hz Hl Hv. destruct (nest_dollar B oss d id Hb Hc Hu Hh) as (qs & phs & M & D & H). exists qs. split; [exact M|].
  intros n Hn. eexists. eexists. split; [exact (H n Hn)|]. destruct (statement_gives B (book_ok oss B Hb Pn) d id Hc 0) as (t & C & P & R).
  assert (Rp : render (fun j => nth j phs ""%string) t = text_of B d id phs) by (apply R; [eapply f2_len; exact D|intros j _; reflexivity]).
  assert (Rl : render (fun j => nth j lits ""%string) t = text_of B d id lits) by (apply R; [symmetry; eapply f2_len; exact Hl|intros j _; reflexivity]).
  rewrite <- Rp, <- Rl. apply (dollar_text ft (firsts [] (args_of B d id)) (fun j => nth j lits ""%string)).
  - pose proof (firsts_len (args_of B d id) []). lia.
  - exact C.
  - intros j Hj. rewrite P in Hj. apply in_seq in Hj. assert (Hj' : j < List.length phs) by (rewrite (f2_len _ _ _ D); lia).
    apply nth_error_Some in Hj'. destruct (nth_error phs j) as [ph|] eqn:N; [|congruence].
    destruct (f2_nth _ _ _ _ _ VNil D N) as [(k & w & E & Hk & Nw & Sv) Nv]. rewrite (nth_error_nth phs j ""%string N).
    exists k, w. split; [exact E|]. split; [exact Hk|]. split; [exact Nw|].
    destruct (f2_nth _ _ _ _ _ ""%string Hl Nv) as [L _]. apply nth_error_In in Nw. apply firsts_in in Nw.
    destruct Sv as [Sv|Sv]; [rewrite <- Sv; exact L|]. eapply Hv; [eapply nth_error_In; exact Nv|exact Nw|exact Sv|exact L].
Qed.
