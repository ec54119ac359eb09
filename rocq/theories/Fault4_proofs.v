(** Syntax errors: the parser reports exactly those of the specification. *)
From Coq Require Import Strings.String Strings.Ascii NArith ZArith List Bool Lia Wf_nat.
From Verif Require Import GoStr GoNum Syntax Spec_syntax ByteLex Lex_proofs Parse_proofs Num_proofs Grammar_proofs Lossless_proofs
  Spec_base Base_proofs Spec_grammar Grammar2_proofs Fault_proofs Fault2_proofs Fault3_proofs Spec_fault.
Import ListNotations.
Open Scope string_scope.

(* ------------------------------------------------------------------ *)
(** * Arguments *)

Definition sepe (q : bool) (s : string) : option (string * string) := ae ESep q s (tk MArgs s).
Lemma arge_blank : forall q w s, blank w -> arge q (w ++ s) = arge q s.
Proof.
  intros q w s H. unfold arge. rewrite !tk_args, (trim_blank w s H), <- !tk_args.
  destruct (tk MArgs s) as [|t ts]; [reflexivity|]. cbn [ae in_args skip]. rewrite (trim_blank w s H). reflexivity.
Qed.
Lemma sepe_blank : forall q w s, blank w -> sepe q (w ++ s) = sepe q s.
Proof.
  intros q w s H. unfold sepe. rewrite !tk_args, (trim_blank w s H), <- !tk_args.
  destruct (tk MArgs s) as [|t ts]; [reflexivity|]. cbn [ae in_args skip]. rewrite (trim_blank w s H). reflexivity.
Qed.
Lemma comma_trim : forall s, trim_left (String "," s) = String "," s.
Proof. intro s. apply trim_left_nonspace; reflexivity. Qed.
Lemma rparen_trim : forall s, trim_left (String ")" s) = String ")" s.
Proof. intro s. apply trim_left_nonspace; reflexivity. Qed.
Lemma quote_trim : forall s, trim_left (String "'" s) = String "'" s.
Proof. intro s. apply trim_left_nonspace; reflexivity. Qed.
Lemma sepe_comma : forall q s, sepe q (String "," s) = arge q s.
Proof. intros q s. unfold sepe. rewrite tk_args_comma. cbn [ae a_typ a_lit in_args skip]. rewrite comma_trim. reflexivity. Qed.
Lemma sepe_rparen : forall q s, sepe q (String ")" s) = npe q s.
Proof. intros q s. unfold sepe. rewrite tk_args_rparen. cbn [ae a_typ a_lit in_args skip]. rewrite rparen_trim. reflexivity. Qed.
Lemma arge_rparen : forall q s, arge q (String ")" s) = npe q s.
Proof. intros q s. unfold arge. rewrite tk_args_rparen. cbn [ae a_typ a_lit in_args skip]. rewrite rparen_trim. reflexivity. Qed.
Lemma arge_comma : forall q s, arge q (String "," s) = Some (String "," s, "unexpected token ,, want args").
Proof. intros q s. unfold arge. rewrite tk_args_comma. cbn [ae a_typ a_lit in_args skip]. rewrite comma_trim. reflexivity. Qed.
Lemma arge_end : forall q, arge q "" = Some ("", "unexpected token EOF, want args").
Proof. reflexivity. Qed.
Lemma sepe_end : forall q, sepe q "" = Some ("", "unexpected token EOF, want )").
Proof. reflexivity. Qed.

Lemma tk_word : forall w s, arg_word w -> starts is_word s = false -> tk MArgs (w ++ s) = a_word w :: tk MArgs s.
Proof.
  intros w s (W1 & W2 & W3 & W4) Hs. rewrite tk_args, trim_word by assumption. destruct w as [|c w]; [congruence|]. cbn [append]. fold is_word in W2.
  assert (Wc : is_word c = true) by (cbn [all] in W2; apply andb_true_iff in W2; apply W2).
  unfold is_word in Wc. apply andb_true_iff in Wc as [C1 C2]. apply negb_true_iff in C1, C2. cbn in W3. rewrite C1, C2, W3.
  change (String c (w ++ s)) with (String c w ++ s). rewrite (span_stop is_word (String c w) s W2 Hs). reflexivity.
Qed.
Lemma word_trim : forall w s, arg_word w -> starts is_word s = false -> trim_left (w ++ s) = w ++ s.
Proof. intros w s (W1 & W2 & W3 & W4) Hs. apply trim_word; assumption. Qed.
Lemma word_lit : forall w, a_lit (a_word w) = w.
Proof. intro w. unfold a_word. destruct (_ || _); [reflexivity|]. destruct (_ || _); [reflexivity|]. destruct (parse_float w); reflexivity. Qed.
Lemma word_cases : forall w, (exists v, word_value w v) \/ (no_value w /\ a_typ (a_word w) = TkName).
Proof.
  intro w. destruct (toktype_eqb (a_typ (a_word w)) TkLiteral) eqn:E.
  - apply tok_eqb_true in E. left. destruct (a_value (a_word w)) as [v|] eqn:V; [exists v; apply word_literal; auto|]. exfalso.
    unfold a_word in E, V. destruct (_ || _); [discriminate V|]. destruct (_ || _); [discriminate V|]. destruct (parse_float w) eqn:P; [|discriminate E].
    unfold a_value in V. cbn [a_bad a_kind a_lit] in V. rewrite P in V. discriminate V.
  - right. split.
    + intros v H. apply word_literal in H as [H _]. rewrite H in E. discriminate E.
    + unfold a_word in *. destruct (_ || _); [discriminate E|]. destruct (_ || _); [discriminate E|]. destruct (parse_float w); [discriminate E|reflexivity].
Qed.
Lemma word_name : forall w, no_value w -> a_typ (a_word w) = TkName.
Proof. intros w H. destruct (word_cases w) as [(v & V)|[_ T]]; [destruct (H v V)|exact T]. Qed.
Lemma arge_word : forall q w v s, arg_word w -> word_value w v -> starts is_word s = false -> arge q (w ++ s) = sepe q s.
Proof.
  intros q w v s Hw Hv Hs. unfold arge. rewrite (tk_word w s Hw Hs). apply word_literal in Hv as [T V].
  cbn [ae in_args skip]. rewrite T, word_lit, (word_trim w s Hw Hs), drop_append. fold (sepe q s). unfold a_value in V. rewrite word_lit in V.
  destruct (a_bad (a_word w)); [discriminate V|]. destruct (a_kind (a_word w)); try reflexivity. destruct (parse_float w); [reflexivity|discriminate V].
Qed.
Lemma arge_noword : forall q w s, arg_word w -> no_value w -> starts is_word s = false -> arge q (w ++ s) = Some (w ++ s, "unexpected token name, want args").
Proof.
  intros q w s Hw Hv Hs. unfold arge. rewrite (tk_word w s Hw Hs). cbn [ae in_args skip]. rewrite (word_name w Hv), (word_trim w s Hw Hs). reflexivity.
Qed.
Lemma quoted_end : forall b s, body_ok "'" b = true -> starts (fun a => Ascii.eqb a "'") s = false -> bquote "'" (b ++ String "'" s) = (b ++ "'", s, true).
Proof.
  intros b s Hb N. rewrite (bquote_body "'" b _ Hb). cbn [bquote]. change (Ascii.eqb "'" "'") with true. cbn [andb].
  destruct s as [|y z]; [reflexivity|]. cbn in N. rewrite N. reflexivity.
Qed.
Lemma tk_quoted : forall r, tk MArgs (String "'" r) = let '(b, r1, closed) := bquote "'" r in
  mkA TkLiteral (String "'" b) (negb closed) KString :: tk (if closed then MArgs else MPlain) r1.
Proof. intro r. rewrite tk_args, quote_trim. reflexivity. Qed.
Lemma arge_quoted : forall q b s, body_ok "'" b = true -> starts (fun a => Ascii.eqb a "'") s = false -> arge q (String "'" (b ++ String "'" s)) = sepe q s.
Proof.
  intros q b s Hb N. unfold arge. rewrite tk_quoted, (quoted_end b s Hb N). cbn [ae a_typ a_bad a_kind a_lit negb in_args skip]. rewrite quote_trim.
  replace (String "'" (b ++ String "'" s)) with (String "'" (b ++ "'") ++ s) by (cbn; rewrite append_assoc; reflexivity). rewrite drop_append. reflexivity.
Qed.
Lemma body_unclosed : forall b, body_ok "'" b = true -> bquote "'" b = (b, "", false).
Proof. intros b Hb. pose proof (bquote_body "'" b "" Hb) as Q. rewrite append_nil_r in Q. cbn [bquote fst snd] in Q. rewrite append_nil_r in Q. exact Q. Qed.
Lemma arge_unclosed : forall q b, body_ok "'" b = true -> arge q (String "'" b) = Some (String "'" b, "bad argument: '" ++ b).
Proof. intros q b Hb. unfold arge. rewrite tk_quoted, (body_unclosed b Hb). cbn [ae a_typ a_bad a_kind a_lit negb in_args skip]. rewrite quote_trim. reflexivity. Qed.
Lemma sepe_misplaced : forall s k, misplaced s k -> forall q, sepe q s = Some (s, "unexpected token " ++ k ++ ", want )").
Proof.
  intros s k [|s0|w v s0 Hw Hv Hs|w s0 Hw Hv Hs] q.
  - reflexivity.
  - unfold sepe. change ("'" ++ s0) with (String "'" s0). rewrite tk_quoted. destruct (bquote "'" s0) as [[b r1] cl].
    cbn [ae a_typ a_bad a_kind a_lit negb in_args skip]. rewrite quote_trim. reflexivity.
  - unfold sepe. rewrite (tk_word w s0 Hw Hs). apply word_literal in Hv as [T V]. cbn [ae in_args skip]. rewrite T, (word_trim w s0 Hw Hs). reflexivity.
  - unfold sepe. rewrite (tk_word w s0 Hw Hs). cbn [ae in_args skip]. rewrite (word_name w Hv), (word_trim w s0 Hw Hs). reflexivity.
Qed.
Lemma blank_unquoted : forall w s, blank w -> w <> "" \/ starts (fun a => Ascii.eqb a "'") s = false -> starts (fun a => Ascii.eqb a "'") (w ++ s) = false.
Proof.
  intros w s Hw H. destruct Hw as [|v w Hv _]; [destruct H; [congruence|assumption]|].
  rewrite append_assoc. unfold whites in Hv. cbn [map] in Hv. repeat (destruct Hv as [<-|Hv]; [reflexivity|]). destruct Hv.
Qed.
Lemma arge_arg : forall a v, arg_text a v -> forall q c s, is_word c = false -> arge q (a ++ String c s) = sepe q (String c s).
Proof.
  intros a v [w v' Hw Hv|b t w Hb Hh Hw] q c s Hc.
  - apply (arge_word q w v'); assumption.
  - rewrite !append_assoc. change ("'" ++ b ++ "'" ++ w ++ String c s) with (String "'" (b ++ String "'" (w ++ String c s))).
    rewrite arge_quoted, sepe_blank by (exact Hb || exact Hw || (apply blank_unquoted; [exact Hw|]; right; cbn; unfold is_word in Hc; destruct (Ascii.eqb c "'") eqn:E; [|reflexivity]; apply Ascii.eqb_eq in E; subst c; discriminate Hc)).
    reflexivity.
Qed.
Lemma arge_read : forall t args, args_text t args -> forall q s, arge q (t ++ s) = npe q s.
Proof.
  intros t args H. induction H as [w Hw|w a v Hw Ha|w a v t l Hw Ha _ IH]; intros q s.
  - rewrite append_assoc, (arge_blank q w _ Hw). apply arge_rparen.
  - rewrite !append_assoc, (arge_blank q w _ Hw). cbn [append]. rewrite (arge_arg a v Ha) by reflexivity. apply sepe_rparen.
  - rewrite !append_assoc, (arge_blank q w _ Hw). cbn [append]. rewrite (arge_arg a v Ha) by reflexivity. rewrite sepe_comma. apply IH.
Qed.
Lemma arge_stop : forall s r m, args_stop s r m -> forall q, arge q s = Some (r, m).
Proof.
  intros s r m H. induction H as [w Hw|w s Hw|w x s Hw Hx Hv Hs|w b Hw Hb|w x v Hw Hx Hv|w b w2 s k Hw Hb Hw2 Hm Hq|w a v s r m Hw Ha _ IH]; intro q.
  - rewrite <- (append_nil_r w), (arge_blank q w _ Hw). apply arge_end.
  - rewrite (arge_blank q w _ Hw). apply arge_comma.
  - rewrite (arge_blank q w _ Hw). apply arge_noword; assumption.
  - rewrite (arge_blank q w _ Hw). apply arge_unclosed; assumption.
  - rewrite (arge_blank q w _ Hw). rewrite <- (append_nil_r x), (arge_word q x v "" Hx Hv eq_refl). reflexivity.
  - rewrite (arge_blank q w _ Hw). change ("'" ++ b ++ "'" ++ w2 ++ s) with (String "'" (b ++ String "'" (w2 ++ s))).
    rewrite arge_quoted by (exact Hb || (apply blank_unquoted; assumption)). rewrite (sepe_blank q w2 s Hw2). apply sepe_misplaced. exact Hm.
  - rewrite (arge_blank q w _ Hw). cbn [append]. rewrite (arge_arg a v Ha) by reflexivity. rewrite sepe_comma. apply IH.
Qed.

(** Any text has arguments at its start or an error in them. *)
Lemma span_word_stop : forall s a r, span is_word s = (a, r) -> starts is_word r = false.
Proof.
  induction s as [|x s IHs]; intros a r E; cbn [span] in E; [injection E as <- <-; reflexivity|].
  destruct (is_word x) eqn:P; [|injection E as <- <-; exact P]. destruct (span is_word s) as [t0 r0] eqn:E0. injection E as <- <-. eapply IHs. reflexivity.
Qed.
Lemma word_split : forall c r, is_word c = true -> Ascii.eqb c "'" = false -> (forall v u, In v whites -> String c r <> v ++ u) ->
  exists a r1, String c r = a ++ r1 /\ arg_word a /\ starts is_word r1 = false /\ String.length r1 <= String.length r.
Proof.
  intros c r Hc Hq Hw. destruct (span is_word (String c r)) as [a r1] eqn:Ew. destruct (span_split _ _ _ _ Ew) as [Sw Aw].
  pose proof (span_word_stop _ _ _ Ew) as St. pose proof (span_length _ _ _ _ Ew) as L. cbn [String.length] in L.
  assert (Na : a <> "") by (intros ->; cbn [append] in Sw; rewrite <- Sw in St; cbn in St; congruence).
  exists a, r1. split; [exact Sw|]. split.
  - split; [exact Na|]. split; [exact Aw|]. split.
    + destruct a as [|x a]; [reflexivity|]. cbn [append] in Sw. injection Sw as <- _. exact Hq.
    + intros x u Hx E. apply (Hw x (u ++ r1) Hx). rewrite Sw, E, append_assoc. reflexivity.
  - split; [exact St|]. destruct a; [congruence|]. cbn [String.length] in L. lia.
Qed.
Lemma unclosed_body : forall s t r, bquote "'" s = (t, r, false) -> no_nul s = true -> body_ok "'" s = true.
Proof.
  intro s. remember (String.length s) as k eqn:Hk. revert s Hk.
  induction k as [k IH] using lt_wf_ind. intros s Hk t r H Hn. subst k.
  destruct s as [|a s]; [reflexivity|]. unfold no_nul in Hn. cbn [all] in Hn.
  apply andb_true_iff in Hn. destruct Hn as [Ha Hn]. cbn [bquote] in H. cbn [body_ok].
  destruct (Ascii.eqb a "'") eqn:Ea.
  - destruct s as [|b s]; [discriminate H|].
    change (Ascii.eqb "'" "'") with true in H |- *. cbn [andb] in H |- *.
    destruct (Ascii.eqb b "'") eqn:Eb; [|discriminate H].
    destruct (bquote "'" s) as [[t0 r0] c0] eqn:E. injection H as _ _ ->.
    cbn [all] in Hn. apply andb_true_iff in Hn. destruct Hn as [_ Hn].
    exact (IH (String.length s) ltac:(simpl; lia) s eq_refl t0 r0 E Hn).
  - destruct (bquote "'" s) as [[t0 r0] c0] eqn:E. injection H as _ _ ->.
    rewrite Ha. exact (IH (String.length s) ltac:(simpl; lia) s eq_refl t0 r0 E Hn).
Qed.
Lemma args_cases : forall s, no_nul s = true ->
  (exists t args s', args_text t args /\ s = t ++ s' /\ String.length s' < String.length s) \/ (exists r m, args_stop s r m).
Proof.
  intro s. remember (String.length s) as k eqn:Hk. revert s Hk. induction k as [k IH] using lt_wf_ind. intros s Hk Hn. subst k.
  destruct (trim_split s) as (w & Es & Bw & Nw).
  assert (Ln : no_nul (trim_left s) = true) by (rewrite Es, no_nul_app in Hn; apply andb_true_iff in Hn; apply Hn).
  assert (Lw : String.length s = String.length w + String.length (trim_left s)) by (rewrite Es at 1; apply length_append).
  rewrite Es. rewrite Es in IH. destruct (trim_left s) as [|c r] eqn:Et.
  { right. rewrite append_nil_r. do 2 eexists. apply ar_end. exact Bw. }
  cbn [String.length] in Lw. rewrite length_append in IH. cbn [String.length] in IH.
  assert (Ln' : no_nul r = true) by (unfold no_nul in Ln; cbn [all] in Ln; apply andb_true_iff in Ln; apply Ln).
  destruct (Ascii.eqb c ",") eqn:Ec; [apply Ascii.eqb_eq in Ec; subst c; right; do 2 eexists; apply (ar_comma w r Bw)|].
  destruct (Ascii.eqb c ")") eqn:Ec2.
  { apply Ascii.eqb_eq in Ec2. subst c. left. exists (w ++ ")"), [], r. split; [constructor; exact Bw|]. split; [rewrite append_assoc; reflexivity|rewrite length_append; cbn; lia]. }
  assert (Arg : forall v a c2 r2, arg_text a v -> String c r = a ++ String c2 r2 -> is_word c2 = false -> String.length r2 < String.length (String c r) ->
    (exists t args s', args_text t args /\ w ++ String c r = t ++ s' /\ String.length s' < String.length (w ++ String c r)) \/ (exists r0 m, args_stop (w ++ String c r) r0 m)).
  { intros v a c2 r2 Ha Er Hc Lr. cbn [String.length] in Lr. unfold is_word in Hc. destruct (Ascii.eqb c2 ",") eqn:Q1.
    - apply Ascii.eqb_eq in Q1. subst c2.
      destruct (IH (String.length r2) ltac:(lia) r2 eq_refl) as [(t & args & s' & T & E & L)|(r0 & m & St)].
      { rewrite Er, no_nul_app in Ln. apply andb_true_iff in Ln as [_ Ln]. unfold no_nul in Ln. cbn [all] in Ln. apply andb_true_iff in Ln. apply Ln. }
      + left. exists (w ++ a ++ "," ++ t), (v :: args), s'. split; [constructor; assumption|]. split; [|rewrite length_append; cbn [String.length]; lia].
        rewrite !append_assoc. rewrite Er, E. reflexivity.
      + right. exists r0, m. rewrite Er. change (w ++ a ++ String "," r2) with (w ++ a ++ "," ++ r2). apply (ar_more w a v r2 r0 m); assumption.
    - cbn [negb andb] in Hc. apply negb_false_iff in Hc. apply Ascii.eqb_eq in Hc. subst c2. left.
      exists (w ++ a ++ ")"), [v], r2. split; [constructor; assumption|]. split; [|rewrite length_append; cbn [String.length]; lia]. rewrite !append_assoc. rewrite Er. reflexivity. }
  destruct (Ascii.eqb c "'") eqn:Ec3.
  - apply Ascii.eqb_eq in Ec3. subst c. destruct (bquote "'" r) as [[b r1] cl] eqn:Eq.
    pose proof (bquote_split _ _ _ _ _ Eq) as Sq. pose proof (bquote_length _ _ _ _ _ Eq) as Lq.
    destruct cl.
    + destruct (bquote_closed_body r b r1 Eq Ln') as (body & -> & B).
      destruct (trim_split r1) as (w2 & E2 & B2 & N2).
      assert (Q : w2 <> "" \/ starts (fun a => Ascii.eqb a "'") (trim_left r1) = false).
      { destruct w2 as [|x w2]; [right|left; discriminate]. cbn [append] in E2. rewrite <- E2. clear - Eq Sq B.
        rewrite Sq, append_assoc in Eq. rewrite (bquote_body "'" body _ B) in Eq. cbn [append bquote] in Eq. change (Ascii.eqb "'" "'") with true in Eq. cbn [andb] in Eq.
        destruct r1 as [|y z]; [reflexivity|]. cbn [starts]. destruct (Ascii.eqb y "'"); [|reflexivity]. exfalso.
        destruct (bquote "'" z) as [[t0 r0] c0] eqn:E0. cbn [fst snd] in Eq. apply bquote_length in E0. injection Eq as _ Er _. subst r0. cbn [String.length] in E0. lia. }
      destruct (trim_left r1) as [|c2 r2] eqn:E3.
      * right. exists "", "unexpected token EOF, want )". rewrite Sq, E2. rewrite append_assoc.
        apply (ar_quoted w body w2 "" "EOF" Bw B B2 mp_end Q).
      * destruct (is_word c2) eqn:W2.
        2:{ apply (Arg (LStr (undouble_quotes body)) ("'" ++ body ++ "'" ++ w2) c2 r2).
            - constructor; [exact B|apply undouble_halved; reflexivity|exact B2].
            - rewrite !append_assoc. cbn [append]. rewrite Sq, E2, !append_assoc. reflexivity.
            - exact W2.
            - assert (L : String.length r1 = String.length w2 + S (String.length r2)) by (rewrite E2, length_append; reflexivity). cbn [String.length]. lia. }
        right. exists (String c2 r2). rewrite Sq, E2, append_assoc.
        destruct (Ascii.eqb c2 "'") eqn:Q2.
        -- eexists. apply (ar_quoted w body w2 (String c2 r2) "literal" Bw B B2); [|exact Q]. apply Ascii.eqb_eq in Q2. subst c2. exact (mp_quote r2).
        -- destruct (word_split c2 r2 W2 Q2 N2) as (a & r3 & E4 & Wa & St & _). rewrite E4 in *.
           destruct (word_cases a) as [(v & V)|[V _]]; eexists.
           ++ apply (ar_quoted w body w2 (a ++ r3) "literal" Bw B B2); [|exact Q]. exact (mp_value a v r3 Wa V St).
           ++ apply (ar_quoted w body w2 (a ++ r3) "name" Bw B B2); [|exact Q]. exact (mp_word a r3 Wa V St).
    + right. do 2 eexists. apply (ar_unclosed w r Bw). exact (unclosed_body r b r1 Eq Ln').
  - assert (Wc : is_word c = true) by (unfold is_word; rewrite Ec, Ec2; reflexivity).
    destruct (word_split c r Wc Ec3 Nw) as (a & r1 & E4 & Wa & St & L).
    destruct (word_cases a) as [(v & V)|[V _]].
    + destruct r1 as [|c2 r2].
      * right. rewrite E4, append_nil_r. do 2 eexists. apply (ar_last w a v Bw Wa V).
      * apply (Arg v a c2 r2); [apply at_word; assumption|exact E4|exact St|cbn [String.length] in *; lia].
    + right. rewrite E4. do 2 eexists. apply (ar_word w a r1 Bw Wa V St).
Qed.

(* ------------------------------------------------------------------ *)
(** * Templates *)

Lemma digits_total : forall s acc, all is_digit s = true -> exists n, digits_val acc s = Some n.
Proof.
  induction s as [|a s IH]; intros acc H; [eexists; reflexivity|]. cbn [all] in H. apply andb_true_iff in H as [Ha H]. cbn [digits_val]. rewrite Ha. apply IH, H.
Qed.
Lemma decimal_total : forall ds, starts is_digit19 ds = true -> all is_digit ds = true -> exists n, decimal n ds.
Proof. intros ds H1 H2. destruct (digits_total ds 0%N H2) as (n & E). exists n. apply dec_decimal. apply dec_unique; assumption. Qed.
Lemma parse_uint64_large : forall ds n, starts is_digit19 ds = true -> decimal n ds -> (18446744073709551616 <= n)%N -> parse_uint64 ds = None.
Proof.
  intros ds n H D L. destruct (parse_uint64 ds) as [m|] eqn:E; [|reflexivity]. apply (decimal_parse m ds H) in E as [D2 L2].
  apply dec_decimal in D, D2. assert (m = n); [|lia]. pose proof (digits_val_dec n) as X. pose proof (digits_val_dec m) as Y. rewrite D in X. rewrite D2 in Y. congruence.
Qed.
Lemma inert_doubled : forall a, is_mark a = true -> inert (String a (String a "")).
Proof. intros a H. unfold is_mark in H. apply orb_true_iff in H as [E|E]; apply Ascii.eqb_eq in E; subst a; [exact (inert_esc true)|exact (inert_esc false)]. Qed.
Lemma npe_passes : forall q s q' s', passes q s q' s' -> npe q s = npe q' s'.
Proof.
  intros q s q' s' [q0 a s0 Ha|q0 a s0 Ha|q0 c b s0 Hc Hb|q0 s0 Hs|ds n s0 Hd Hn Hl Hs|q0 nm t args s0 Hnm Ht|q0 nm ds f s0 Hnm Hd0 Hd Hf Hs|q0 nm s0 Hnm Hs Hp|q0 nm s0 Hnm Hs|q0 nm c s0 Hnm Hc Hs].
  - change (String a s0) with (String a "" ++ s0). apply npe_inert. apply inert_text. unfold plain_text. cbn [all]. rewrite Ha. reflexivity.
  - change (String a (String a s0)) with (String a (String a "") ++ s0). apply npe_inert, inert_doubled, Ha.
  - apply npe_quoted; assumption.
  - apply npe_quest. exact Hs.
  - change ("$" ++ ds ++ s0) with (String "$" (ds ++ s0)). rewrite npe_dollar_digits; [|exact Hd|exact (Grammar2_proofs.decimal_digits n ds Hn)|exact Hs].
    rewrite (proj2 (decimal_parse n ds Hd) (conj Hn Hl)). reflexivity.
  - change ("#" ++ nm ++ "(" ++ t ++ s0) with (String "#" (nm ++ String "(" (t ++ s0))). rewrite npe_open by exact Hnm. apply (arge_read t args Ht).
  - change ("#" ++ nm ++ ds ++ s0) with (String "#" (nm ++ ds ++ s0)). rewrite (npe_indexed q0 nm ds s0) by assumption. rewrite Hf. reflexivity.
  - exact (npe_func q0 nm s0 Hnm Hs Hp).
  - change ("#" ++ nm ++ "#" ++ s0) with (String "#" (nm ++ String "#" s0)). rewrite npe_func_hash, Hs by exact Hnm. reflexivity.
  - apply starts_or in Hs as [K1 K2]. change ("#" ++ nm ++ String c s0) with (String "#" (nm ++ String c s0)). rewrite npe_func_mark, K2 by assumption. reflexivity.
Qed.
Lemma npe_stops : forall q s r m, stops q s r m -> npe q s = Some (r, m).
Proof.
  intros q s r m [s0 Hs|s0 Hs|ds n s0 Hd Hn Hl Hs|q0 s0 Hs|q0 s0 Hs|q0 nm ds s0 Hnm Hd0 Hd Hf Hs|q0 nm s0 Hnm Hs|q0 nm c s0 Hnm Hc Hs|q0 nm s0 r0 m0 Hnm Ha].
  - apply npe_mixed. exact Hs.
  - apply npe_bare_dollar. exact Hs.
  - change ("$" ++ ds ++ s0) with (String "$" (ds ++ s0)). rewrite npe_dollar_digits; [|exact Hd|exact (Grammar2_proofs.decimal_digits n ds Hn)|exact Hs].
    rewrite (parse_uint64_large ds n Hd Hn Hl). reflexivity.
  - apply npe_quest_digit. exact Hs.
  - apply npe_bare_hash. exact Hs.
  - change ("#" ++ nm ++ ds ++ s0) with (String "#" (nm ++ ds ++ s0)). rewrite (npe_indexed q0 nm ds s0) by assumption. rewrite Hf. reflexivity.
  - change ("#" ++ nm ++ "#" ++ s0) with (String "#" (nm ++ String "#" s0)). rewrite npe_func_hash, Hs by exact Hnm. reflexivity.
  - change ("#" ++ nm ++ String c s0) with (String "#" (nm ++ String c s0)). rewrite npe_func_mark, Hs by (try assumption; apply digit19_unmarked; assumption). reflexivity.
  - change ("#" ++ nm ++ "(" ++ s0) with (String "#" (nm ++ String "(" s0)). rewrite npe_open by exact Hnm. apply arge_stop. exact Ha.
Qed.
Lemma misread_npe : forall q s r m, misread q s r m -> npe q s = Some (r, m).
Proof. intros q s r m H. induction H as [q s r m H|q s q' s' r m H _ IH]; [apply npe_stops, H|]. rewrite (npe_passes _ _ _ _ H). exact IH. Qed.

Lemma span_part : forall p s, exists a r, s = a ++ r /\ all p a = true /\ starts p r = false /\ String.length r <= String.length s.
Proof.
  intros p s. destruct (span p s) as [a r] eqn:Es. destruct (span_split _ _ _ _ Es) as [S1 S2]. pose proof (span_length _ _ _ _ Es) as L.
  exists a, r. split; [exact S1|]. split; [exact S2|]. split; [|lia].
  clear -Es. revert a r Es. induction s as [|x s IHs]; intros ds r E; cbn [span] in E; [injection E as <- <-; reflexivity|].
  destruct (p x) eqn:P; [|injection E as <- <-; exact P]. destruct (span p s) as [t0 r0] eqn:E0. injection E as <- <-. eapply IHs. reflexivity.
Qed.
Lemma template_cases : forall s, no_nul s = true -> s <> "" -> forall q,
  (exists q' s', passes q s q' s' /\ String.length s' < String.length s /\ no_nul s' = true) \/ (exists r m, stops q s r m) \/ npe q s = None.
Proof.
  intros s N N0 q. destruct s as [|a s]; [congruence|]. clear N0.
  unfold no_nul in N. cbn [all] in N. apply andb_true_iff in N as [Na N]. fold (no_nul s) in N. apply negb_true_iff in Na.
  destruct (special a) eqn:Sa.
  2:{ left. exists q, s. split; [constructor; exact Sa|]. split; [cbn; lia|exact N]. }
  unfold special in Sa. rewrite Na, orb_false_r in Sa. apply orb_true_iff in Sa as [Sa|Hq]; [apply orb_true_iff in Sa as [Hm|Hh]|].
  - destruct (starts (fun b => Ascii.eqb b a) s) eqn:Hd.
    { destruct s as [|b s]; [discriminate Hd|]. cbn in Hd. apply Ascii.eqb_eq in Hd. subst b. left. exists q, s. split; [constructor; exact Hm|]. split; [cbn; lia|].
      unfold no_nul in N. cbn [all] in N. apply andb_true_iff in N. apply N. }
    unfold is_mark in Hm. apply orb_true_iff in Hm as [E|E]; apply Ascii.eqb_eq in E; subst a.
    + destruct q; [right; left; do 2 eexists; apply (sp_mixed s Hd)|]. destruct (starts is_digit19 s) eqn:H19.
      2:{ right. left. do 2 eexists. apply (sp_dollar s). apply or_starts; assumption. }
      destruct (span_part is_digit s) as (ds & r & -> & S2 & S3 & L).
      assert (Sd : starts is_digit19 ds = true).
      { destruct ds as [|d ds]; [|exact H19]. cbn [append] in H19. destruct r as [|d r]; [discriminate H19|]. cbn in H19, S3. rewrite (digit19_digit d H19) in S3. discriminate S3. }
      destruct (decimal_total ds Sd S2) as (n & Dn). destruct (N.ltb_spec n 18446744073709551616) as [Hl|Hl].
      * left. exists false, r. split; [exact (ps_dollar ds n r Sd Dn Hl S3)|]. split; [cbn; rewrite length_append; lia|]. rewrite no_nul_app in N. apply andb_true_iff in N. apply N.
      * right. left. do 2 eexists. exact (sp_large ds n r Sd Dn Hl S3).
    + destruct (starts is_digit19 s) eqn:H19; [right; left; do 2 eexists; exact (sp_quest q s H19)|].
      left. exists true, s. split; [apply (ps_quest q s); apply or_starts; assumption|]. split; [cbn; lia|exact N].
  - apply Ascii.eqb_eq in Hh. subst a. destruct (span_part is_letter s) as (nm & r & -> & S2 & S3 & L).
    destruct (is_empty nm) eqn:En.
    { destruct nm; [|discriminate En]. right. left. do 2 eexists. exact (sp_hash q r S3). }
    assert (Wn : wf_name nm = true) by (unfold wf_name; rewrite En, S2; reflexivity).
    assert (Nr : no_nul r = true) by (rewrite no_nul_app in N; apply andb_true_iff in N; apply N).
    assert (Lr : String.length r < String.length (String "#" (nm ++ r))) by (cbn; rewrite length_append; lia).
    destruct (span_part is_digit r) as (ds & r2 & E & S4 & S5 & L2).
    destruct ds as [|d ds].
    2:{ subst r. destruct (parse_float (String d ds)) as [f|] eqn:P.
        - left. exists q, r2. split; [apply (ps_index q nm (String d ds) f r2); try assumption; discriminate|]. split; [lia|]. rewrite no_nul_app in Nr. apply andb_true_iff in Nr. apply Nr.
        - right. left. do 2 eexists. apply (sp_index q nm (String d ds) r2); try assumption; discriminate. }
    cbn [append] in E. subst r2. clear S4 L2.
    destruct (starts (fun a => Ascii.eqb a "(") r) eqn:Hp.
    { destruct r as [|p r]; [discriminate Hp|]. cbn in Hp. apply Ascii.eqb_eq in Hp. subst p.
      unfold no_nul in Nr. cbn [all] in Nr. apply andb_true_iff in Nr as [_ Nr]. fold (no_nul r) in Nr.
      destruct (args_cases r Nr) as [(t & args & s' & T & E & Ls)|(r0 & m & T)].
      - left. exists q, s'. subst r. split; [exact (ps_call q nm t args s' Wn T)|]. split; [cbn [String.length] in Lr |- *; lia|]. rewrite no_nul_app in Nr. apply andb_true_iff in Nr. apply Nr.
      - right. left. exists r0, m. exact (sp_args q nm r r0 m Wn T). }
    assert (St3 : starts (fun a => is_letter a || is_digit a || Ascii.eqb a "(") r = false) by (destruct r as [|x r]; [reflexivity|]; cbn in *; rewrite S3, S5, Hp; reflexivity).
    destruct (plain_start r) eqn:Ps.
    { left. exists q, r. split; [exact (ps_func q nm r Wn St3 Ps)|]. split; [exact Lr|exact Nr]. }
    destruct r as [|c r]; [discriminate Ps|]. unfold no_nul in Nr. cbn [all] in Nr. apply andb_true_iff in Nr as [_ Nr]. fold (no_nul r) in Nr.
    assert (Lr' : String.length r < String.length (String "#" (nm ++ String c r))) by (cbn [String.length] in Lr |- *; lia).
    cbn [plain_start] in Ps. destruct (is_mark c) eqn:Hm.
    + destruct (starts is_digit19 r) eqn:H19; [right; left; do 2 eexists; exact (sp_func_mark q nm c r Wn Hm H19)|].
      left. exists q, r. split; [apply (ps_func_mark q nm c r Wn Hm); apply or_starts; assumption|]. split; assumption.
    + apply negb_false_iff in Ps. apply Ascii.eqb_eq in Ps. subst c.
      destruct (starts is_letter r) eqn:Sl; [right; left; do 2 eexists; exact (sp_func_hash q nm r Wn Sl)|].
      left. exists q, r. split; [exact (ps_func_hash q nm r Wn Sl)|]. split; assumption.
  - destruct (bquote_cases a s Hq N) as [(b & r & -> & B)|[B Q]].
    + left. exists q, r. split; [exact (ps_quoted q a b r Hq B)|]. split; [cbn; rewrite length_append; cbn; lia|].
      rewrite no_nul_app in N. apply andb_true_iff in N as [_ N]. unfold no_nul in N. cbn [all] in N. apply andb_true_iff in N. apply N.
    + right. right. rewrite npe_quote by exact Hq. rewrite Q. reflexivity.
Qed.
Lemma npe_misread : forall s q r m, no_nul s = true -> npe q s = Some (r, m) -> misread q s r m.
Proof.
  intro s. remember (String.length s) as n eqn:Hn. revert s Hn. induction n as [n IH] using lt_wf_ind. intros s -> q r m N H.
  destruct (is_empty s) eqn:Z; [destruct s; [discriminate H|discriminate Z]|]. assert (N0 : s <> "") by (intros ->; discriminate Z).
  destruct (template_cases s N N0 q) as [(q' & s' & P & L & N')|[(r' & m' & P)|P]].
  - eapply mr_more; [exact P|]. apply (IH (String.length s') L s' eq_refl); [exact N'|]. rewrite <- (npe_passes _ _ _ _ P). exact H.
  - rewrite (npe_stops _ _ _ _ P) in H. injection H as <- <-. apply mr_here, P.
  - congruence.
Qed.

(* ------------------------------------------------------------------ *)
(** * The rest is a rest *)

Lemma tail_app : forall a s r, (exists b, s = b ++ r) -> exists b, a ++ s = b ++ r.
Proof. intros a s r (b & ->). exists (a ++ b). symmetry. apply append_assoc. Qed.
Lemma args_stop_tail : forall s r m, args_stop s r m -> exists b, s = b ++ r.
Proof.
  intros s r m H. induction H; try (eexists; reflexivity).
  - exists w. symmetry. apply append_nil_r.
  - exists (w ++ x). rewrite append_nil_r. reflexivity.
  - do 5 apply tail_app. exists "". reflexivity.
  - do 3 apply tail_app. assumption.
Qed.
Lemma stops_tail : forall q s r m, stops q s r m -> exists b, s = b ++ r.
Proof.
  intros q s r m H. destruct H; try (exists ""; reflexivity); try (apply (tail_app "$"); exists ""; reflexivity); try (apply (tail_app "#"); exists ""; reflexivity).
  - apply (tail_app "?"). exists "". reflexivity.
  - do 2 apply tail_app. exists "". reflexivity.
  - do 3 apply tail_app. exists "". reflexivity.
  - do 2 apply tail_app. apply (tail_app (String c "")). exists "". reflexivity.
  - do 3 apply tail_app. eapply args_stop_tail. eassumption.
Qed.
Lemma passes_tail : forall q s q' s', passes q s q' s' -> exists b, s = b ++ s'.
Proof.
  intros q s q' s' H. destruct H.
  - exists (String a ""). reflexivity.
  - exists (String a (String a "")). reflexivity.
  - exists (String c (b ++ String c "")). cbn. rewrite append_assoc. reflexivity.
  - eexists. reflexivity.
  - do 2 apply tail_app. exists "". reflexivity.
  - do 4 apply tail_app. exists "". reflexivity.
  - do 3 apply tail_app. exists "". reflexivity.
  - do 2 apply tail_app. exists "". reflexivity.
  - do 3 apply tail_app. exists "". reflexivity.
  - do 2 apply tail_app. exists (String c ""). reflexivity.
Qed.
Lemma misread_tail : forall q s r m, misread q s r m -> exists b, s = b ++ r.
Proof.
  intros q s r m H. induction H as [q s r m H|q s q' s' r m H _ (b & IH)]; [eapply stops_tail, H|].
  destruct (passes_tail _ _ _ _ H) as (c & ->). apply tail_app. eauto.
Qed.

(* ------------------------------------------------------------------ *)
(** * The parser *)

Lemma read_part_cut : forall s, read_part s (cut_nul s).
Proof.
  induction s as [|a s [IH1 IH2]]; [split; auto|]. cbn [cut_nul]. destruct (Ascii.eqb a nul) eqn:E.
  - apply Ascii.eqb_eq in E. subst a. split; [reflexivity|]. right. exists s. reflexivity.
  - split; [unfold no_nul in *; cbn [all]; rewrite E; exact IH1|]. destruct IH2 as [E2|(u & E2)].
    + left. rewrite <- E2. reflexivity.
    + right. exists u. cbn [append]. rewrite <- E2. reflexivity.
Qed.
Lemma read_part_unique : forall s t, read_part s t -> t = cut_nul s.
Proof. intros s t [N [->|(u & ->)]]; [symmetry; apply cut_nul_id, N|]. rewrite cut_nul_app by exact N. cbn. rewrite append_nil_r. reflexivity. Qed.

Theorem parse_fault : forall s k m, parse s = PErr k m <-> syntax_fault s k m.
Proof.
  intros s k m. pose proof (parse_error s) as P. destruct (read_part_cut s) as [N R]. split.
  - intro H. destruct (npe false (cut_nul s)) as [[r m']|] eqn:E.
    + destruct P as (o & P & L). rewrite H in P. injection P as <- <-. apply npe_misread in E; [|exact N].
      destruct (misread_tail _ _ _ _ E) as (b & Eb). exists b, r. rewrite <- Eb. split; [split; assumption|]. split; [|exact E].
      rewrite Eb, length_append in L. lia.
    + destruct P as (es & P). congruence.
  - intros (b & r & Rd & L & M). apply read_part_unique in Rd. rewrite Rd in M. apply misread_npe in M. rewrite M in P.
    destruct P as (o & P & Lo). rewrite P. rewrite <- Rd, length_append in Lo. replace k with o by lia. reflexivity.
Qed.
Theorem syntax_fault_unique : forall s k m k' m', syntax_fault s k m -> syntax_fault s k' m' -> k = k' /\ m = m'.
Proof. intros s k m k' m' H1 H2. apply parse_fault in H1, H2. rewrite H1 in H2. injection H2 as <- <-. auto. Qed.
Theorem rejected_fault : forall s, rejected s <-> exists k m, syntax_fault s k m.
Proof.
  intro s. unfold rejected. split.
  - intros H. pose proof (parse_error s) as P. destruct (npe false (cut_nul s)) as [[r m]|].
    + destruct P as (o & P & _). exists o, m. apply parse_fault, P.
    + destruct P as (es & P). destruct H as (k & m & H). congruence.
  - intros (k & m & H). exists k, m. apply parse_fault, H.
Qed.
