(** The parser accepts exactly the templates of the grammar. *)
From Coq Require Import Strings.String Strings.Ascii NArith ZArith List Bool Lia.
From Verif Require Import GoStr GoNum Syntax Spec_syntax ByteLex Lex_proofs Parse_proofs Num_proofs Grammar_proofs Lossless_proofs
  Spec_base Base_proofs Spec_grammar.
Import ListNotations.
Open Scope string_scope.

(* ------------------------------------------------------------------ *)
(** * White space and words *)

Lemma signed_int : forall n, int_of_uint64 n = signed n.
Proof. reflexivity. Qed.
Lemma trim_blank : forall w s, blank w -> trim_left (w ++ s) = trim_left s.
Proof.
  intros w s H. induction H as [|v w Hv _ IH]; [reflexivity|]. rewrite append_assoc. destruct (white_decodes v (w ++ s) Hv) as (K1 & K2 & K3).
  destruct (v ++ w ++ s) as [|a t] eqn:E; [discriminate K3|]. rewrite trim_left_unfold. destruct (decode_rune (String a t)) as [r n]. cbn [fst snd] in K1, K2.
  rewrite K1, K2, <- E, drop_append. exact IH.
Qed.
Lemma trim_split : forall s, exists w, s = w ++ trim_left s /\ blank w /\ forall v u, In v whites -> trim_left s <> v ++ u.
Proof. intros s. destruct (left_trimmed (String.length s) s (le_n _)) as [(a & E & Ha) H]. exists a. auto. Qed.
Lemma trim_fixed : forall s, (forall v u, In v whites -> s <> v ++ u) -> trim_left s = s.
Proof.
  intros s H. destruct (trim_split s) as (w & E & B & _). destruct B as [|v w Hv B]; [symmetry; exact E|]. exfalso.
  apply (H v (w ++ trim_left s) Hv). rewrite append_assoc in E. exact E.
Qed.
Lemma white_words : forall v, In v whites -> all is_word v = true /\ v <> "".
Proof. intros v H. unfold whites in H. cbn [map] in H. repeat (destruct H as [<-|H]; [split; [reflexivity|discriminate]|]). destruct H. Qed.
Lemma app_cut : forall a b c d : string, a ++ b = c ++ d -> (exists x, a = c ++ x /\ d = x ++ b) \/ (exists x, c = a ++ x /\ b = x ++ d).
Proof.
  induction a as [|x a IH]; intros b c d H; [right; exists c; auto|]. destruct c as [|y c]; [left; exists (String x a); auto|].
  cbn [append] in H. injection H as -> H. destruct (IH b c d H) as [(u & -> & ->)|(u & -> & ->)]; [left|right]; exists u; auto.
Qed.
Lemma trim_word : forall w s, (forall v u, In v whites -> w <> v ++ u) -> w <> "" -> starts is_word s = false -> trim_left (w ++ s) = w ++ s.
Proof.
  intros w s H Hw Hs. apply trim_fixed. intros v u Hv E. apply app_cut in E as [(x & E & _)|(x & E & Ex)].
  - exact (H v x Hv E).
  - destruct (white_words v Hv) as [Hv1 _]. rewrite E, all_app in Hv1. apply andb_true_iff in Hv1 as [_ Hx].
    destruct x as [|a x]; [apply (H v "" Hv); rewrite E, !append_nil_r; reflexivity|].
    rewrite Ex in Hs. cbn in Hs, Hx. rewrite Hs in Hx. discriminate Hx.
Qed.
Lemma trim_char : forall a s, (forall v u, In v whites -> String a "" <> v ++ u) -> is_word a = false -> trim_left (String a s) = String a s.
Proof. intros a s H Ha. apply trim_fixed. intros v u Hv E. destruct (white_words v Hv) as [K1 K2]. destruct v as [|b v]; [congruence|]. cbn in E. injection E as -> _. cbn in K1. rewrite Ha in K1. discriminate K1. Qed.
Lemma no_white_app : forall a s, is_word a = false -> trim_left (String a s) = String a s.
Proof. intros a s Ha. apply trim_fixed. intros v u Hv E. destruct (white_words v Hv) as [K1 K2]. destruct v as [|b v]; [congruence|]. cbn in E. injection E as -> _. cbn in K1. rewrite Ha in K1. discriminate K1. Qed.

Lemma word_literal : forall w v, word_value w v <-> a_typ (a_word w) = TkLiteral /\ a_value (a_word w) = Some v.
Proof.
  intros w v. split.
  - intros [| | | |w' f H]; try (split; reflexivity). unfold a_word.
    destruct (String.eqb w' "true") eqn:E1; [apply String.eqb_eq in E1; subst; discriminate H|].
    destruct (String.eqb w' "false") eqn:E2; [apply String.eqb_eq in E2; subst; discriminate H|].
    destruct (String.eqb w' "null") eqn:E3; [apply String.eqb_eq in E3; subst; discriminate H|].
    destruct (String.eqb w' "nil") eqn:E4; [apply String.eqb_eq in E4; subst; discriminate H|].
    cbn [orb]. rewrite H. split; [reflexivity|]. unfold a_value. cbn [a_bad a_kind a_lit]. rewrite H. reflexivity.
  - intros [H1 H2]. destruct (word_source w v H1 H2) as [b Hb| | | | |]; try constructor; try assumption. exfalso.
    unfold a_word in H2. cbn [append String.eqb Ascii.eqb Bool.eqb orb] in H2. cbv iota in H2.
    destruct (parse_float (String "'" (b ++ "'"))) as [f|] eqn:P; unfold a_value in H2; cbn [a_bad a_kind a_lit] in H2; [rewrite P in H2|]; discriminate H2.
Qed.

(* ------------------------------------------------------------------ *)
(** * Arguments *)

(** One argument: the scanner reads it and the parser goes on after it. *)
Lemma arg_read : forall a v, arg_text a v -> forall s nm acc idx st, starts is_word s = false -> s <> "" ->
  ap (PArg nm acc) idx st (tk MArgs (a ++ s)) = ap (PSep nm (acc ++ [v])) idx st (tk MArgs s).
Proof.
  intros a v [w v' (W1 & W2 & W3 & W4) Hv|b t w Hb Hh Hw] s nm acc idx st Hs Hs0.
  - rewrite tk_args, trim_word by assumption. destruct w as [|c w]; [congruence|]. cbn [append]. fold is_word in W2.
    assert (Wc : is_word c = true) by (cbn [all] in W2; apply andb_true_iff in W2; apply W2).
    unfold is_word in Wc. apply andb_true_iff in Wc as [C1 C2]. apply negb_true_iff in C1, C2. cbn in W3. rewrite C1, C2, W3.
    change (String c (w ++ s)) with (String c w ++ s). rewrite (span_stop is_word (String c w) s W2 Hs).
    apply word_literal in Hv as [T V]. cbn [ap]. rewrite T, V. reflexivity.
  - rewrite !append_assoc. change ("'" ++ b ++ "'" ++ w ++ s) with (String "'" (b ++ String "'" (w ++ s))).
    rewrite tk_args, trim_left_nonspace by reflexivity. change (Ascii.eqb "'" ",") with false. change (Ascii.eqb "'" ")") with false. change (Ascii.eqb "'" "'") with true. cbv iota.
    assert (Q : bquote "'" (b ++ String "'" (w ++ s)) = (b ++ "'", w ++ s, true)).
    { rewrite (bquote_body "'" b _ Hb). cbn [bquote]. change (Ascii.eqb "'" "'") with true. cbn [andb].
      assert (N : match w ++ s with String y z => Ascii.eqb y "'" = false | "" => True end).
      { destruct Hw as [|v0 w Hv _].
        - cbn [append]. destruct s as [|y z]; [exact I|]. cbn in Hs. unfold is_word in Hs. destruct (Ascii.eqb y "'") eqn:E; [|reflexivity]. apply Ascii.eqb_eq in E. subst y. discriminate Hs.
        - rewrite append_assoc. unfold whites in Hv. cbn [map] in Hv. repeat (destruct Hv as [<-|Hv]; [reflexivity|]). destruct Hv. }
      destruct (w ++ s) as [|y z]; [reflexivity|]. rewrite N. reflexivity. }
    rewrite Q. cbn [ap a_typ negb]. unfold a_value. cbn [a_bad a_kind a_lit]. change (String "'" (b ++ "'")) with (String "'" (b ++ "'")). rewrite strip_quotes_ok. cbn [option_map].
    apply undouble_halved in Hh. rewrite Hh. rewrite !tk_args, (trim_blank w s Hw). reflexivity.
Qed.
Lemma args_read : forall t args, args_text t args -> forall s nm acc idx st,
  ap (PArg nm acc) idx st (tk MArgs (t ++ s)) = ocons (ACall nm (acc ++ args)) (ap PTop idx st (tk MPlain s)).
Proof.
  intros t args H. induction H as [w Hw|w a v Hw Ha|w a v t l Hw Ha _ IH]; intros s nm acc idx st.
  - rewrite !append_assoc, tk_args, (trim_blank w _ Hw), <- tk_args. change (")" ++ s) with (String ")" s). rewrite tk_args_rparen. cbn [ap a_typ]. rewrite app_nil_r. reflexivity.
  - rewrite !append_assoc, tk_args, (trim_blank w _ Hw), <- tk_args. rewrite (arg_read a v Ha) by (reflexivity || discriminate).
    change (")" ++ s) with (String ")" s). rewrite tk_args_rparen. cbn [ap a_typ]. reflexivity.
  - rewrite !append_assoc, tk_args, (trim_blank w _ Hw), <- tk_args. rewrite (arg_read a v Ha) by (reflexivity || discriminate).
    change ("," ++ t ++ s) with (String "," (t ++ s)). rewrite tk_args_comma. cbn [ap a_typ]. rewrite IH, <- app_assoc. reflexivity.
Qed.
Lemma args_found : forall s nm acc idx st es, ap (PArg nm acc) idx st (tk MArgs s) = Some es -> no_nul s = true ->
  exists args t s', args_text t args /\ s = t ++ s' /\ String.length s' < String.length s.
Proof.
  intro s. remember (String.length s) as k eqn:Hk. revert s Hk. induction k as [k IH] using lt_wf_ind. intros s Hk nm acc idx st es H Hn. subst k.
  destruct (trim_split s) as (w & Es & Bw & Nw).
  assert (Ln : no_nul (trim_left s) = true) by (rewrite Es, no_nul_app in Hn; apply andb_true_iff in Hn; apply Hn).
  assert (Lw : String.length s = String.length w + String.length (trim_left s)) by (rewrite Es at 1; apply length_append).
  rewrite tk_args in H. destruct (trim_left s) as [|c r] eqn:Et; [discriminate|]. cbn [String.length] in Lw.
  destruct (Ascii.eqb c ",") eqn:Ec; [discriminate|].
  destruct (Ascii.eqb c ")") eqn:Ec2.
  { apply Ascii.eqb_eq in Ec2. subst c. exists [], (w ++ ")"), r. split; [constructor; exact Bw|]. split; [rewrite append_assoc; exact Es|lia]. }
  assert (Arg : forall v a c2 r2, arg_text a v -> String c r = a ++ String c2 r2 -> (c2 = ","%char \/ c2 = ")"%char) -> String.length r2 < String.length s ->
    (c2 = ","%char -> exists acc', ap (PArg nm acc') idx st (tk MArgs r2) = Some es) ->
    exists args t s', args_text t args /\ s = t ++ s' /\ String.length s' < String.length s).
  { intros v a c2 r2 Ha Er Hc Lr A. destruct Hc as [-> | ->].
    - destruct (A eq_refl) as (acc' & A'). destruct (IH (String.length r2) Lr r2 eq_refl nm acc' idx st es A') as (args & t & s' & T & E & L).
      { rewrite Er, no_nul_app in Ln. apply andb_true_iff in Ln as [_ Ln]. unfold no_nul in Ln. cbn [all] in Ln. apply andb_true_iff in Ln. apply Ln. }
      exists (v :: args), (w ++ a ++ "," ++ t), s'. split; [constructor; assumption|]. split; [|lia]. rewrite !append_assoc. rewrite Es, Er, E. reflexivity.
    - exists [v], (w ++ a ++ ")"), r2. split; [constructor; assumption|]. split; [|exact Lr]. rewrite !append_assoc. rewrite Es, Er. reflexivity. }
  assert (Next : forall acc' r1, ap (PSep nm acc') idx st (tk MArgs r1) = Some es -> exists w2 c2 r2, r1 = w2 ++ String c2 r2 /\ blank w2 /\ trim_left r1 = String c2 r2 /\
    (c2 = ","%char \/ c2 = ")"%char) /\ (c2 = ","%char -> ap (PArg nm acc') idx st (tk MArgs r2) = Some es)).
  { intros acc' r1 A. destruct (trim_split r1) as (w2 & E2 & B2 & _). rewrite tk_args in A. destruct (trim_left r1) as [|c2 r2] eqn:E3; [discriminate|].
    exists w2, c2, r2. split; [exact E2|]. split; [exact B2|]. split; [reflexivity|].
    destruct (Ascii.eqb c2 ",") eqn:Q1; [apply Ascii.eqb_eq in Q1; split; [auto|]; intros _; exact A|].
    destruct (Ascii.eqb c2 ")") eqn:Q2; [apply Ascii.eqb_eq in Q2; subst; split; [auto|]; intro K; discriminate K|]. exfalso.
    destruct (Ascii.eqb c2 "'"); [destruct (bquote c2 r2) as [[? ?] ?]; discriminate|].
    destruct (span is_word (String c2 r2)) as [w3 ?]. cbn [ap] in A. unfold a_word in A.
    destruct (_ || _); [discriminate|]. destruct (_ || _); [discriminate|]. destruct (parse_float w3); discriminate. }
  destruct (Ascii.eqb c "'") eqn:Ec3.
  - apply Ascii.eqb_eq in Ec3. subst c. destruct (bquote "'" r) as [[b r1] cl] eqn:Eq. cbn [ap a_typ] in H.
    destruct cl; [|discriminate H]. unfold a_value in H. cbn [a_bad negb a_kind a_lit] in H.
    unfold no_nul in Ln. cbn [all] in Ln. apply andb_true_iff in Ln. destruct Ln as [_ Ln'].
    destruct (bquote_closed_body r b r1 Eq Ln') as (body & -> & B).
    rewrite strip_quotes_ok in H. cbn [option_map] in H.
    pose proof (bquote_split _ _ _ _ _ Eq) as Sq. pose proof (bquote_length _ _ _ _ _ Eq) as Lq.
    destruct (Next _ _ H) as (w2 & c2 & r2 & E2 & B2 & _ & Hc & A).
    apply (Arg (LStr (undouble_quotes body)) ("'" ++ body ++ "'" ++ w2) c2 r2).
    + constructor; [exact B|apply undouble_halved; reflexivity|exact B2].
    + rewrite !append_assoc. cbn [append]. rewrite Sq, E2, !append_assoc. reflexivity.
    + exact Hc.
    + assert (L : String.length r1 = String.length w2 + S (String.length r2)) by (rewrite E2, length_append; reflexivity). lia.
    + intro K. eexists. exact (A K).
  - destruct (span is_word (String c r)) as [a r1] eqn:Ew. destruct (span_split _ _ _ _ Ew) as [Sw Aw].
    assert (Lr : String.length r1 <= String.length r).
    { simpl in Ew. unfold is_word in Ew at 1. rewrite Ec, Ec2 in Ew. simpl in Ew.
      destruct (span is_word r) as [w2 r2] eqn:E2. injection Ew as <- <-. apply span_length in E2. lia. }
    cbn [ap] in H. destruct (a_typ (a_word a)) eqn:Ta; try discriminate H.
    2:{ exfalso. unfold a_word in Ta. destruct (_ || _); [discriminate|]. destruct (_ || _); [discriminate|]. destruct (parse_float a); discriminate. }
    destruct (a_value (a_word a)) as [v|] eqn:Va; [|discriminate].
    destruct (Next _ _ H) as (w2 & c2 & r2 & E2 & B2 & E3 & Hc & A).
    assert (Hstop : r1 = String c2 r2).
    { assert (St : starts is_word r1 = false).
      { clear -Ew. revert a r1 Ew. generalize (String c r). intro s0. induction s0 as [|x s0 IHs]; intros a r1 E; cbn [span] in E; [injection E as <- <-; reflexivity|].
        destruct (is_word x) eqn:P; [|injection E as <- <-; exact P]. destruct (span is_word s0) as [t0 r0] eqn:E0. injection E as <- <-. eapply IHs. reflexivity. }
      destruct r1 as [|x r1]; [destruct w2; discriminate E2|]. cbn in St. rewrite no_white_app in E3 by exact St. exact E3. }
    apply (Arg v a c2 r2).
    + apply at_word; [|apply word_literal; split; assumption]. split; [|split; [exact Aw|split]].
      * intros ->. cbn [append] in Sw. simpl in Ew. unfold is_word in Ew at 1. rewrite Ec, Ec2 in Ew. simpl in Ew. destruct (span is_word r); discriminate Ew.
      * destruct a as [|x a]; [reflexivity|]. cbn [append] in Sw. injection Sw as <- _. exact Ec3.
      * intros x u Hx E. apply (Nw x (u ++ r1) Hx). rewrite Sw, E, append_assoc. reflexivity.
    + rewrite Sw, Hstop. reflexivity.
    + exact Hc.
    + rewrite Hstop in Lr. cbn [String.length] in Lr. lia.
    + intro K. eexists. exact (A K).
Qed.

(* ------------------------------------------------------------------ *)
(** * The parts of a template *)

Lemma np_dollar_digits : forall ds s idx st, starts is_digit19 ds = true -> all is_digit ds = true -> starts is_digit s = false ->
  np idx st (String "$" (ds ++ s)) =
  if (st =? 0)%Z then match parse_uint64 ds with Some n => ocons (ABind style_dollar (signed n)) (np (idx + 1) 0 s) | None => None end else None.
Proof.
  intros ds s idx st H1 H2 H3. unfold np at 1. rewrite (tk_dollar ds s H1 H2 H3).
  cbn [ap a_typ a_lit]. change ("$" =? "?")%string with false. cbv iota. change (style_dollar =? style_question)%Z with false. cbv iota.
  destruct (st =? 0)%Z eqn:S0.
  - change (style_dollar =? style_dollar)%Z with true. cbv iota. unfold a_num. cbn [a_kind a_typ a_lit].
    destruct (parse_uint64 ds) as [n|]; [|reflexivity]. rewrite signed_int. unfold np. change style_dollar with 0%Z.
    destruct (ap PTop (idx + 1) 0 (tk MPlain s)); reflexivity.
  - unfold style_dollar. rewrite S0. reflexivity.
Qed.
Lemma tk_mark : forall c s, is_mark c = true -> starts (fun a => Ascii.eqb a c) s = false ->
  tk MPlain (String c s) = mkA TkRef (String c "") false KString ::
    match s with
    | String d _ => if is_digit19 d then let (ds, r1) := span is_digit s in a_num ds :: tk MPlain r1 else tk MPlain s
    | "" => tk MPlain s
    end.
Proof.
  intros c s Hc Hs. rewrite tk_plain. cbn [bplain]. rewrite Hc.
  assert (B : match s with
     | String b s'' => if Ascii.eqb b c then let (t, r) := bplain s'' in (String c (String b t), r) else ("", String c s)
     | "" => ("", String c s) end = ("", String c s)).
  { destruct s as [|b s]; [reflexivity|]. cbn in Hs. rewrite Hs. reflexivity. }
  rewrite B. cbn [fst snd tk_rest].
  assert (E : Ascii.eqb c "#" = false) by (unfold is_mark in Hc; apply orb_true_iff in Hc as [E|E]; apply Ascii.eqb_eq in E; subst c; reflexivity).
  rewrite E, Hc. reflexivity.
Qed.
Lemma np_quest_digit : forall s idx st, starts is_digit19 s = true -> np idx st (String "?" s) = None.
Proof.
  intros s idx st H. destruct s as [|d s]; [discriminate H|]. cbn [starts] in H. unfold np.
  rewrite tk_mark; [|reflexivity|cbn [starts]; apply (digit19_not_mark d H)].
  rewrite H. destruct (span is_digit (String d s)) as [ds r1]. cbn [ap a_typ a_lit].
  change ("?" =? "?")%string with true. cbv iota zeta. destruct (st =? 0)%Z; [reflexivity|]. destruct (_ =? _)%Z; reflexivity.
Qed.
Lemma tk_name : forall nm s, wf_name nm = true -> starts (fun a => is_letter a || is_digit a || Ascii.eqb a "(") s = false ->
  tk MPlain (String "#" (nm ++ s)) = mkA TkHash "#" false KString :: mkA TkName nm false KString :: tk MPlain s.
Proof.
  intros nm s H1 H2.
  assert (F : starts is_letter s = false /\ starts is_digit s = false /\ starts (fun a => Ascii.eqb a "(") s = false).
  { destruct s as [|a s]; [auto|]. simpl in *. apply orb_false_iff in H2. destruct H2 as [H2 F3]. apply orb_false_iff in H2. tauto. }
  destruct F as (F1 & F2 & F3). rewrite tk_hash by assumption.
  rewrite (span_stop is_digit "" s eq_refl F2 : span is_digit s = ("", s)). cbn [is_empty].
  destruct s as [|a s]; [reflexivity|]. simpl in F3. rewrite F3. reflexivity.
Qed.
Lemma np_func_mark : forall nm c s idx st, wf_name nm = true -> is_mark c = true -> starts (fun a => Ascii.eqb a c) s = false ->
  np idx st (String "#" (nm ++ String c s)) =
  if starts is_digit19 s then None else option_map (fun es => AFunc nm :: cons_text (String c "") es) (np idx st s).
Proof.
  intros nm c s idx st H1 H2 H3. unfold np at 1.
  assert (K : is_letter c || is_digit c || Ascii.eqb c "(" = false) by (unfold is_mark in H2; apply orb_true_iff in H2 as [E|E]; apply Ascii.eqb_eq in E; subst c; reflexivity).
  rewrite (tk_name nm (String c s) H1 K), (tk_mark c s H2 H3).
  destruct s as [|d s]; cbn [starts].
  - cbn [ap a_typ a_lit]. unfold np. destruct (ap PTop idx st (tk MPlain "")); reflexivity.
  - destruct (is_digit19 d).
    + destruct (span is_digit (String d s)) as [ds r1]. reflexivity.
    + cbn [ap a_typ a_lit]. unfold np. destruct (ap PTop idx st (tk MPlain (String d s))); reflexivity.
Qed.
Lemma np_func_hash : forall nm s idx st, wf_name nm = true ->
  np idx st (String "#" (nm ++ String "#" s)) =
  if starts is_letter s then None else option_map (fun es => AFunc nm :: cons_text "#" es) (np idx st s).
Proof.
  intros nm s idx st H1. unfold np at 1. rewrite (tk_name nm (String "#" s) H1 eq_refl). rewrite tk_plain. cbn [bplain].
  change (is_mark "#") with false. change (Ascii.eqb "#" "#") with true. cbn [orb fst snd tk_rest]. change (Ascii.eqb "#" "#") with true. cbv iota. cbn [a_plain is_empty app].
  destruct s as [|d s]; cbn [starts].
  - cbn [span is_empty ap a_typ a_lit]. unfold np. destruct (ap PTop idx st (tk MPlain "")); reflexivity.
  - cbn [span]. destruct (is_letter d).
    + destruct (span is_letter s) as [w r1]. cbn [is_empty]. reflexivity.
    + cbn [is_empty ap a_typ a_lit]. unfold np. destruct (ap PTop idx st (tk MPlain (String d s))); reflexivity.
Qed.
Lemma np_open : forall nm s idx st, wf_name nm = true ->
  np idx st (String "#" (nm ++ String "(" s)) = option_map norm (ap (PArg nm []) idx st (tk MArgs s)).
Proof.
  intros nm s idx st H1. unfold np. rewrite tk_hash by (try exact H1; reflexivity). cbn [span]. change (is_digit "(") with false. cbv iota. cbn [is_empty].
  change (Ascii.eqb "(" "(") with true. cbv iota. reflexivity.
Qed.
Lemma bquote_cases : forall q r, is_quote q = true -> no_nul r = true ->
  (exists b s, r = b ++ String q s /\ body_ok q b = true) \/ (body_ok q r = true /\ bquote q r = (r, "", false)).
Proof.
  intros q r Hq. remember (String.length r) as k eqn:Hk. revert r Hk. induction k as [k IH] using lt_wf_ind. intros r Hk Hn. subst k.
  destruct r as [|a r]; [right; split; reflexivity|]. unfold no_nul in Hn. cbn [all] in Hn. apply andb_true_iff in Hn as [Ha Hn]. cbn [body_ok bquote].
  destruct (Ascii.eqb a q) eqn:E.
  - apply Ascii.eqb_eq in E. subst a. left. exists "", r. split; reflexivity.
  - destruct (IH (String.length r) ltac:(cbn; lia) r eq_refl Hn) as [(b & s & -> & B)|[B Q]].
    + left. exists (String a b), s. split; [reflexivity|]. cbn [body_ok]. rewrite E, Ha. exact B.
    + right. rewrite Ha, B, Q. split; reflexivity.
Qed.

(* ------------------------------------------------------------------ *)
(** * Both directions *)

Definition style_of (q : bool) : Z := if q then style_question else 0%Z.
Lemma decimal_digits : forall n s, decimal n s -> all is_digit s = true.
Proof.
  intros n s H. apply itoa_decimal in H. subst s. apply dec_digits.
Qed.
Lemma decimal_parse : forall n ds, starts is_digit19 ds = true -> (parse_uint64 ds = Some n <-> decimal n ds /\ (n < 18446744073709551616)%N).
Proof.
  intros n ds H. rewrite parse_uint64_decimal. split.
  - intros (L & z & t & E & Z0 & D). split; [|exact L]. destruct z as [|c z]; [subst ds; exact D|]. exfalso. subst ds. cbn in H, Z0. apply andb_true_iff in Z0 as [Z0 _].
    apply Ascii.eqb_eq in Z0. subst c. discriminate H.
  - intros [D L]. split; [exact L|]. exists "", ds. auto.
Qed.
Lemma ocons_some : forall (e : aexpr) o es, ocons e o = Some es <-> exists l, o = Some l /\ es = e :: l.
Proof. intros e [l|] es; cbn; split; intro H; [injection H as <-; eauto|destruct H as (l' & E & ->); injection E as <-; reflexivity|discriminate|destruct H as (l' & E & _); discriminate E]. Qed.
Lemma omap_some : forall (f : list aexpr -> list aexpr) o es, option_map f o = Some es <-> exists l, o = Some l /\ es = f l.
Proof. intros f [l|] es; cbn; split; intro H; [injection H as <-; eauto|destruct H as (l' & E & ->); injection E as <-; reflexivity|discriminate|destruct H as (l' & E & _); discriminate E]. Qed.
Lemma np_quest_any : forall q s idx, starts (fun a => Ascii.eqb a "?" || is_digit19 a) s = false ->
  np idx (style_of q) (String "?" s) = ocons (ABind style_question (idx + 1)) (np (idx + 1) (style_of true) s).
Proof. intros q s idx H. rewrite np_quest by exact H. destruct q; reflexivity. Qed.

Theorem template_parses : forall q k s es, templ true q k s es -> np k (style_of q) s = Some es.
Proof.
  intros q k s es H. induction H as [q k|q k a s es Ha _ IH|q k a s es Ha _ IH|q k c b s es Hc Hb _ IH|q k c b Hc Hb|q k s es Hs _ IH
    |q k ds n s es Hq Hd Hn Hl Hs _ IH|q k nm t args s es Hnm Ht _ IH|q k nm ds f s es Hnm Hd0 Hd Hf Hs _ IH|q k nm s es Hnm Hs Hp _ IH|q k nm s es Hnm Hs _ IH|q k nm c s es Hnm Hc Hs _ IH].
  - apply np_empty.
  - change (String a s) with (String a "" ++ s). rewrite np_inert, IH; [reflexivity|]. apply inert_text. unfold plain_text. cbn [all]. rewrite Ha. reflexivity.
  - unfold is_mark in Ha. apply orb_true_iff in Ha as [E|E]; apply Ascii.eqb_eq in E; subst a.
    + change (String "$" (String "$" s)) with (print1 (Esc true) ++ s). rewrite np_inert, IH by apply inert_esc. reflexivity.
    + change (String "?" (String "?" s)) with (print1 (Esc false) ++ s). rewrite np_inert, IH by apply inert_esc. reflexivity.
  - rewrite np_quoted, IH by assumption. reflexivity.
  - rewrite np_quote by exact Hc. pose proof (bquote_body c b "" Hb) as Q. rewrite append_nil_r in Q. cbn [bquote fst snd] in Q. rewrite append_nil_r in Q. rewrite Q. cbn [fst snd]. rewrite np_empty. reflexivity.
  - change ("?" ++ s) with (String "?" s). rewrite np_quest_any, IH by exact Hs. reflexivity.
  - change ("$" ++ ds ++ s) with (String "$" (ds ++ s)). rewrite np_dollar_digits; [|exact Hd|exact (decimal_digits n ds Hn)|exact Hs].
    rewrite (proj2 (decimal_parse n ds Hd) (conj Hn Hl)). cbn [andb] in Hq. subst q. cbn [style_of Z.eqb] in *. rewrite IH. reflexivity.
  - change ("#" ++ nm ++ "(" ++ t ++ s) with (String "#" (nm ++ String "(" (t ++ s))). rewrite np_open by exact Hnm. rewrite (args_read t args Ht). cbn [app].
    rewrite ocons_np by discriminate. rewrite IH. reflexivity.
  - change ("#" ++ nm ++ ds ++ s) with (String "#" (nm ++ ds ++ s)). rewrite (np_indexed nm ds f s) by assumption. rewrite IH. reflexivity.
  - change ("#" ++ nm ++ s) with (String "#" (nm ++ s)). rewrite np_func by assumption. rewrite IH. reflexivity.
  - change ("#" ++ nm ++ "#" ++ s) with (String "#" (nm ++ String "#" s)). rewrite np_func_hash, Hs, IH by exact Hnm. reflexivity.
  - change ("#" ++ nm ++ String c s) with (String "#" (nm ++ String c s)).
    assert (K : starts (fun a => Ascii.eqb a c) s = false /\ starts is_digit19 s = false) by (destruct s; [auto|]; cbn in Hs |- *; apply orb_false_iff in Hs; exact Hs).
    rewrite np_func_mark, (proj2 K), IH by (exact Hnm || exact Hc || apply K). reflexivity.
Qed.
Theorem parses_template : forall s q k es, no_nul s = true -> np k (style_of q) s = Some es -> templ true q k s es.
Proof.
  intro s. remember (String.length s) as n eqn:Hn. revert s Hn. induction n as [n IH] using lt_wf_ind. intros s -> q k es N H.
  destruct s as [|a s]; [rewrite np_empty in H; injection H as <-; constructor|].
  unfold no_nul in N. cbn [all] in N. apply andb_true_iff in N as [Na N]. fold (no_nul s) in N. apply negb_true_iff in Na.
  destruct (special a) eqn:Sa.
  2:{ change (String a s) with (String a "" ++ s) in H. rewrite np_inert in H by (apply inert_text; unfold plain_text; cbn [all]; rewrite Sa; reflexivity).
      apply omap_some in H as (l & E & ->). apply tp_char; [exact Sa|]. apply (IH (String.length s)); [cbn; lia|reflexivity|exact N|exact E]. }
  unfold special in Sa. rewrite Na, orb_false_r in Sa. apply orb_true_iff in Sa as [Sa|Hq]; [apply orb_true_iff in Sa as [Hm|Hh]|].
  - (* $ or ? *)
    destruct (starts (fun b => Ascii.eqb b a) s) eqn:Hd.
    { destruct s as [|b s]; [discriminate Hd|]. cbn in Hd. apply Ascii.eqb_eq in Hd. subst b.
      assert (Hi : np k (style_of q) (String a (String a s)) = option_map (cons_text (String a (String a ""))) (np k (style_of q) s)).
      { unfold is_mark in Hm. apply orb_true_iff in Hm as [E|E]; apply Ascii.eqb_eq in E; subst a.
        - change (String "$" (String "$" s)) with (print1 (Esc true) ++ s). apply np_inert. exact (inert_esc true).
        - change (String "?" (String "?" s)) with (print1 (Esc false) ++ s). apply np_inert. exact (inert_esc false). }
      rewrite Hi in H. apply omap_some in H as (l & E & ->). apply tp_doubled; [exact Hm|]. apply (IH (String.length s)); [cbn; lia|reflexivity| |exact E].
      unfold no_nul in N. cbn [all] in N. apply andb_true_iff in N. apply N. }
    unfold is_mark in Hm. apply orb_true_iff in Hm as [E|E]; apply Ascii.eqb_eq in E; subst a.
    + destruct (starts is_digit19 s) eqn:H19.
      2:{ rewrite np_bare_dollar in H; [discriminate H|]. destruct s as [|d s]; [reflexivity|]. cbn in Hd, H19 |- *. rewrite Hd, H19. reflexivity. }
      destruct (span is_digit s) as [ds r] eqn:Es. destruct (span_split _ _ _ _ Es) as [S1 S2]. pose proof (span_length _ _ _ _ Es) as L.
      assert (St : starts is_digit r = false).
      { clear -Es. revert ds r Es. induction s as [|x s IHs]; intros ds r E; cbn [span] in E; [injection E as <- <-; reflexivity|].
        destruct (is_digit x) eqn:P; [|injection E as <- <-; exact P]. destruct (span is_digit s) as [t0 r0] eqn:E0. injection E as <- <-. eapply IHs. reflexivity. }
      assert (Sd : starts is_digit19 ds = true).
      { destruct s as [|d s]; [discriminate H19|]. cbn in H19. cbn [span] in Es. rewrite (digit19_digit d H19) in Es. destruct (span is_digit s). injection Es as <- _. exact H19. }
      rewrite S1 in H. rewrite np_dollar_digits in H by assumption. destruct q; [discriminate H|]. cbn [style_of Z.eqb] in H.
      destruct (parse_uint64 ds) as [v|] eqn:P; [|discriminate H]. apply ocons_some in H as (l & E & ->). apply (decimal_parse v ds Sd) in P as [D1 D2].
      rewrite S1. change (String "$" (ds ++ r)) with ("$" ++ ds ++ r). apply tp_dollar; try assumption. apply (IH (String.length r)); [cbn; lia|reflexivity| |exact E].
      rewrite S1, no_nul_app in N. apply andb_true_iff in N. apply N.
    + destruct (starts is_digit19 s) eqn:H19; [rewrite np_quest_digit in H by exact H19; discriminate H|].
      assert (K : starts (fun a => Ascii.eqb a "?" || is_digit19 a) s = false) by (destruct s; [reflexivity|]; cbn in Hd, H19 |- *; rewrite Hd, H19; reflexivity).
      rewrite np_quest_any in H by exact K. apply ocons_some in H as (l & E & ->). apply (tp_quest q k s l K). apply (IH (String.length s)); [cbn; lia|reflexivity|exact N|exact E].
  - (* # *)
    apply Ascii.eqb_eq in Hh. subst a. destruct (span is_letter s) as [nm r] eqn:Es. destruct (span_split _ _ _ _ Es) as [S1 S2]. pose proof (span_length _ _ _ _ Es) as L.
    assert (St : starts is_letter r = false).
    { clear -Es. revert nm r Es. induction s as [|x s IHs]; intros nm r E; cbn [span] in E; [injection E as <- <-; reflexivity|].
      destruct (is_letter x) eqn:P; [|injection E as <- <-; exact P]. destruct (span is_letter s) as [t0 r0] eqn:E0. injection E as <- <-. eapply IHs. reflexivity. }
    destruct (is_empty nm) eqn:En.
    { destruct nm; [|discriminate En]. cbn [append] in S1. subst r. rewrite np_bare_hash in H by exact St. discriminate H. }
    assert (Wn : wf_name nm = true) by (unfold wf_name; rewrite En, S2; reflexivity).
    assert (Nr : no_nul r = true) by (rewrite S1, no_nul_app in N; apply andb_true_iff in N; apply N).
    assert (IHr : forall t q k es, String.length t <= String.length r -> no_nul t = true -> np k (style_of q) t = Some es -> templ true q k t es).
    { intros t q0 k0 es0 Lt Nt Et. apply (IH (String.length t)); [rewrite S1; cbn [String.length]; rewrite length_append; lia|reflexivity|exact Nt|exact Et]. }
    clear IH. rewrite S1 in H |- *. clear s S1 Es N En L. destruct (span is_digit r) as [ds r2] eqn:Es. destruct (span_split _ _ _ _ Es) as [S1 S3]. pose proof (span_length _ _ _ _ Es) as L2.
    assert (St2 : starts is_digit r2 = false).
    { clear -Es. revert ds r2 Es. induction r as [|x s IHs]; intros ds r E; cbn [span] in E; [injection E as <- <-; reflexivity|].
      destruct (is_digit x) eqn:P; [|injection E as <- <-; exact P]. destruct (span is_digit s) as [t0 r0] eqn:E0. injection E as <- <-. eapply IHs. reflexivity. }
    destruct ds as [|d ds].
    2:{ rewrite S1 in H |- *. destruct (parse_float (String d ds)) as [f|] eqn:P.
        - rewrite (np_indexed nm (String d ds) f r2) in H by (assumption || discriminate). apply ocons_some in H as (l & E & ->).
          change (String "#" (nm ++ String d ds ++ r2)) with ("#" ++ nm ++ String d ds ++ r2). apply tp_index; try assumption; [discriminate|].
          apply IHr; [rewrite S1, length_append; lia| |exact E]. rewrite S1, no_nul_app in Nr. apply andb_true_iff in Nr. apply Nr.
        - rewrite np_indexed_bad in H by (assumption || discriminate). discriminate H. }
    cbn [append] in S1. subst r2. clear Es S3 L2.
    destruct (starts (fun a => Ascii.eqb a "(") r) eqn:Hp.
    { destruct r as [|p r]; [discriminate Hp|]. cbn in Hp. apply Ascii.eqb_eq in Hp. subst p. rewrite np_open in H by exact Wn.
      unfold no_nul in Nr. cbn [all] in Nr. apply andb_true_iff in Nr as [_ Nr]. fold (no_nul r) in Nr.
      destruct (ap (PArg nm []) k (style_of q) (tk MArgs r)) as [es0|] eqn:Ea; [|discriminate H].
      destruct (args_found r nm [] k (style_of q) es0 Ea Nr) as (args & t & s' & T & -> & Ls). rewrite (args_read t args T) in Ea. cbn [app] in Ea.
      cbn [option_map] in H. injection H as <-.
      apply ocons_some in Ea as (l & E & ->). cbn [norm].
      change (String "#" (nm ++ String "(" (t ++ s'))) with ("#" ++ nm ++ "(" ++ t ++ s'). apply tp_call; [exact Wn|exact T|]. apply IHr; [cbn; lia| |unfold np; rewrite E; reflexivity].
      rewrite no_nul_app in Nr. apply andb_true_iff in Nr. apply Nr. }
    assert (St3 : starts (fun a => is_letter a || is_digit a || Ascii.eqb a "(") r = false) by (destruct r as [|x r]; [reflexivity|]; cbn in *; rewrite St, St2, Hp; reflexivity).
    destruct (plain_start r) eqn:Ps.
    { rewrite np_func in H by assumption. apply ocons_some in H as (l & E & ->). change (String "#" (nm ++ r)) with ("#" ++ nm ++ r). apply tp_func; try assumption. apply IHr; [lia|exact Nr|exact E]. }
    destruct r as [|c r]; [discriminate Ps|]. unfold no_nul in Nr. cbn [all] in Nr. apply andb_true_iff in Nr as [_ Nr]. fold (no_nul r) in Nr. cbn [plain_start] in Ps. destruct (is_mark c) eqn:Hm.
    + rewrite np_func_mark in H by assumption. destruct (starts is_digit19 r) eqn:H19; [discriminate H|]. apply omap_some in H as (l & E & ->).
      change (String "#" (nm ++ String c r)) with ("#" ++ nm ++ String c r). apply tp_func_mark; try assumption.
      * destruct r; [reflexivity|]. cbn in Ps, H19 |- *. rewrite Ps, H19. reflexivity.
      * apply IHr; [cbn; lia|exact Nr|exact E].
    + apply negb_false_iff in Ps. apply Ascii.eqb_eq in Ps. subst c. rewrite np_func_hash in H by exact Wn.
      destruct (starts is_letter r) eqn:Sl; [discriminate H|]. apply omap_some in H as (l & E & ->).
      change (String "#" (nm ++ String "#" r)) with ("#" ++ nm ++ "#" ++ r). apply tp_func_hash; try assumption. apply IHr; [cbn; lia|exact Nr|exact E].
  - (* quotes *)
    destruct (bquote_cases a s Hq N) as [(b & r & -> & B)|[B Q]].
    + rewrite np_quoted in H by assumption. apply omap_some in H as (l & E & ->). apply tp_quoted; [exact Hq|exact B|].
      apply (IH (String.length r)); [cbn; rewrite length_append; cbn; lia|reflexivity| |exact E].
      rewrite no_nul_app in N. apply andb_true_iff in N as [_ N]. unfold no_nul in N. cbn [all] in N. apply andb_true_iff in N. apply N.
    + rewrite np_quote in H by exact Hq. rewrite Q in H. cbn [fst snd] in H. rewrite np_empty in H. cbn [option_map cons_text is_empty] in H. injection H as <-. apply tp_unclosed; assumption.
Qed.

Theorem parsed_template : forall s es, no_nul s = true -> (parsed s = Some es <-> template s es).
Proof.
  intros s es N. rewrite parsed_np, (cut_nul_id s N). split; [apply (parses_template s false 0 es N)|apply (template_parses false 0)].
Qed.
Theorem rejected_template : forall s, no_nul s = true -> (rejected s <-> forall es, ~ template s es).
Proof.
  intros s N. rewrite <- rejected_parsed. split.
  - intros H es T. apply (parsed_template s es N) in T. congruence.
  - intros H. destruct (parsed s) as [es|] eqn:E; [|reflexivity]. exfalso. apply (H es), (parsed_template s es N), E.
Qed.
Theorem template_unique : forall s es1 es2, no_nul s = true -> template s es1 -> template s es2 -> es1 = es2.
Proof.
  intros s es1 es2 N H1 H2. apply (parsed_template s es1 N) in H1. apply (parsed_template s es2 N) in H2. congruence.
Qed.

(* ------------------------------------------------------------------ *)
(** * The rule about the styles *)

Fixpoint ordered (q : bool) (es : list aexpr) : bool :=
  match es with
  | [] => true
  | ABind sty _ :: es => if (sty =? style_question)%Z then ordered true es else negb ((sty =? style_dollar)%Z && q) && ordered q es
  | _ :: es => ordered q es
  end.
Lemma ordered_text : forall q t es, ordered q (cons_text t es) = ordered q es.
Proof. intros q t [|[u|? ?|? ?|?] es]; cbn [cons_text]; try reflexivity; destruct (is_empty t); reflexivity. Qed.
Lemma ordered_true : forall es, ordered true es = true <-> forall n, ~ In (ABind style_dollar n) es.
Proof.
  induction es as [|x es IH]; [split; [intros _ n H; contradiction|reflexivity]|].
  assert (K : (forall m, x <> ABind style_dollar m) -> ordered true (x :: es) = ordered true es).
  { intro Hx. destruct x as [|sty k| |]; try reflexivity. cbn [ordered]. destruct (sty =? style_question)%Z; [reflexivity|].
    destruct (sty =? style_dollar)%Z eqn:D; [|reflexivity]. apply Z.eqb_eq in D. subst sty. destruct (Hx k eq_refl). }
  assert (D : (exists m, x = ABind style_dollar m) \/ forall m, x <> ABind style_dollar m).
  { destruct x as [|sty k| |]; try (right; discriminate). destruct (Z.eq_dec sty style_dollar) as [->|N]; [left; eexists; reflexivity|right; congruence]. }
  destruct D as [[m ->]|D].
  - split; [discriminate|]. intros H. destruct (H m). left. reflexivity.
  - rewrite (K D), IH. split; intros H n; [intros [E|E]; [exact (D n E)|exact (H n E)]|]. intro E. apply (H n). right. exact E.
Qed.
Lemma ordered_weaken : forall es, ordered true es = true -> ordered false es = true.
Proof.
  induction es as [|[t|sty k|nm l|nm] es IH]; intro H; try exact (IH H); [reflexivity|]. cbn [ordered] in *.
  destruct (sty =? style_question)%Z; [exact H|]. apply andb_true_iff in H as [_ H]. rewrite andb_false_r. exact (IH H).
Qed.
Lemma ordered_iff : forall es, ordered false es = true <-> no_dollar_after_quest es.
Proof.
  unfold no_dollar_after_quest. induction es as [|x es IH].
  - split; [intros _ [|y a] k b n E; discriminate E|reflexivity].
  - assert (K : (forall k, x <> ABind style_question k) -> ordered false (x :: es) = ordered false es).
    { intro Hx. destruct x as [|sty k| |]; try reflexivity. cbn [ordered]. destruct (sty =? style_question)%Z eqn:D; [|rewrite andb_false_r; reflexivity].
      apply Z.eqb_eq in D. subst sty. destruct (Hx k eq_refl). }
    assert (D : (exists m, x = ABind style_question m) \/ forall m, x <> ABind style_question m).
    { destruct x as [|sty k| |]; try (right; discriminate). destruct (Z.eq_dec sty style_question) as [->|N]; [left; eexists; reflexivity|right; congruence]. }
    destruct D as [[m ->]|D].
    + change (ordered false (ABind style_question m :: es)) with (ordered true es). rewrite ordered_true. split.
      * intros H [|y a] k b n E; [injection E as _ <-; apply H|]. injection E as _ ->. intro J. apply (H n), in_or_app. right. right. exact J.
      * intros H n. exact (H [] m es n eq_refl).
    + rewrite (K D), IH. split; intros H a k b n E.
      * destruct a as [|y a]; [injection E as -> _; destruct (D k eq_refl)|]. injection E as _ E. exact (H a k b n E).
      * apply (H (x :: a) k b n). cbn. rewrite E. reflexivity.
Qed.
Lemma strict_ordered : forall q k s es, templ true q k s es -> templ false q k s es /\ ordered q es = true.
Proof.
  intros q k s es H. induction H as [q k|q k a s es Ha _ [IH O]|q k a s es Ha _ [IH O]|q k c b s es Hc Hb _ [IH O]|q k c b Hc Hb|q k s es Hs _ [IH O]
    |q k ds n s es Hq Hd Hn Hl Hs _ [IH O]|q k nm t args s es Hnm Ht _ [IH O]|q k nm ds f s es Hnm Hd0 Hd Hf Hs _ [IH O]|q k nm s es Hnm Hs Hp _ [IH O]|q k nm s es Hnm Hs _ [IH O]|q k nm c s es Hnm Hc Hs _ [IH O]];
  (split; [econstructor; eassumption || reflexivity|]); cbn [ordered]; rewrite ?ordered_text; try exact O; try reflexivity.
  cbn [andb] in Hq. subst q. rewrite O. reflexivity.
Qed.
Lemma ordered_strict : forall q k s es, templ false q k s es -> ordered q es = true -> templ true q k s es.
Proof.
  intros q k s es H. induction H as [q k|q k a s es Ha _ IH|q k a s es Ha _ IH|q k c b s es Hc Hb _ IH|q k c b Hc Hb|q k s es Hs _ IH
    |q k ds n s es Hq Hd Hn Hl Hs _ IH|q k nm t args s es Hnm Ht _ IH|q k nm ds f s es Hnm Hd0 Hd Hf Hs _ IH|q k nm s es Hnm Hs Hp _ IH|q k nm s es Hnm Hs _ IH|q k nm c s es Hnm Hc Hs _ IH];
  cbn [ordered]; rewrite ?ordered_text; intro O.
  7:{ change (style_dollar =? style_question)%Z with false in O. change (style_dollar =? style_dollar)%Z with true in O. cbn [andb] in O.
      apply andb_true_iff in O as [O1 O]. apply negb_true_iff in O1. apply tp_dollar; try assumption. exact (IH O). }
  all: econstructor; try eassumption; exact (IH O).
Qed.
Theorem template_styles : forall s es, template s es <-> either_style s es /\ no_dollar_after_quest es.
Proof.
  intros s es. rewrite <- ordered_iff. split; [apply strict_ordered|]. intros [H O]. exact (ordered_strict _ _ _ _ H O).
Qed.
Theorem parsed_styles : forall s es, no_nul s = true -> (parsed s = Some es <-> either_style s es /\ no_dollar_after_quest es).
Proof. intros s es N. rewrite (parsed_template s es N). apply template_styles. Qed.
Lemma reads_or_rejects : forall q k s es, templ false q k s es -> forall q', np k (style_of q') s = if ordered q' es then Some es else None.
Proof.
  assert (M : forall (f : list aexpr -> list aexpr) o (b : bool) es, o = (if b then Some es else None) -> option_map f o = if b then Some (f es) else None) by (intros f o [|] es ->; reflexivity).
  intros q k s es H. induction H as [q k|q k a s es Ha _ IH|q k a s es Ha _ IH|q k c b s es Hc Hb _ IH|q k c b Hc Hb|q k s es Hs _ IH
    |q k ds n s es Hq Hd Hn Hl Hs _ IH|q k nm t args s es Hnm Ht _ IH|q k nm ds f s es Hnm Hd0 Hd Hf Hs _ IH|q k nm s es Hnm Hs Hp _ IH|q k nm s es Hnm Hs _ IH|q k nm c s es Hnm Hc Hs _ IH];
  intro q'; cbn [ordered]; rewrite ?ordered_text.
  - apply np_empty.
  - change (String a s) with (String a "" ++ s). rewrite np_inert; [exact (M _ _ _ _ (IH q'))|]. apply inert_text. unfold plain_text. cbn [all]. rewrite Ha. reflexivity.
  - unfold is_mark in Ha. apply orb_true_iff in Ha as [E|E]; apply Ascii.eqb_eq in E; subst a.
    + change (String "$" (String "$" s)) with (print1 (Esc true) ++ s). rewrite np_inert by apply inert_esc. exact (M _ _ _ _ (IH q')).
    + change (String "?" (String "?" s)) with (print1 (Esc false) ++ s). rewrite np_inert by apply inert_esc. exact (M _ _ _ _ (IH q')).
  - rewrite np_quoted by assumption. exact (M _ _ _ _ (IH q')).
  - rewrite np_quote by exact Hc. pose proof (bquote_body c b "" Hb) as Q. rewrite append_nil_r in Q. cbn [bquote fst snd] in Q. rewrite append_nil_r in Q. rewrite Q. cbn [fst snd]. rewrite np_empty. reflexivity.
  - change ("?" ++ s) with (String "?" s). rewrite np_quest_any, IH by exact Hs. change (style_question =? style_question)%Z with true. cbv iota. destruct (ordered true es); reflexivity.
  - change ("$" ++ ds ++ s) with (String "$" (ds ++ s)). rewrite np_dollar_digits; [|exact Hd|exact (decimal_digits n ds Hn)|exact Hs].
    rewrite (proj2 (decimal_parse n ds Hd) (conj Hn Hl)). change (style_dollar =? style_question)%Z with false. change (style_dollar =? style_dollar)%Z with true. cbv iota.
    destruct q'; [reflexivity|]. pose proof (IH false) as I0. cbn [style_of Z.eqb andb negb] in *. rewrite I0. destruct (ordered false es); reflexivity.
  - change ("#" ++ nm ++ "(" ++ t ++ s) with (String "#" (nm ++ String "(" (t ++ s))). rewrite np_open by exact Hnm. rewrite (args_read t args Ht). cbn [app].
    rewrite ocons_np by discriminate. rewrite IH. destruct (ordered q' es); reflexivity.
  - change ("#" ++ nm ++ ds ++ s) with (String "#" (nm ++ ds ++ s)). rewrite (np_indexed nm ds f s) by assumption. rewrite IH. destruct (ordered q' es); reflexivity.
  - change ("#" ++ nm ++ s) with (String "#" (nm ++ s)). rewrite np_func by assumption. rewrite IH. destruct (ordered q' es); reflexivity.
  - change ("#" ++ nm ++ "#" ++ s) with (String "#" (nm ++ String "#" s)). rewrite np_func_hash, Hs, IH by exact Hnm. destruct (ordered q' es); reflexivity.
  - change ("#" ++ nm ++ String c s) with (String "#" (nm ++ String c s)).
    assert (K : starts (fun a => Ascii.eqb a c) s = false /\ starts is_digit19 s = false) by (destruct s; [auto|]; cbn in Hs |- *; apply orb_false_iff in Hs; exact Hs).
    rewrite np_func_mark, (proj2 K), IH by (exact Hnm || exact Hc || apply K). destruct (ordered q' es); reflexivity.
Qed.
Theorem mixed_rejected : forall s es, no_nul s = true -> either_style s es -> ~ no_dollar_after_quest es -> rejected s.
Proof.
  intros s es N H O. rewrite <- rejected_parsed, parsed_np, (cut_nul_id s N). pose proof (reads_or_rejects _ _ _ _ H false) as R. cbn [style_of] in R. rewrite R.
  destruct (ordered false es) eqn:E; [|reflexivity]. destruct (O (proj1 (ordered_iff es) E)).
Qed.
Theorem parsed_order : forall s es, no_nul s = true -> parsed s = Some es -> no_dollar_after_quest es.
Proof. intros s es N H. exact (proj2 (proj1 (parsed_styles s es N) H)). Qed.
