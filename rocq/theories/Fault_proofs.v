(** Where the tokens of a template are: offsets of the scanner. *)
From Coq Require Import Strings.String Strings.Ascii NArith ZArith List Bool Lia.
From Verif Require Import GoStr GoNum Syntax Spec_syntax ByteLex Lex_proofs Parse_proofs Grammar_proofs Lossless_proofs Pos_proofs Spec_base Grammar2_proofs.
Import ListNotations.
Open Scope string_scope.

(* ------------------------------------------------------------------ *)
(** * Offsets of the lexer *)

Lemma next_off : forall l, valid l -> l_soff (lex_next l) = l_soff l /\
  l_off (lex_next l) + String.length (l_pre l) = l_off l + String.length (l_pre (lex_next l)).
Proof.
  intros l V. destruct (l_rest l) as [|a s] eqn:E.
  - unfold lex_next. rewrite E. cbn. lia.
  - destruct (current_char l V) as (u & _ & _ & Lw & Ep & _); [congruence|]. rewrite Ep, length_append.
    unfold lex_next. rewrite E. destruct (decode_rune (str_drop (l_width l) (String a s))). cbn [l_off l_soff]. lia.
Qed.
Lemma reach_off : forall l l', reach l l' -> valid l -> valid l' /\ l_soff l' = l_soff l /\
  l_off l' + String.length (l_pre l) = l_off l + String.length (l_pre l').
Proof.
  induction 1 as [l|l l' H IH]; intro V; [auto|]. destruct (IH (valid_next l V)) as (V' & A & B). destruct (next_off l V) as [C D].
  split; [exact V'|]. split; [congruence|lia].
Qed.
Lemma start_off : forall l l', valid l -> reach (start_token l) l' -> valid l' /\ l_soff l' = l_off l /\ l_off l' = l_off l + String.length (l_pre l').
Proof.
  intros l l' V R. destruct (reach_off _ _ R (valid_start _ V)) as (V' & A & B). cbn in A, B. split; [exact V'|]. split; [exact A|lia].
Qed.

Lemma rune_char : forall l c, valid l -> (code c <? 128)%N = true -> Ascii.eqb c nul = false -> (l_rune l =? code c)%N = true ->
  exists r, cut_nul (l_rest l) = String c (cut_nul r) /\ l_rest (lex_next l) = r /\ l_pre (lex_next l) = l_pre l ++ String c "".
Proof.
  intros l c V Hc Hn H. rewrite (ascii_rune_not l c V Hc Hn) in H. destruct (cut_nul (l_rest l)) as [|b t] eqn:E; [discriminate H|].
  apply Ascii.eqb_eq in H. subst b. destruct (cut_cons _ _ _ E) as (s' & Es & Cs & _). exists s'.
  destruct (next_ascii l c s' V Es) as (_ & N1 & N2 & _); [unfold hi; rewrite Hc; reflexivity|]. rewrite <- Cs. auto.
Qed.

(** White space has no NUL. *)
Lemma skip_off : forall n l l', skip_ws n l = Some l' -> valid l ->
  l_off l' + String.length (cut_nul (l_rest l')) = l_off l + String.length (cut_nul (l_rest l)).
Proof.
  assert (Step : forall l, valid l -> is_space (l_rune l) = true ->
    l_off (lex_next l) + String.length (cut_nul (l_rest (lex_next l))) = l_off l + String.length (cut_nul (l_rest l))).
  { intros l V Sp. destruct (next_off l V) as [_ O]. destruct (l_rest l) as [|a s] eqn:E.
    - destruct (rune_end l V E) as [R|R]; rewrite R in Sp; discriminate Sp.
    - destruct (hi a) eqn:Ha.
      + destruct (next_hi l a s V E Ha) as (_ & u & v & Euv & _ & Hu & N1 & N2 & _). rewrite N2, length_append in O.
        rewrite N1, Euv, (cut_nul_hi u v Hu), length_append. lia.
      + destruct (next_ascii l a s V E Ha) as (R & N1 & N2 & _). rewrite N2, length_append in O. cbn [String.length] in O.
        rewrite N1. cbn [cut_nul]. destruct (Ascii.eqb a nul) eqn:Ez; [|cbn [String.length]; lia].
        apply Ascii.eqb_eq in Ez. subst a. rewrite R in Sp. discriminate Sp. }
  induction n as [|n IH]; intros l l' H V; [discriminate H|]. unfold skip_ws in H; fold skip_ws in H.
  destruct (is_space (l_rune l)) eqn:Sp; cbn [negb] in H; [|injection H as <-; reflexivity].
  destruct (l_rune (lex_next l) =? eof)%N; [injection H as <-; apply Step; assumption|].
  rewrite (IH _ _ H (valid_next _ V)). apply Step; assumption.
Qed.

Lemma trim_idem : forall s, trim_left (trim_left s) = trim_left s.
Proof. intro s. destruct (trim_split s) as (w & _ & _ & H). apply trim_fixed, H. Qed.

(* ------------------------------------------------------------------ *)
(** * Tokens and the text from them on *)

Definition skip (m : bool) (r : string) : string := if m then trim_left r else r.
Definition after (m : bool) (t : toktype) : bool := match t with TkLparen => true | TkRparen => false | _ => m end.

Section Scan.
(** The length of the template up to the first NUL. *)
Variable size : nat.

Fixpoint chain (m : bool) (r : string) (ts : list token) : Prop :=
  match ts with
  | [] => True
  | t :: ts' => exists r2, skip m r = t_lit t ++ r2 /\ t_start t + String.length (skip m r) = size /\ chain (after m (t_typ t)) r2 ts'
  end.

Definition off_ok (l : lexer) : Prop := l_off l + String.length (cut_nul (l_rest l)) = size.
Lemma off_reach : forall l l', valid l -> off_ok l -> reach (start_token l) l' ->
  cut_nul (l_rest l) = l_pre l' ++ cut_nul (l_rest l') -> valid l' /\ l_soff l' = l_off l /\ l_off l' = l_off l + String.length (l_pre l') /\ off_ok l'.
Proof.
  intros l l' V O R E. destruct (start_off l l' V R) as (V' & A & B). split; [exact V'|]. split; [exact A|]. split; [exact B|].
  unfold off_ok in *. rewrite E, length_append in O. lia.
Qed.

Definition centry (st : scanstate) (m : bool) (r : string) (l : lexer) : Prop :=
  match st with
  | ScPlain => skip m r = cut_nul (l_rest l) /\ (m = true -> cut_nul (l_rest l) = "")
  | ScRef => m = false /\ cut_nul (l_rest l) = r /\ ((l_rune l =? r_dollar)%N || (l_rune l =? r_quest)%N) = true
  | ScIndex => m = false /\ cut_nul (l_rest l) = r
  | ScQuotedPlain => m = false /\ l_pre l ++ cut_nul (l_rest l) = r /\ l_off l = l_soff l + String.length (l_pre l) /\
      exists q, is_quote q = true /\ l_rune l = code q
  | ScFunc => m = false /\ cut_nul (l_rest l) = r /\ (l_rune l =? r_hash)%N = true
  | ScFuncName => m = false /\ cut_nul (l_rest l) = r
  | ScFuncArgs => m = true /\ trim_left r = trim_left (cut_nul (l_rest l))
  | ScFuncArgQuoted => m = true /\ l_pre l = "" /\ l_soff l = l_off l /\ trim_left r = cut_nul (l_rest l) /\ l_rune l = code "'"
  end.

Lemma chain_one : forall m r t r2 ts, skip m r = t_lit t ++ r2 -> t_start t + String.length (skip m r) = size ->
  chain (after m (t_typ t)) r2 ts -> chain m r (t :: ts).
Proof. intros m r t r2 ts H1 H2 H3. exists r2. auto. Qed.

Lemma scan_chain : forall n st l toks m r, scan_loop n st l = Some toks -> valid l -> off_ok l ->
  centry st m r l -> chain m r toks.
Proof.
  induction n as [|n IH]; intros st l toks m r H V O En; [discriminate H|].
  cbn [scan_loop] in H. destruct (scan_step st l) as [[[l' ts] st']|] eqn:Es; [|discriminate H].
  destruct st; cbn [centry] in En; cbn [scan_step] in Es.
  - (* scanPlain *)
    destruct En as [Sk Me]. unfold scan_plain in Es.
    destruct (plain_spec (lex_fuel (start_token l)) (start_token l) (valid_start l V) (fuel_ok _)) as (l2 & W1 & W2 & W3 & W4 & W5 & W6).
    rewrite W1 in Es. injection Es as <- <- <-. pose proof (plain_reach _ _ _ _ _ W1) as R. clear W1 W5 W6.
    rewrite start_rest in *. cbn [start_token l_pre append] in W3.
    destruct (bplain (cut_nul (l_rest l))) as [t rr] eqn:Eb. cbn [fst snd] in *.
    pose proof (bplain_split _ _ _ Eb) as Sp. pose proof (bplain_stop _ _ _ Eb) as Sb.
    destruct (off_reach l l2 V O R) as (_ & O1 & O2 & O3); [rewrite W3, W4; exact Sp|].
    unfold off_ok in O.
    (* the token for the text before, if any *)
    assert (Pre : m = false -> forall ts2 more, ts2 = (if advanced l2 then [emit l2 TkPlain KString false] else []) ->
      chain false rr more -> chain m r (ts2 ++ more)).
    { intros -> ts2 more -> Hc. cbn [skip] in Sk. subst r. destruct (advanced l2) eqn:Ad.
      - apply (chain_one false _ (emit l2 TkPlain KString false) rr more); [cbn [emit t_lit skip]; rewrite W3; exact Sp|cbn [emit t_start skip]; lia|exact Hc].
      - apply not_advanced in Ad. rewrite Ad in W3. subst t. cbn [append] in Sp. rewrite Sp. exact Hc. }
    unfold plain_result in H. destruct rr as [|c rr].
    + destruct (advanced l2) eqn:Ad; cbn [fst snd] in H.
      * destruct m; [exfalso; rewrite (Me eq_refl) in Eb; injection Eb as <-; unfold advanced in Ad; rewrite W3 in Ad; discriminate Ad|].
        destruct (scan_loop n ScPlain l2) as [more|] eqn:M; [|discriminate H]. injection H as <-.
        apply (Pre eq_refl [emit l2 TkPlain KString false] more eq_refl). apply (IH _ _ _ _ _ M W2 O3). cbn [centry skip]. rewrite W4. auto.
      * injection H as <-. apply not_advanced in Ad. rewrite Ad in W3. subst t. cbn [append] in Sp.
        apply (chain_one m r _ "" []); [cbn [emit t_lit]; rewrite Ad, Sk, Sp; reflexivity|cbn [emit t_start]; rewrite Sk; lia|exact Logic.I].
    + assert (m = false) as ->.
      { destruct m; [|reflexivity]. rewrite (Me eq_refl) in Eb. discriminate Eb. }
      destruct (Ascii.eqb c "#") eqn:Eh; [|destruct (is_mark c) eqn:Em]; cbn [fst snd] in H.
      * destruct (scan_loop n ScFunc l2) as [more|] eqn:M; [|discriminate H]. injection H as <-.
        apply (Pre eq_refl _ more eq_refl). apply (IH _ _ _ _ _ M W2 O3). cbn [centry]. split; [reflexivity|]. split; [exact W4|].
        change r_hash with (code "#"). rewrite ascii_rune_not, W4 by (exact W2 || reflexivity). exact Eh.
      * destruct (scan_loop n ScRef l2) as [more|] eqn:M; [|discriminate H]. injection H as <-.
        apply (Pre eq_refl _ more eq_refl). apply (IH _ _ _ _ _ M W2 O3). cbn [centry]. split; [reflexivity|]. split; [exact W4|].
        change r_dollar with (code "$"). change r_quest with (code "?"). rewrite !ascii_rune_not, W4 by (exact W2 || reflexivity). exact Em.
      * destruct (scan_loop n ScQuotedPlain l2) as [more|] eqn:M; [|discriminate H]. injection H as <-. cbn [app].
        apply (IH _ _ _ _ _ M W2 O3). cbn [centry]. split; [reflexivity|]. cbn [skip] in Sk. split; [rewrite W3, W4, Sk; symmetry; exact Sp|].
        split; [lia|]. exists c. cbn [orb] in Sb. split; [exact Sb|]. destruct (cut_cons _ _ _ W4) as (s' & Es' & _ & _).
        apply (next_ascii l2 c s' W2 Es'). apply quote_facts, Sb.
  - (* scanRef *)
    destruct En as (-> & Hr & Q). unfold scan_ref in Es. injection Es as El Ets Est.
    pose proof (reach_one (start_token l)) as R. rewrite El in R.
    rewrite <- Est in H. destruct (scan_loop n ScIndex l') as [more|] eqn:M; [|discriminate H].
    injection H as <-. rewrite <- Ets, El. cbn [app].
    assert (C : exists c s', cut_nul (l_rest l) = String c (cut_nul s') /\ l_rest l' = s' /\ l_pre l' = String c "").
    { apply orb_true_iff in Q. destruct Q as [Q|Q].
      - destruct (rune_char (start_token l) "$" (valid_start _ V) eq_refl eq_refl Q) as (s' & C1 & C2 & C3). rewrite El in C2, C3. exists "$"%char, s'. auto.
      - destruct (rune_char (start_token l) "?" (valid_start _ V) eq_refl eq_refl Q) as (s' & C1 & C2 & C3). rewrite El in C2, C3. exists "?"%char, s'. auto. }
    destruct C as (c & s' & C1 & C2 & C3).
    destruct (off_reach l l' V O R) as (V' & O1 & O2 & O3); [rewrite C2, C3; exact C1|].
    apply (chain_one false r (emit l' TkRef KString false) (cut_nul s') more); cbn [emit t_lit t_start skip t_typ after].
    + rewrite C3, <- Hr. exact C1.
    + unfold off_ok in O. rewrite <- Hr, O1. exact O.
    + apply (IH _ _ _ _ _ M V' O3). cbn [centry]. rewrite C2. auto.
  - (* scanIndex *)
    destruct En as (-> & Hr). unfold scan_index in Es. destruct (in_range (l_rune l) 49 57).
    + rewrite digits_loop_while in Es.
      destruct (while_spec _ _ _ agrees_digit (lex_fuel (start_token l)) (start_token l) (valid_start _ V) (fuel_ok _)) as (l3 & B1 & B2 & B3 & B4 & _).
      rewrite B1 in Es. injection Es as <- <- <-. rewrite start_rest in B3, B4. cbn [start_token l_pre append] in B3.
      destruct (span is_digit (cut_nul (l_rest l))) as [ds r1] eqn:Sp. cbn [fst snd] in B3, B4. destruct (span_split _ _ _ _ Sp) as [S1 _].
      destruct (off_reach l l3 V O (while_reach _ _ _ _ B1)) as (_ & O1 & O2 & O3); [rewrite B3, B4; exact S1|].
      destruct (scan_loop n ScPlain l3) as [more|] eqn:M; [|discriminate H]. injection H as <-. cbn [app].
      apply (chain_one false r (emit l3 TkLiteral KNumber false) r1 more); cbn [emit t_lit t_start skip t_typ after].
      * rewrite B3, <- Hr. exact S1.
      * unfold off_ok in O. rewrite <- Hr, O1. exact O.
      * apply (IH _ _ _ _ _ M B2 O3). cbn [centry skip]. rewrite B4. split; [reflexivity|discriminate].
    + injection Es as <- <- <-. destruct (scan_loop n ScPlain l) as [more|] eqn:M; [|discriminate H]. injection H as <-. cbn [app].
      apply (IH _ _ _ _ _ M V O). cbn [centry skip]. split; [symmetry; exact Hr|discriminate].
  - (* scanQuotedPlain *)
    destruct En as (-> & Hr & Po & q & Hq & Rq). destruct (quote_facts q Hq) as [Q1 Q2].
    assert (Q3 : (code q <? 128)%N = true) by (unfold hi in Q1; apply negb_false_iff; exact Q1).
    destruct (rune_char l q V Q3 Q2) as (s' & C1 & C2 & C3); [rewrite Rq; apply N.eqb_refl|].
    unfold scan_quoted_plain in Es. rewrite Rq in Es.
    destruct (quoted_spec q Hq (lex_fuel (lex_next l)) (lex_next l) (valid_next _ V) (fuel_ok _)) as (l2 & W1 & W2 & W3 & W4 & _).
    rewrite W1 in Es. injection Es as <- <- <-. rewrite C2 in W3, W4.
    destruct (bquote q (cut_nul s')) as [[b r1] cl] eqn:Bq. cbn [fst snd] in W3, W4. pose proof (bquote_split _ _ _ _ _ Bq) as Sq.
    pose proof (reach_trans _ _ _ (reach_one l) (quoted_reach _ _ _ _ _ W1)) as R. destruct (reach_off _ _ R V) as (_ & O1 & O2).
    assert (P2 : l_pre l2 = l_pre l ++ String q b) by (rewrite W3, C3, append_assoc; reflexivity).
    assert (O3 : off_ok l2).
    { unfold off_ok in *. rewrite C1, Sq in O. rewrite W4. rewrite P2, !length_append in O2. cbn [String.length] in O, O2. rewrite length_append in O. lia. }
    destruct (scan_loop n ScPlain l2) as [more|] eqn:M; [|discriminate H]. injection H as <-. cbn [app].
    apply (chain_one false r (emit l2 TkPlain KString (negb (snd (b, r1, cl)))) r1 more); cbn [emit t_lit t_start skip t_typ after].
    + rewrite P2, <- Hr, C1, Sq, append_assoc. reflexivity.
    + unfold off_ok in O. rewrite <- Hr, length_append, O1. lia.
    + apply (IH _ _ _ _ _ M W2 O3). cbn [centry skip]. rewrite W4. split; [reflexivity|discriminate].
  - (* scanFunc *)
    destruct En as (-> & Hr & Q). unfold scan_func in Es. injection Es as El Ets Est.
    pose proof (reach_one (start_token l)) as R. rewrite El in R.
    rewrite <- Est in H. destruct (scan_loop n ScFuncName l') as [more|] eqn:M; [|discriminate H].
    injection H as <-. rewrite <- Ets, El. cbn [app].
    destruct (rune_char (start_token l) "#" (valid_start _ V) eq_refl eq_refl Q) as (s' & C1 & C2 & C3). rewrite El in C2, C3.
    rewrite start_rest in C1. cbn [start_token l_pre append] in C3.
    destruct (off_reach l l' V O R) as (V' & O1 & O2 & O3); [rewrite C2, C3; exact C1|].
    apply (chain_one false r (emit l' TkHash KString false) (cut_nul s') more); cbn [emit t_lit t_start skip t_typ after].
    + rewrite C3, <- Hr. exact C1.
    + unfold off_ok in O. rewrite <- Hr, O1. exact O.
    + apply (IH _ _ _ _ _ M V' O3). cbn [centry]. rewrite C2. auto.
  - (* scanFuncName *)
    destruct En as (-> & Hr). unfold scan_func_name in Es.
    destruct (while_spec _ _ _ agrees_letter (lex_fuel (start_token l)) (start_token l) (valid_start _ V) (fuel_ok _)) as (l2 & A1 & A2 & A3 & A4 & _).
    rewrite A1 in Es. rewrite start_rest in A3, A4. cbn [start_token l_pre append] in A3.
    destruct (span is_letter (cut_nul (l_rest l))) as [nm r1] eqn:Sp. cbn [fst snd] in A3, A4. destruct (span_split _ _ _ _ Sp) as [S1 _].
    destruct (off_reach l l2 V O (while_reach _ _ _ _ A1)) as (_ & O1 & O2 & O3); [rewrite A3, A4; exact S1|].
    destruct (advanced l2) eqn:Ad2; cbn [negb] in Es.
    2: { injection Es as <- <- <-. destruct (scan_loop n ScPlain l2) as [more|] eqn:M; [|discriminate H]. injection H as <-. cbn [app].
         apply not_advanced in Ad2. rewrite Ad2 in A3. subst nm. cbn [append] in S1.
         apply (IH _ _ _ _ _ M A2 O3). cbn [centry skip]. split; [|discriminate]. congruence. }
    destruct (while_spec _ _ _ agrees_digit (lex_fuel (start_token l2)) (start_token l2) (valid_start _ A2) (fuel_ok _)) as (l3 & B1 & B2 & B3 & B4 & _).
    rewrite B1 in Es. rewrite start_rest in B3, B4. cbn [start_token l_pre append] in B3.
    destruct (span is_digit (cut_nul (l_rest l2))) as [ds r2] eqn:Sp2. cbn [fst snd] in B3, B4. destruct (span_split _ _ _ _ Sp2) as [S2 _].
    destruct (off_reach l2 l3 A2 O3 (while_reach _ _ _ _ B1)) as (_ & P1 & P2 & P3); [rewrite B3, B4; exact S2|].
    assert (Name : forall more, chain false r1 more -> chain false r (emit l2 TkName KString false :: more)).
    { intros more Hc. apply (chain_one false r (emit l2 TkName KString false) r1 more); cbn [emit t_lit t_start skip t_typ after]; [rewrite A3, <- Hr; exact S1| |exact Hc].
      unfold off_ok in O. rewrite <- Hr, O1. exact O. }
    rewrite A4 in S2.
    destruct (advanced l3) eqn:Ad3.
    + injection Es as <- <- <-. destruct (scan_loop n ScPlain l3) as [more|] eqn:M; [|discriminate H]. injection H as <-. cbn [app].
      apply Name. apply (chain_one false r1 (emit l3 TkLiteral KNumber false) r2 more); cbn [emit t_lit t_start skip t_typ after].
      * rewrite B3. exact S2.
      * unfold off_ok in O3. rewrite P1, <- A4. exact O3.
      * apply (IH _ _ _ _ _ M B2 P3). cbn [centry skip]. rewrite B4. split; [reflexivity|discriminate].
    + apply not_advanced in Ad3. rewrite Ad3 in B3. subst ds. cbn [append] in S2. rewrite <- S2 in B4.
      destruct (l_rune l3 =? r_lparen)%N eqn:Lp.
      * destruct (rune_char l3 "(" B2 eq_refl eq_refl Lp) as (s3 & C1 & C2 & C3). rewrite Ad3 in C3. cbn [append] in C3.
        injection Es as <- <- <-. destruct (scan_loop n ScFuncArgs (lex_next l3)) as [more|] eqn:M; [|discriminate H]. injection H as <-. cbn [app].
        destruct (off_reach l2 (lex_next l3) A2 O3) as (V4 & R1 & R2 & R3).
        { apply (reach_trans _ _ _ (while_reach _ _ _ _ B1) (reach_one l3)). }
        { rewrite C3, C2, A4, <- B4, C1. reflexivity. }
        apply Name. apply (chain_one false r1 (emit (lex_next l3) TkLparen KString false) (cut_nul s3) more); cbn [emit t_lit t_start skip t_typ after].
        -- rewrite C3, <- B4, C1. reflexivity.
        -- unfold off_ok in O3. rewrite R1, <- A4. exact O3.
        -- apply (IH _ _ _ _ _ M V4 R3). cbn [centry]. rewrite C2. auto.
      * injection Es as <- <- <-. destruct (scan_loop n ScPlain l3) as [more|] eqn:M; [|discriminate H]. injection H as <-. cbn [app].
        apply Name. apply (IH _ _ _ _ _ M B2 P3). cbn [centry skip]. split; [symmetry; exact B4|discriminate].
  - (* scanFuncArgs *)
    destruct En as (-> & Hr). unfold scan_func_args in Es.
    destruct (skip_spec (lex_fuel l) l V (fuel_ok _)) as (l1 & S1 & V1 & S3 & _). rewrite S1 in Es.
    assert (O1 : off_ok l1) by (unfold off_ok in *; rewrite (skip_off _ _ _ S1 V); exact O).
    rewrite <- Hr in S3. change (l_rune (start_token l1)) with (l_rune l1) in Es.
    destruct (l_rune l1 =? eof)%N eqn:E0.
    { injection Es as <- <- <-. destruct (scan_loop n ScPlain (start_token l1)) as [more|] eqn:M; [|discriminate H]. injection H as <-. cbn [app].
      pose proof (rune_eof l1 V1 E0) as Z. apply (IH _ _ _ _ _ M (valid_start _ V1) O1). cbn [centry skip]. rewrite start_rest, <- S3. auto. }
    destruct (l_rune l1 =? r_comma)%N eqn:Ec.
    { destruct (rune_char (start_token l1) "," (valid_start _ V1) eq_refl eq_refl Ec) as (s3 & C1 & C2 & C3). rewrite start_rest in C1. cbn [start_token l_pre append] in C3.
      injection Es as <- <- <-. destruct (scan_loop n ScFuncArgs _) as [more|] eqn:M in H; [|discriminate H]. injection H as <-. cbn [app].
      destruct (off_reach l1 (lex_next (start_token l1)) V1 O1 (reach_one _)) as (V4 & R1 & R2 & R3).
      { rewrite C2. fold (start_token l1) in C3. rewrite C3. exact C1. }
      apply (chain_one true r (emit (lex_next (start_token l1)) TkComma KString false) (cut_nul s3) more); cbn [emit t_lit t_start skip t_typ after].
      - fold (start_token l1) in C3. rewrite C3, <- S3. exact C1.
      - unfold off_ok in O1. rewrite R1, <- S3. exact O1.
      - apply (IH _ _ _ _ _ M V4 R3). cbn [centry]. rewrite C2. auto. }
    destruct (l_rune l1 =? r_rparen)%N eqn:Ep.
    { destruct (rune_char (start_token l1) ")" (valid_start _ V1) eq_refl eq_refl Ep) as (s3 & C1 & C2 & C3). rewrite start_rest in C1. cbn [start_token l_pre append] in C3.
      injection Es as <- <- <-. destruct (scan_loop n ScPlain _) as [more|] eqn:M in H; [|discriminate H]. injection H as <-. cbn [app].
      destruct (off_reach l1 (lex_next (start_token l1)) V1 O1 (reach_one _)) as (V4 & R1 & R2 & R3).
      { rewrite C2. fold (start_token l1) in C3. rewrite C3. exact C1. }
      apply (chain_one true r (emit (lex_next (start_token l1)) TkRparen KString false) (cut_nul s3) more); cbn [emit t_lit t_start skip t_typ after].
      - fold (start_token l1) in C3. rewrite C3, <- S3. exact C1.
      - unfold off_ok in O1. rewrite R1, <- S3. exact O1.
      - apply (IH _ _ _ _ _ M V4 R3). cbn [centry skip]. rewrite C2. split; [reflexivity|discriminate]. }
    destruct (l_rune l1 =? r_squote)%N eqn:Eq.
    { injection Es as <- <- <-. destruct (scan_loop n ScFuncArgQuoted _) as [more|] eqn:M in H; [|discriminate H]. injection H as <-. cbn [app].
      apply (IH _ _ _ _ _ M (valid_start _ V1) O1). cbn [centry]. apply N.eqb_eq in Eq. rewrite start_rest, <- S3. repeat split; auto. }
    destruct (while_spec _ _ _ agrees_word (lex_fuel (start_token l1)) (start_token l1) (valid_start _ V1) (fuel_ok _)) as (l3 & B1 & B2 & B3 & B4 & _).
    change (mkLex "" (l_rest l1) (l_off l1) (l_pos l1) (l_off l1) (l_pos l1) (l_rune l1) (l_width l1)) with (start_token l1) in Es.
    rewrite B1 in Es. injection Es as <- <- <-. rewrite start_rest in B3, B4. cbn [start_token l_pre append] in B3.
    destruct (span is_word (cut_nul (l_rest l1))) as [w r1] eqn:Sp. cbn [fst snd] in B3, B4. destruct (span_split _ _ _ _ Sp) as [Sw _].
    destruct (off_reach l1 l3 V1 O1 (while_reach _ _ _ _ B1)) as (_ & R1 & R2 & R3); [rewrite B3, B4; exact Sw|].
    destruct (scan_loop n ScFuncArgs l3) as [more|] eqn:M; [|discriminate H]. injection H as <-.
    destruct (advanced l3) eqn:Ad.
    + cbn [app].
      assert (K : t_lit (word_token l3) = l_pre l3 /\ t_start (word_token l3) = l_soff l3 /\ after true (t_typ (word_token l3)) = true).
      { unfold word_token. destruct (_ || _); [auto|]. destruct (_ || _); [auto|]. destruct (parse_float _); auto. }
      destruct K as (K1 & K2 & K3). apply (chain_one true r (word_token l3) r1 more); cbn [skip].
      * rewrite K1, B3, <- S3. exact Sw.
      * unfold off_ok in O1. rewrite K2, R1, <- S3. exact O1.
      * rewrite K3. apply (IH _ _ _ _ _ M B2 R3). cbn [centry]. rewrite B4. auto.
    + cbn [app]. apply not_advanced in Ad. rewrite Ad in B3. subst w. cbn [append] in Sw.
      apply (IH _ _ _ _ _ M B2 R3). cbn [centry]. split; [reflexivity|]. rewrite B4, <- Sw, S3, Hr. symmetry. apply trim_idem.
  - (* scanFuncArgQuoted *)
    destruct En as (-> & Pre & So & Hr & Rq).
    destruct (rune_char l "'" V eq_refl eq_refl) as (s' & C1 & C2 & C3); [rewrite Rq; reflexivity|].
    unfold scan_func_arg_quoted in Es. rewrite Rq in Es.
    destruct (quoted_spec "'" eq_refl (lex_fuel (lex_next l)) (lex_next l) (valid_next _ V) (fuel_ok _)) as (l2 & W1 & W2 & W3 & W4 & _).
    rewrite W1 in Es. rewrite C2 in *.
    destruct (bquote "'" (cut_nul s')) as [[b r1] cl] eqn:Bq. cbn [fst snd] in *. injection Es as <- <- <-.
    pose proof (bquote_split _ _ _ _ _ Bq) as Sq.
    pose proof (reach_trans _ _ _ (reach_one l) (quoted_reach _ _ _ _ _ W1)) as R. destruct (reach_off _ _ R V) as (_ & O1 & O2).
    assert (P2 : l_pre l2 = String "'" b) by (rewrite W3, C3, Pre; reflexivity).
    assert (O3 : off_ok l2).
    { unfold off_ok in *. rewrite C1, Sq in O. rewrite W4. rewrite P2, Pre in O2. cbn [String.length] in O, O2. rewrite length_append in O. lia. }
    destruct (scan_loop n (if cl then ScFuncArgs else ScPlain) l2) as [more|] eqn:M; [|discriminate H]. injection H as <-. cbn [app].
    apply (chain_one true r (emit l2 TkLiteral KString (negb cl)) r1 more); cbn [emit t_lit t_start skip t_typ after].
    + rewrite P2, Hr, C1, Sq. reflexivity.
    + unfold off_ok in O. rewrite Hr, O1, So. exact O.
    + apply (IH _ _ _ _ _ M W2 O3). destruct cl; cbn [centry skip]; rewrite W4; [auto|].
      assert (Z : r1 = "").
      { clear -Bq. revert b r1 Bq. generalize (cut_nul s'). intro t. remember (String.length t) as k eqn:Hk. revert t Hk.
        induction k as [k IH] using lt_wf_ind. intros t Hk b r1 E. subst k. destruct t as [|a t]; [injection E as _ <-; reflexivity|]. cbn [bquote] in E.
        destruct (Ascii.eqb a "'").
        - destruct t as [|c t]; [discriminate E|]. destruct (_ && _); [|discriminate E]. destruct (bquote "'" t) as [[x y] z] eqn:E2. injection E as _ <- ->.
          apply (IH (String.length t) ltac:(cbn; lia) t eq_refl _ _ E2).
        - destruct (bquote "'" t) as [[x y] z] eqn:E2. injection E as _ <- ->. apply (IH (String.length t) ltac:(cbn; lia) t eq_refl _ _ E2). }
      rewrite Z. split; reflexivity.
Qed.
End Scan.

Lemma new_lexer_off : forall s, l_off (new_lexer s) = 0.
Proof. intros [|a s]; [reflexivity|]. unfold new_lexer, lex_next. cbn [l_rest l_width str_drop]. destruct (decode_rune (String a s)). reflexivity. Qed.
Theorem scan_all_chain : forall s toks, scan_all s = Some toks -> chain (String.length (cut_nul s)) false (cut_nul s) toks.
Proof.
  intros s toks H. destruct (new_lexer_ok s) as [V R]. apply (scan_chain _ _ _ _ _ _ _ H V).
  - unfold off_ok. rewrite new_lexer_off, R. reflexivity.
  - cbn [centry skip]. rewrite R. split; [reflexivity|discriminate].
Qed.
