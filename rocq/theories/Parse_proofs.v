(** The parser of Syntax.v equals the byte-level parser of ByteLex.v. *)
From Coq Require Import Strings.String Strings.Ascii NArith ZArith List Bool Lia.
From Verif Require Import GoStr GoNum Syntax Spec_syntax ByteLex Lex_proofs.
Import ListNotations.
Open Scope string_scope.

Lemma arg_value_spec : forall p, tok_ok (strip_tok (pr_tok p)) -> t_typ (pr_tok p) = TkLiteral ->
  match a_value (strip_tok (pr_tok p)) with
  | Some v => arg_value p = POk v
  | None => exists o m, arg_value p = PErr o m
  end.
Proof.
  intros p [_ H] T. unfold a_value, arg_value, syntax_error. simpl in *.
  destruct (t_bad (pr_tok p)); [eauto|].
  destruct (t_kind (pr_tok p)); simpl.
  - destruct (parse_float (t_lit (pr_tok p))); simpl; eauto.
  - specialize (H T eq_refl eq_refl). unfold strip_quotes.
    destruct (Nat.ltb (String.length (t_lit (pr_tok p))) 2) eqn:L.
    + apply Nat.ltb_lt in L. lia.
    + reflexivity.
  - reflexivity.
  - reflexivity.
Qed.

Lemma args_loop_spec : forall n ts p nm args, List.length ts < n -> pr_toks p = ts ->
  Forall tok_ok (map strip_tok ts) -> ends (map strip_tok ts) ->
  (exists args' ts' p', args_loop n p args = POk (args', p') /\ pr_toks p' = ts' /\
     pr_index p' = pr_index p /\ pr_style p' = pr_style p /\ List.length ts' < List.length ts /\
     Forall tok_ok (map strip_tok ts') /\ ends (map strip_tok ts') /\
     ap (PArg nm args) (pr_index p) (pr_style p) (map strip_tok ts)
     = ocons (ACall nm args') (ap PTop (pr_index p) (pr_style p) (map strip_tok ts')))
  \/ (exists o m, args_loop n p args = PErr o m) /\
     ap (PArg nm args) (pr_index p) (pr_style p) (map strip_tok ts) = None.
Proof.
  induction n as [|n IH]; intros ts p nm args Hn Hp Hok He; [lia|].
  destruct ts as [|t ts]; [destruct He|].
  cbn [args_loop]. unfold got, next_token. rewrite Hp. cbn [snd pr_tok].
  destruct (toktype_eqb (t_typ t) TkLiteral) eqn:TL.
  - assert (T : t_typ t = TkLiteral) by (destruct (t_typ t); simpl in TL; congruence).
    simpl negb. cbv iota.
    set (p1 := mkParser ts t (pr_index p) (pr_style p)).
    assert (Ht : tok_ok (strip_tok t)) by (inversion Hok; assumption).
    assert (Hok' : Forall tok_ok (map strip_tok ts)) by (inversion Hok; assumption).
    assert (He' : ends (map strip_tok ts)).
    { eapply ends_tail; [exact He|]. simpl. congruence. }
    pose proof (arg_value_spec p1 Ht T) as AV. simpl in AV.
    change (map strip_tok (t :: ts)) with (strip_tok t :: map strip_tok ts). cbn [ap].
    change (a_typ (strip_tok t)) with (t_typ t). rewrite T. change (pr_tok p1) with t in AV.
    destruct (a_value (strip_tok t)) as [v|].
    + rewrite AV. destruct ts as [|u us]; [destruct He'|].
      change (pr_toks p1) with (u :: us). cbn [snd pr_tok pr_index pr_style p1].
      change (map strip_tok (u :: us)) with (strip_tok u :: map strip_tok us). cbn [ap].
      change (a_typ (strip_tok u)) with (t_typ u).
      assert (Huk : Forall tok_ok (map strip_tok us)) by (inversion Hok'; assumption).
      destruct (toktype_eqb (t_typ u) TkComma) eqn:TC.
      * assert (U : t_typ u = TkComma) by (destruct (t_typ u); simpl in TC; congruence).
        rewrite U.
        assert (Hue : ends (map strip_tok us)).
        { eapply ends_tail; [exact He'|]. simpl. congruence. }
        simpl in Hn.
        destruct (IH us (mkParser us u (pr_index p) (pr_style p)) nm (args ++ [v])%list ltac:(lia) eq_refl Huk Hue)
          as [(args' & ts' & p' & A1 & A2 & A3 & A4 & A5 & A6 & A7 & A8)|((o & m & A1) & A2)].
        -- left. exists args', ts', p'. simpl in *. repeat split; auto.
        -- right. split; [eauto|exact A2].
      * destruct (toktype_eqb (t_typ u) TkRparen) eqn:TR.
        -- assert (U : t_typ u = TkRparen) by (destruct (t_typ u); simpl in TR; congruence).
           rewrite U. left. exists (args ++ [v])%list, us, (mkParser us u (pr_index p) (pr_style p)).
           repeat split; auto.
           ++ simpl. lia.
           ++ eapply ends_tail; [exact He'|]. simpl. congruence.
        -- right. split; [unfold syntax_error; eauto|]. destruct (t_typ u); simpl in *; congruence.
    + destruct AV as (o & m & AV). right. rewrite AV. split; [eauto|reflexivity].
  - simpl negb. cbv iota. change (map strip_tok (t :: ts)) with (strip_tok t :: map strip_tok ts). cbn [ap].
    change (a_typ (strip_tok t)) with (t_typ t).
    assert (Hok' : Forall tok_ok (map strip_tok ts)) by (inversion Hok; assumption).
    destruct (toktype_eqb (t_typ t) TkRparen) eqn:TR.
    + assert (T : t_typ t = TkRparen) by (destruct (t_typ t); simpl in TR; congruence).
      rewrite T. simpl negb. cbv iota. cbn [pr_tok]. left. rewrite ?T. change (toktype_eqb TkRparen TkRparen) with true. cbv iota.
      exists args, ts, (mkParser ts t (pr_index p) (pr_style p)).
      repeat split; auto. eapply ends_tail; [exact He|]. simpl. congruence.
    + simpl negb. cbv iota. right. split; [unfold syntax_error; eauto|].
      destruct (t_typ t); simpl in *; congruence.
Qed.

Lemma bind_dollar : forall ts t u us idx st, t_lit t = "$" -> ts = u :: us -> st = 0%Z ->
  bind_var_expr (mkParser ts t idx st) =
  (let p := mkParser us u (idx + 1)%Z 0%Z in
   if negb (toktype_eqb (t_typ u) TkLiteral) then syntax_error p (want_text p TkLiteral)
   else if negb (litkind_eqb (t_kind u) KNumber) then syntax_error p ("unexpected '" ++ t_lit u ++ "', want bindvar index")
   else match parse_uint64 (t_lit u) with
        | None => syntax_error p (range_text "ParseUint" (t_lit u))
        | Some v => POk (EBind style_dollar (int_of_uint64 v) (t_pos t), p)
        end).
Proof.
  intros ts t u us idx st H -> ->. unfold bind_var_expr. cbn [pr_tok pr_style]. rewrite H. reflexivity.
Qed.

Lemma bind_dollar_mixed : forall ts t idx st, t_lit t = "$" -> st <> 0%Z ->
  exists o m, bind_var_expr (mkParser ts t idx st) = PErr o m.
Proof.
  intros ts t idx st H Hs. unfold bind_var_expr. cbn [pr_tok pr_style pr_toks pr_index]. rewrite H.
  rewrite (proj2 (Z.eqb_neq st 0) Hs). unfold style_dollar. rewrite (proj2 (Z.eqb_neq st 0) Hs).
  unfold syntax_error. simpl. eauto.
Qed.

Lemma parse_loop_spec : forall n ts p acc, List.length ts < n -> pr_toks p = ts ->
  Forall tok_ok (map strip_tok ts) -> (ts = [] \/ ends (map strip_tok ts)) ->
  match ap PTop (pr_index p) (pr_style p) (map strip_tok ts) with
  | Some es => exists es', parse_loop n p acc = POk (acc ++ es')%list /\ map strip es' = es
  | None => exists o m, parse_loop n p acc = PErr o m
  end.
Proof.
  induction n as [|n IH]; intros ts p acc Hn Hp Hok He; [lia|].
  destruct ts as [|t ts].
  - cbn [parse_loop]. unfold next_token. rewrite Hp. simpl. exists []. rewrite app_nil_r. auto.
  - destruct He as [He|He]; [discriminate|].
    cbn [parse_loop]. unfold next_token. rewrite Hp. simpl negb. cbv iota.
    set (p1 := mkParser ts t (pr_index p) (pr_style p)).
    assert (Ht : tok_ok (strip_tok t)) by (inversion Hok; assumption).
    assert (Hok' : Forall tok_ok (map strip_tok ts)) by (inversion Hok; assumption).
    assert (He' : t_typ t <> TkEOF -> ends (map strip_tok ts)).
    { intro N. eapply ends_tail; [exact He|]. exact N. }
    simpl in Hn.
    change (map strip_tok (t :: ts)) with (strip_tok t :: map strip_tok ts). cbn [ap pr_tok p1].
    change (a_typ (strip_tok t)) with (t_typ t). change (a_lit (strip_tok t)) with (t_lit t).
    (* continuation *)
    assert (Kont : forall pre p', pr_toks p' = ts -> (ts = [] \/ ends (map strip_tok ts)) ->
      match option_map (app (map strip pre)) (ap PTop (pr_index p') (pr_style p') (map strip_tok ts)) with
      | Some es => exists es', parse_loop n p' (acc ++ pre)%list = POk (acc ++ es')%list /\ map strip es' = es
      | None => exists o m, parse_loop n p' (acc ++ pre)%list = PErr o m
      end).
    { intros pre p' E1 E2. specialize (IH ts p' (acc ++ pre)%list ltac:(lia) E1 Hok' E2).
      destruct (ap PTop (pr_index p') (pr_style p') (map strip_tok ts)); simpl.
      - destruct IH as (es' & A & B). exists (pre ++ es')%list. rewrite A, map_app, B, app_assoc. auto.
      - exact IH. }
    destruct (t_typ t) eqn:T.
    + (* EOF *) specialize (Kont [] p1 eq_refl). simpl in Kont. rewrite app_nil_r in Kont.
      assert (E : ts = [] \/ ends (map strip_tok ts)).
      { simpl in He. destruct ts; [auto|right; exact He]. }
      specialize (Kont E). destruct (ap PTop (pr_index p) (pr_style p) (map strip_tok ts)); exact Kont.
    + (* bindvar *)
      specialize (He' ltac:(congruence)).
      destruct Ht as [Hr _]. specialize (Hr T). change (a_lit (strip_tok t)) with (t_lit t) in Hr.
      cbn [pr_toks pr_tok pr_index pr_style].
      destruct Hr as [Hr|Hr]; rewrite Hr.
      * (* $ *)
        change (("$" =? "?")%string) with false. cbv iota.
        change (style_dollar =? style_question)%Z with false. cbv iota.
        destruct (pr_style p =? 0)%Z eqn:S0.
        -- change (style_dollar =? style_dollar)%Z with true. cbv iota.
           destruct ts as [|u us]; [destruct He'|].
           unfold p1. rewrite (bind_dollar _ t u us (pr_index p) (pr_style p) Hr eq_refl ltac:(apply Z.eqb_eq; exact S0)).
           cbv zeta.
           change (map strip_tok (u :: us)) with (strip_tok u :: map strip_tok us). cbn [ap].
           change (a_typ (strip_tok u)) with (t_typ u). change (a_kind (strip_tok u)) with (t_kind u).
           change (a_lit (strip_tok u)) with (t_lit u).
           destruct (toktype_eqb (t_typ u) TkLiteral) eqn:TL; simpl negb; cbv iota.
           ++ assert (U : t_typ u = TkLiteral) by (destruct (t_typ u); simpl in TL; congruence). rewrite U.
              destruct (litkind_eqb (t_kind u) KNumber) eqn:KN; simpl negb; cbv iota.
              ** assert (K : t_kind u = KNumber) by (destruct (t_kind u); simpl in KN; congruence). rewrite K.
                 destruct (parse_uint64 (t_lit u)) as [v|]; [|unfold syntax_error; eauto].
                 assert (Huk : Forall tok_ok (map strip_tok us)) by (inversion Hok'; assumption).
                 assert (Hue : ends (map strip_tok us)) by (eapply ends_tail; [exact He'|simpl; congruence]).
                 simpl in Hn.
                 specialize (IH us (mkParser us u (pr_index p + 1) 0)
                   (acc ++ [EBind style_dollar (int_of_uint64 v) (t_pos t)])%list ltac:(lia) eq_refl Huk (or_intror Hue)).
                 cbn [pr_index pr_style] in IH. change style_dollar with 0%Z in *.
                 destruct (ap PTop (pr_index p + 1) 0 (map strip_tok us)); cbn [ocons option_map].
                 --- destruct IH as (es' & A & B). eexists. rewrite A, <- app_assoc. split; [reflexivity|]. simpl. rewrite B. reflexivity.
                 --- exact IH.
              ** destruct (t_kind u); simpl in KN; try discriminate; unfold syntax_error; eauto.
           ++ destruct (t_typ u); simpl in TL; try discriminate; unfold syntax_error; eauto.
        -- apply Z.eqb_neq in S0. destruct (bind_dollar_mixed ts t (pr_index p) (pr_style p) Hr S0) as (o & m & BM).
           unfold p1. rewrite BM.
           destruct (pr_style p =? style_dollar)%Z eqn:S1; [|eauto].
           apply Z.eqb_eq in S1. unfold style_dollar in S1. congruence.
      * (* ? *)
        unfold bind_var_expr. cbn [pr_tok p1 pr_toks pr_index pr_style]. rewrite Hr.
        change (("?" =? "$")%string) with false. change (("?" =? "?")%string) with true. cbv iota.
        change (style_question =? style_question)%Z with true. cbv iota.
        assert (G : forall st, match ocons (ABind style_question (pr_index p + 1))
             (ap PTop (pr_index p + 1) st (map strip_tok ts)) with
          | Some es => exists es', parse_loop n (mkParser ts t (pr_index p + 1) st)
               (acc ++ [EBind style_question (pr_index p + 1) (t_pos t)])%list = POk (acc ++ es')%list /\ map strip es' = es
          | None => exists o m, parse_loop n (mkParser ts t (pr_index p + 1) st)
               (acc ++ [EBind style_question (pr_index p + 1) (t_pos t)])%list = PErr o m
          end).
        { intro st. apply (Kont [EBind style_question (pr_index p + 1) (t_pos t)]
                             (mkParser ts t (pr_index p + 1) st) eq_refl (or_intror He')). }
        destruct (pr_style p =? 0)%Z eqn:S0.
        -- change (style_question =? style_question)%Z with true. cbv iota. apply G.
        -- destruct (pr_style p =? style_question)%Z eqn:S1; [|unfold syntax_error; eauto]. apply G.
    + unfold syntax_error; eauto.
    + unfold syntax_error; eauto.
    + (* plain *)
      apply (Kont [EPlain (t_lit t) (t_pos t)] p1 eq_refl). right. apply He'. congruence.
    + (* hash *)
      specialize (He' ltac:(congruence)).
      destruct ts as [|u us]; [destruct He'|].
      unfold func_expr, got, next_token, p1. cbn [snd pr_tok pr_index pr_style pr_toks].
      change (map strip_tok (u :: us)) with (strip_tok u :: map strip_tok us). cbn [ap].
      change (a_typ (strip_tok u)) with (t_typ u). change (a_lit (strip_tok u)) with (t_lit u).
      destruct (toktype_eqb (t_typ u) TkName) eqn:TN; simpl negb; cbv iota.
      2: { destruct (t_typ u); simpl in TN; try discriminate; unfold syntax_error; eauto. }
      assert (U : t_typ u = TkName) by (destruct (t_typ u); simpl in TN; congruence). rewrite U.
      assert (Huk : Forall tok_ok (map strip_tok us)) by (inversion Hok'; assumption).
      assert (Hue : ends (map strip_tok us)) by (eapply ends_tail; [exact He'|simpl; congruence]).
      destruct us as [|w ws]; [destruct Hue|]. cbn [snd pr_tok pr_index pr_style pr_toks].
      change (map strip_tok (w :: ws)) with (strip_tok w :: map strip_tok ws). cbn [ap].
      change (a_typ (strip_tok w)) with (t_typ w). change (a_lit (strip_tok w)) with (t_lit w).
      change (a_kind (strip_tok w)) with (t_kind w).
      assert (Hwk : Forall tok_ok (map strip_tok ws)) by (inversion Huk; assumption).
      assert (Hwe : t_typ w <> TkEOF -> ends (map strip_tok ws)) by (intro; eapply ends_tail; [exact Hue|assumption]).
      assert (Hwe2 : ws = [] \/ ends (map strip_tok ws)).
      { simpl in Hue. destruct ws; [auto|right; exact Hue]. }
      simpl in Hn.
      set (p3 := mkParser ws w (pr_index p) (pr_style p)).
      assert (Kont2 : forall pre ws' p', pr_toks p' = ws' -> List.length ws' < n ->
        Forall tok_ok (map strip_tok ws') -> (ws' = [] \/ ends (map strip_tok ws')) ->
        match option_map (app (map strip pre)) (ap PTop (pr_index p') (pr_style p') (map strip_tok ws')) with
        | Some es => exists es', parse_loop n p' (acc ++ pre)%list = POk (acc ++ es')%list /\ map strip es' = es
        | None => exists o m, parse_loop n p' (acc ++ pre)%list = PErr o m
        end).
      { intros pre ws' p' E1 E2 E3 E4. specialize (IH ws' p' (acc ++ pre)%list E2 E1 E3 E4).
        destruct (ap PTop (pr_index p') (pr_style p') (map strip_tok ws')); simpl.
        - destruct IH as (es' & A & B). exists (pre ++ es')%list. rewrite A, map_app, B, app_assoc. auto.
        - exact IH. }
      assert (Dflt : match ocons (AFunc (t_lit u)) (ocons (APlain (t_lit w)) (ap PTop (pr_index p) (pr_style p) (map strip_tok ws))) with
        | Some es => exists es', parse_loop n p3 (acc ++ [EFunc (t_lit u) (t_pos t); EPlain (t_lit w) (t_pos w)])%list = POk (acc ++ es')%list /\ map strip es' = es
        | None => exists o m, parse_loop n p3 (acc ++ [EFunc (t_lit u) (t_pos t); EPlain (t_lit w) (t_pos w)])%list = PErr o m
        end).
      { specialize (Kont2 [EFunc (t_lit u) (t_pos t); EPlain (t_lit w) (t_pos w)] ws p3 eq_refl ltac:(lia) Hwk Hwe2).
        cbn [pr_index pr_style p3] in Kont2.
        destruct (ap PTop (pr_index p) (pr_style p) (map strip_tok ws)); exact Kont2. }
      destruct (t_typ w) eqn:TW; try exact Dflt.
      * (* literal: an index *)
        destruct (litkind_eqb (t_kind w) KNumber) eqn:KN; simpl negb; cbv iota.
        2: { destruct (t_kind w); simpl in KN; try discriminate; unfold syntax_error; eauto. }
        assert (K : t_kind w = KNumber) by (destruct (t_kind w); simpl in KN; congruence). rewrite K.
        destruct (parse_float (t_lit w)) as [f|]; [|unfold syntax_error; eauto].
        specialize (Kont2 [ECall (t_lit u) [LNum f] (t_pos t)] ws p3 eq_refl ltac:(lia) Hwk Hwe2).
        exact Kont2.
      * (* ( *)
        specialize (Hwe ltac:(congruence)).
        destruct (args_loop_spec (S (List.length ws)) ws p3 (t_lit u) [] ltac:(lia) eq_refl Hwk Hwe)
          as [(args' & ts' & p' & A1 & A2 & A3 & A4 & A5 & A6 & A7 & A8)|((o & m & A1) & A2)].
        -- cbn [pr_toks p3] in A1 |- *. rewrite A1. cbn [pr_index pr_style p3] in A3, A4, A8. rewrite A8.
           specialize (Kont2 [ECall (t_lit u) args' (t_pos t)] ts' p' A2 ltac:(lia) A6 (or_intror A7)).
           rewrite A3, A4 in Kont2. exact Kont2.
        -- rewrite A1. cbn [pr_index pr_style p3] in A2. rewrite A2. eauto.
    + unfold syntax_error; eauto.
    + unfold syntax_error; eauto.
    + unfold syntax_error; eauto.
Qed.

(** The model parser computes the byte-level parser, positions aside, and never
    panics or runs out of fuel. *)
Theorem parse_spec : forall s,
  match bparse s with
  | Some es => exists es', parse s = POk es' /\ map strip es' = es
  | None => exists o m, parse s = PErr o m
  end.
Proof.
  intro s. destruct (scan_all_spec s) as (toks & S1 & S2).
  destruct (btoks_ok (S (String.length (cut_nul s))) MPlain (cut_nul s) ltac:(lia)) as [B1 B2].
  fold (btokens (cut_nul s)) in B1, B2. rewrite <- S2 in B1, B2.
  unfold parse, bparse. rewrite S1. unfold parse_tokens.
  pose proof (parse_loop_spec (S (List.length toks)) toks (mkParser toks no_token 0 0) [] ltac:(lia) eq_refl B1 (or_intror B2)) as P.
  cbn [pr_index pr_style] in P. rewrite S2 in P. exact P.
Qed.

Corollary parse_ok_iff : forall s es, (exists es', parse s = POk es' /\ map strip es' = es) <-> bparse s = Some es.
Proof.
  intros s es. pose proof (parse_spec s) as P. destruct (bparse s) as [es0|].
  - destruct P as (es' & A & B). split.
    + intros (e2 & C & D). rewrite A in C. injection C as <-. congruence.
    + intro C. injection C as <-. eauto.
  - destruct P as (o & m & A). split.
    + intros (e2 & C & D). congruence.
    + discriminate.
Qed.
