(** The errors of the parser on tokens with their places. *)
From Coq Require Import Strings.String Strings.Ascii NArith ZArith List Bool Lia.
From Verif Require Import GoStr GoNum Syntax Spec_syntax ByteLex Lex_proofs Parse_proofs Grammar_proofs Grammar2_proofs Fault_proofs.
Import ListNotations.
Open Scope string_scope.

(** Parser states as in ByteLex.v. *)
Inductive emode := ETop | EDollar | EHash | EName | EArg | ESep.
Definition in_args (m : emode) : bool := match m with EArg | ESep => true | _ => false end.

(** The error met by the parser, if any, on the tokens of the rest [r]: the rest
    from the offending token on, and the message. *)
Fixpoint ae (pm : emode) (q : bool) (r : string) (ts : list atok) : option (string * string) :=
  match ts with
  | [] => None
  | t :: ts' =>
    let r1 := skip (in_args pm) r in
    let r2 := str_drop (String.length (a_lit t)) r1 in
    match pm with
    | ETop =>
      match a_typ t with
      | TkEOF | TkPlain => ae ETop q r2 ts'
      | TkRef =>
        if String.eqb (a_lit t) "?" then ae ETop true r2 ts'
        else if q then Some (r1, "mixed bindvar styles") else ae EDollar q r2 ts'
      | TkHash => ae EHash q r2 ts'
      | ty => Some (r1, "unexpected token " ++ tok_text ty)
      end
    | EDollar =>
      match a_typ t with
      | TkLiteral =>
        match a_kind t with
        | KNumber => match parse_uint64 (a_lit t) with Some _ => ae ETop q r2 ts' | None => Some (r1, range_text "ParseUint" (a_lit t)) end
        | _ => Some (r1, "unexpected '" ++ a_lit t ++ "', want bindvar index")
        end
      | ty => Some (r1, "syntax error: unexpected " ++ tok_text ty ++ ", want literal")
      end
    | EHash =>
      match a_typ t with
      | TkName => ae EName q r2 ts'
      | ty => Some (r1, "syntax error: unexpected " ++ tok_text ty ++ ", want name")
      end
    | EName =>
      match a_typ t with
      | TkLparen => ae EArg q r2 ts'
      | TkLiteral =>
        match a_kind t with
        | KNumber => match parse_float (a_lit t) with Some _ => ae ETop q r2 ts' | None => Some (r1, range_text "ParseFloat" (a_lit t)) end
        | _ => Some (r1, "unexpected '" ++ a_lit t ++ "', want index")
        end
      | _ => ae ETop q r2 ts'
      end
    | EArg =>
      match a_typ t with
      | TkLiteral =>
        if a_bad t then Some (r1, "bad argument: " ++ a_lit t)
        else match a_kind t with
             | KNumber => match parse_float (a_lit t) with Some _ => ae ESep q r2 ts' | None => Some (r1, range_text "ParseFloat" (a_lit t)) end
             | _ => ae ESep q r2 ts'
             end
      | TkRparen => ae ETop q r2 ts'
      | ty => Some (r1, "unexpected token " ++ tok_text ty ++ ", want args")
      end
    | ESep =>
      match a_typ t with
      | TkComma => ae EArg q r2 ts'
      | TkRparen => ae ETop q r2 ts'
      | ty => Some (r1, "unexpected token " ++ tok_text ty ++ ", want )")
      end
    end
  end.

Section Parser.
Variable size : nat.
Notation chain := (chain size).

Lemma chain_cons : forall m r t ts, chain m r (t :: ts) ->
  t_start t + String.length (skip m r) = size /\ chain (after m (t_typ t)) (str_drop (String.length (t_lit t)) (skip m r)) ts.
Proof. intros m r t ts (r2 & H1 & H2 & H3). split; [exact H2|]. rewrite H1, drop_append. exact H3. Qed.

Lemma tok_eqb_true : forall a b, toktype_eqb a b = true -> a = b.
Proof. intros [] []; cbn; congruence. Qed.

(** One argument. *)
Lemma arg_error : forall p r, tok_ok (strip_tok (pr_tok p)) -> t_typ (pr_tok p) = TkLiteral -> 
  (exists v, arg_value p = POk v /\ forall q ts, ae EArg q r (strip_tok (pr_tok p) :: ts) = ae ESep q (str_drop (String.length (t_lit (pr_tok p))) (skip true r)) ts) \/
  (exists m, arg_value p = PErr (t_start (pr_tok p)) m /\ forall q ts, ae EArg q r (strip_tok (pr_tok p) :: ts) = Some (skip true r, m)).
Proof.
  intros p r [_ H] T. cbn [strip_tok a_typ a_bad a_kind a_lit] in H. unfold arg_value, syntax_error. cbn [ae strip_tok a_typ a_bad a_kind a_lit in_args]. rewrite T.
  destruct (t_bad (pr_tok p)); [right; eauto|].
  destruct (t_kind (pr_tok p)).
  - destruct (parse_float (t_lit (pr_tok p))); [left|right]; eauto.
  - left. specialize (H T eq_refl eq_refl). unfold strip_quotes.
    destruct (Nat.ltb (String.length (t_lit (pr_tok p))) 2) eqn:L; [apply Nat.ltb_lt in L; lia|]. eauto.
  - left. eauto.
  - left. eauto.
Qed.

Lemma args_error : forall n ts p r q args, List.length ts < n -> pr_toks p = ts ->
  Forall tok_ok (map strip_tok ts) -> ends (map strip_tok ts) -> chain true r ts ->
  (exists args' p' r', args_loop n p args = POk (args', p') /\ pr_style p' = pr_style p /\ List.length (pr_toks p') < List.length ts /\
     Forall tok_ok (map strip_tok (pr_toks p')) /\ ends (map strip_tok (pr_toks p')) /\ chain false r' (pr_toks p') /\
     ae EArg q r (map strip_tok ts) = ae ETop q r' (map strip_tok (pr_toks p')))
  \/ (exists o m r', args_loop n p args = PErr o m /\ o + String.length r' = size /\ ae EArg q r (map strip_tok ts) = Some (r', m)).
Proof.
  induction n as [|n IH]; intros ts p r q args Hn Hp Hok He Hc; [lia|].
  destruct ts as [|t ts]; [destruct He|]. apply chain_cons in Hc as [O1 Hc].
  assert (Ht : tok_ok (strip_tok t)) by (inversion Hok; assumption).
  assert (Hok' : Forall tok_ok (map strip_tok ts)) by (inversion Hok; assumption).
  cbn [args_loop]. unfold got, next_token. rewrite Hp. cbn [snd pr_tok].
  destruct (toktype_eqb (t_typ t) TkLiteral) eqn:TL.
  - apply tok_eqb_true in TL. cbn [negb].
    set (p1 := mkParser ts t (pr_index p) (pr_style p)).
    assert (He' : ends (map strip_tok ts)) by (eapply ends_tail; [exact He|]; cbn; congruence).
    rewrite TL in Hc. cbn [after] in Hc. change (map strip_tok (t :: ts)) with (strip_tok t :: map strip_tok ts).
    destruct (arg_error p1 r Ht TL) as [(v & A1 & A2)|(m & A1 & A2)]; cbn [pr_tok p1] in A1, A2; fold p1 in A1; rewrite A1.
    2:{ right. exists (t_start t), m, (skip true r). split; [reflexivity|]. split; [exact O1|]. apply A2. }
    destruct ts as [|u us]; [destruct He'|]. apply chain_cons in Hc as [O2 Hc].
    change (pr_toks p1) with (u :: us). cbn [snd pr_tok pr_index pr_style p1]. rewrite A2.
    assert (Huk : Forall tok_ok (map strip_tok us)) by (inversion Hok'; assumption).
    change (map strip_tok (u :: us)) with (strip_tok u :: map strip_tok us). cbn [ae strip_tok a_typ a_lit in_args].
    destruct (toktype_eqb (t_typ u) TkComma) eqn:TC.
    + apply tok_eqb_true in TC. rewrite TC in Hc |- *. cbn [after] in Hc.
      assert (Hue : ends (map strip_tok us)) by (eapply ends_tail; [exact He'|]; cbn; congruence).
      cbn [List.length] in Hn.
      destruct (IH us (mkParser us u (pr_index p) (pr_style p)) _ q (args ++ [v])%list ltac:(lia) eq_refl Huk Hue Hc)
        as [(args' & p' & r' & B1 & B2 & B3 & B4 & B5 & B6 & B7)|(o & m & r' & B1 & B2 & B3)].
      * left. exists args', p', r'. cbn [List.length pr_style] in *. repeat (split; [first [assumption|lia]|]). exact B7.
      * right. exists o, m, r'. auto.
    + destruct (toktype_eqb (t_typ u) TkRparen) eqn:TR.
      * apply tok_eqb_true in TR. rewrite TR in Hc |- *. cbn [after] in Hc. left.
        eexists _, (mkParser us u (pr_index p) (pr_style p)), _. split; [reflexivity|]. cbn [pr_style pr_toks List.length]. split; [reflexivity|]. split; [lia|].
        split; [exact Huk|]. split; [eapply ends_tail; [exact He'|]; cbn; congruence|]. split; [exact Hc|reflexivity].
      * right. eexists _, _, _. unfold syntax_error. cbn [pr_tok]. split; [reflexivity|]. split; [exact O2|].
        destruct (t_typ u); cbn in TC, TR |- *; congruence.
  - cbn [negb]. change (map strip_tok (t :: ts)) with (strip_tok t :: map strip_tok ts). cbn [ae strip_tok a_typ a_lit in_args].
    destruct (toktype_eqb (t_typ t) TkRparen) eqn:TR; cbn [negb].
    + apply tok_eqb_true in TR. rewrite TR in Hc |- *. cbn [after] in Hc. left. cbn [pr_tok].
      eexists _, (mkParser ts t (pr_index p) (pr_style p)), _. split; [reflexivity|]. cbn [pr_style pr_toks List.length]. split; [reflexivity|]. split; [lia|].
      split; [exact Hok'|]. split; [eapply ends_tail; [exact He|]; cbn; congruence|]. split; [exact Hc|reflexivity].
    + right. eexists _, _, _. unfold syntax_error. cbn [pr_tok]. split; [reflexivity|]. split; [exact O1|].
      destruct (t_typ t); cbn in TL, TR |- *; congruence.
Qed.

Lemma loop_error : forall n ts p r q acc, List.length ts < n -> pr_toks p = ts -> pr_style p = style_of q ->
  Forall tok_ok (map strip_tok ts) -> (ts = [] \/ ends (map strip_tok ts)) -> chain false r ts ->
  match ae ETop q r (map strip_tok ts) with
  | Some (r', m) => exists o, parse_loop n p acc = PErr o m /\ o + String.length r' = size
  | None => exists es, parse_loop n p acc = POk es
  end.
Proof.
  induction n as [|n IH]; intros ts p r q acc Hn Hp Hst Hok He Hc; [lia|].
  destruct ts as [|t ts].
  - cbn [parse_loop map ae]. unfold next_token. rewrite Hp. cbn. eauto.
  - destruct He as [He|He]; [discriminate|]. apply chain_cons in Hc as [O1 Hc].
    cbn [parse_loop]. unfold next_token. rewrite Hp. cbn [negb]. 
    assert (Ht : tok_ok (strip_tok t)) by (inversion Hok; assumption).
    assert (Hok' : Forall tok_ok (map strip_tok ts)) by (inversion Hok; assumption).
    assert (He' : t_typ t <> TkEOF -> ends (map strip_tok ts)) by (intro N; eapply ends_tail; [exact He|exact N]).
    assert (He2 : ts = [] \/ ends (map strip_tok ts)) by (cbn in He; destruct ts; [auto|right; exact He]).
    cbn [List.length] in Hn. cbn [pr_tok].
    change (map strip_tok (t :: ts)) with (strip_tok t :: map strip_tok ts). cbn [ae strip_tok a_typ a_lit in_args].
    cbn [skip] in *.
    destruct (t_typ t) eqn:T; cbn [after] in Hc.
    + (* EOF *) apply IH; auto; lia.
    + (* bind variable *)
      specialize (He' ltac:(congruence)).
      destruct Ht as [Hr _]. specialize (Hr T). change (a_lit (strip_tok t)) with (t_lit t) in Hr.
      destruct Hr as [Hr|Hr]; rewrite Hr in *.
      * change ("$" =? "?")%string with false. cbv iota. cbn [String.length] in Hc |- *. destruct q.
        -- unfold bind_var_expr. cbn [pr_tok pr_style pr_toks pr_index]. rewrite Hr, Hst. cbn. exists (t_start t). auto.
        -- destruct ts as [|u us]; [destruct He'|]. rewrite (bind_dollar (u :: us) t u us (pr_index p) (pr_style p) Hr eq_refl Hst). cbv zeta.
           apply chain_cons in Hc as [O2 Hc]. change (map strip_tok (u :: us)) with (strip_tok u :: map strip_tok us). cbn [ae strip_tok a_typ a_lit a_kind in_args skip] in *.
           destruct (toktype_eqb (t_typ u) TkLiteral) eqn:TL; cbn [negb].
           ++ apply tok_eqb_true in TL. rewrite TL in Hc |- *. cbn [after] in Hc. unfold syntax_error. cbn [pr_tok].
              destruct (t_kind u); cbn [litkind_eqb negb]; try (eexists; split; [reflexivity|exact O2]).
              destruct (parse_uint64 (t_lit u)) as [v|]; [|eexists; split; [reflexivity|exact O2]].
              cbn [List.length] in Hn. apply IH; auto; try lia; [inversion Hok'; assumption|].
              right. eapply ends_tail; [exact He'|]. cbn. congruence.
           ++ unfold syntax_error, want_text. cbn [pr_tok].
              destruct (t_typ u); cbn in TL |- *; try discriminate TL; (eexists; split; [reflexivity|exact O2]).
      * change ("?" =? "?")%string with true. cbv iota.
        unfold bind_var_expr. cbn [pr_tok pr_style pr_toks pr_index]. rewrite Hr, Hst.
        change ("?" =? "$")%string with false. change ("?" =? "?")%string with true. cbv iota. 
        assert (Z : (if (style_of q =? 0)%Z then style_question else style_of q) = style_of true) by (destruct q; reflexivity).
        rewrite Z. change (style_of true =? style_question)%Z with true. cbv iota. change (style_question =? style_question)%Z with true. cbv iota.
        apply IH; auto; lia.
    + unfold syntax_error. cbn [pr_tok]. eexists. split; [reflexivity|exact O1].
    + unfold syntax_error. cbn [pr_tok]. eexists. split; [reflexivity|exact O1].
    + (* plain *) apply IH; auto; lia.
    + (* hash *)
      specialize (He' ltac:(congruence)). destruct ts as [|u us]; [destruct He'|].
      unfold func_expr, got, next_token. cbn [snd pr_tok pr_index pr_style pr_toks].
      apply chain_cons in Hc as [O2 Hc]. change (map strip_tok (u :: us)) with (strip_tok u :: map strip_tok us). cbn [ae strip_tok a_typ a_lit a_kind in_args skip] in *.
      destruct (toktype_eqb (t_typ u) TkName) eqn:TN; cbn [negb].
      2:{ unfold syntax_error, want_text. cbn [pr_tok]. destruct (t_typ u); cbn in TN |- *; try discriminate TN; (eexists; split; [reflexivity|exact O2]). }
      apply tok_eqb_true in TN. rewrite TN in Hc |- *. cbn [after] in Hc.
      assert (Huk : Forall tok_ok (map strip_tok us)) by (inversion Hok'; assumption).
      assert (Hue : ends (map strip_tok us)) by (eapply ends_tail; [exact He'|cbn; congruence]).
      destruct us as [|w ws]; [destruct Hue|]. cbn [snd pr_tok pr_index pr_style pr_toks].
      apply chain_cons in Hc as [O3 Hc]. change (map strip_tok (w :: ws)) with (strip_tok w :: map strip_tok ws). cbn [ae strip_tok a_typ a_lit a_kind in_args skip] in *.
      assert (Hwk : Forall tok_ok (map strip_tok ws)) by (inversion Huk; assumption).
      assert (Hwe2 : ws = [] \/ ends (map strip_tok ws)) by (cbn in Hue; destruct ws; [auto|right; exact Hue]).
      cbn [List.length] in Hn.
      destruct (t_typ w) eqn:TW; cbn [after] in Hc; try (apply IH; auto; lia).
      * (* an index *)
        unfold syntax_error. cbn [pr_tok].
        destruct (t_kind w); cbn [litkind_eqb negb]; try (eexists; split; [reflexivity|exact O3]).
        destruct (parse_float (t_lit w)) as [f|]; [|eexists; split; [reflexivity|exact O3]]. apply IH; auto; lia.
      * (* ( *)
        assert (Hwe : ends (map strip_tok ws)) by (eapply ends_tail; [exact Hue|cbn; congruence]).
        destruct (args_error (S (List.length ws)) ws (mkParser ws w (pr_index p) (pr_style p)) _ q [] ltac:(lia) eq_refl Hwk Hwe Hc)
          as [(args' & p' & r' & B1 & B2 & B3 & B4 & B5 & B6 & B7)|(o & m & r' & B1 & B2 & B3)].
        -- rewrite B1, B7. cbn [pr_style] in B2. apply IH; auto; [lia|congruence].
        -- rewrite B1, B3. exists o. auto.
    + unfold syntax_error. cbn [pr_tok]. eexists. split; [reflexivity|exact O1].
    + unfold syntax_error. cbn [pr_tok]. eexists. split; [reflexivity|exact O1].
    + unfold syntax_error. cbn [pr_tok]. eexists. split; [reflexivity|exact O1].
Qed.
End Parser.

(** The error in the text [s], after a question mark if [q]. *)
Definition npe (q : bool) (s : string) : option (string * string) := ae ETop q s (tk MPlain s).

Theorem parse_error : forall s,
  match npe false (cut_nul s) with
  | Some (r, m) => exists o, parse s = PErr o m /\ o + String.length r = String.length (cut_nul s)
  | None => exists es, parse s = POk es
  end.
Proof.
  intro s. destruct (scan_all_spec s) as (toks & S1 & S2). pose proof (scan_all_chain s toks S1) as C.
  destruct (btoks_ok (S (String.length (cut_nul s))) MPlain (cut_nul s) ltac:(lia)) as [B1 B2].
  fold (btokens (cut_nul s)) in B1, B2. rewrite <- S2 in B1, B2.
  unfold parse, npe. rewrite S1. unfold parse_tokens. change (tk MPlain (cut_nul s)) with (btokens (cut_nul s)). rewrite <- S2.
  apply (loop_error _ (S (List.length toks)) toks (mkParser toks no_token 0 0) (cut_nul s) false []); auto. 
Qed.
