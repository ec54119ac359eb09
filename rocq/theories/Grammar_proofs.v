(** The byte-level parser on printed template parts. *)
From Coq Require Import Strings.String Strings.Ascii NArith ZArith List Bool Lia.
From Verif Require Import GoStr GoNum Syntax Spec_syntax ByteLex Lex_proofs Parse_proofs Num_proofs.
Import ListNotations.
Open Scope string_scope.

(* ------------------------------------------------------------------ *)
(** * Fuel-free tokenizer *)

Lemma btoks_fuel : forall k1 k2 m s, String.length s < k1 -> String.length s < k2 ->
  btoks k1 m s = btoks k2 m s.
Proof.
  induction k1 as [|k1 IH]; intros k2 m s H1 H2; [lia|]. destruct k2 as [|k2]; [lia|].
  cbn [btoks]. destruct m.
  - destruct (bplain s) as [t r] eqn:Eb. pose proof (bplain_length _ _ _ Eb) as Lb.
    destruct r as [|c r]; [reflexivity|]. simpl in Lb.
    destruct (Ascii.eqb c "#").
    + destruct (span is_letter r) as [nm r1] eqn:E1. apply span_length in E1.
      destruct (is_empty nm); [rewrite (IH k2 MPlain r1) by lia; reflexivity|].
      destruct (span is_digit r1) as [ds r2] eqn:E2. apply span_length in E2.
      destruct (is_empty ds).
      * destruct r2 as [|p r3]; [rewrite (IH k2) by (simpl in *; lia); reflexivity|]. simpl in E2.
        destruct (Ascii.eqb p "("); [rewrite (IH k2 MArgs) by lia; reflexivity|].
        rewrite (IH k2 MPlain (String p r3)) by (simpl; lia). reflexivity.
      * rewrite (IH k2 MPlain r2) by lia. reflexivity.
    + destruct (is_mark c).
      * destruct r as [|d r0]; [rewrite (IH k2) by (simpl; lia); reflexivity|].
        destruct (is_digit19 d).
        -- destruct (span is_digit (String d r0)) as [ds r1] eqn:E1. apply span_length in E1.
           rewrite (IH k2 MPlain r1) by lia. reflexivity.
        -- rewrite (IH k2 MPlain (String d r0)) by lia. reflexivity.
      * destruct (bquote c r) as [[b r1] cl] eqn:Eq. apply bquote_length in Eq.
        rewrite (IH k2 MPlain r1) by lia. reflexivity.
  - pose proof (trim_left_length s) as Lt.
    destruct (trim_left s) as [|c r] eqn:Et; [reflexivity|]. simpl in Lt.
    destruct (Ascii.eqb c ",") eqn:Ec; [rewrite (IH k2 MArgs r) by lia; reflexivity|].
    destruct (Ascii.eqb c ")") eqn:Ec2; [rewrite (IH k2 MPlain r) by lia; reflexivity|].
    destruct (Ascii.eqb c "'").
    + destruct (bquote c r) as [[b r1] cl] eqn:Eq. pose proof (bquote_length _ _ _ _ _ Eq) as Lq.
      rewrite (IH k2 (if cl then MArgs else MPlain) r1) by lia. reflexivity.
    + destruct (span is_word (String c r)) as [w r1] eqn:E1.
      assert (E2 := E1). simpl in E2. unfold is_word in E2 at 1. rewrite Ec, Ec2 in E2. simpl in E2.
      destruct (span is_word r) as [w2 r2]. injection E2 as <- <-.
      apply span_length in E1. simpl in E1. rewrite (IH k2 MArgs r2) by lia. reflexivity.
Qed.

(** Tokens of a text, with enough fuel. *)
Definition tk (m : mode) (s : string) : list atok := btoks (S (String.length s)) m s.

Lemma tk_btoks : forall k m s, String.length s < k -> btoks k m s = tk m s.
Proof. intros. apply btoks_fuel; lia. Qed.

(** What follows the plain prefix. *)
Definition tk_rest (t : string) (r : string) : list atok :=
  match r with
  | "" => (a_plain t ++ [a_eof])%list
  | String c r' =>
    if Ascii.eqb c "#" then
      (a_plain t ++ mkA TkHash "#" false KString ::
        (let (nm, r1) := span is_letter r' in
         if is_empty nm then tk MPlain r1
         else mkA TkName nm false KString ::
           (let (ds, r2) := span is_digit r1 in
            if is_empty ds then
              match r2 with
              | String p r3 =>
                if Ascii.eqb p "(" then mkA TkLparen "(" false KString :: tk MArgs r3
                else tk MPlain r2
              | "" => tk MPlain r2
              end
            else a_num ds :: tk MPlain r2)))%list
    else if is_mark c then
      (a_plain t ++ mkA TkRef (String c "") false KString ::
        (match r' with
         | String d _ =>
           if is_digit19 d then let (ds, r1) := span is_digit r' in a_num ds :: tk MPlain r1
           else tk MPlain r'
         | "" => tk MPlain r'
         end))%list
    else
      let '(b, r1, closed) := bquote c r' in
      mkA TkPlain (t ++ String c b) (negb closed) KString :: tk MPlain r1
  end.

Lemma tk_plain : forall s, tk MPlain s = tk_rest (fst (bplain s)) (snd (bplain s)).
Proof.
  intro s. unfold tk at 1. cbn [btoks]. destruct (bplain s) as [t r] eqn:Eb.
  pose proof (bplain_length _ _ _ Eb) as Lb. cbn [fst snd]. unfold tk_rest.
  destruct r as [|c r]; [reflexivity|]. simpl in Lb.
  destruct (Ascii.eqb c "#").
  - destruct (span is_letter r) as [nm r1] eqn:E1. apply span_length in E1.
    destruct (is_empty nm); [rewrite (tk_btoks _ MPlain r1) by lia; reflexivity|].
    destruct (span is_digit r1) as [ds r2] eqn:E2. apply span_length in E2.
    destruct (is_empty ds).
    + destruct r2 as [|p r3]; [rewrite tk_btoks by (simpl in *; lia); reflexivity|]. simpl in E2.
      destruct (Ascii.eqb p "("); [rewrite tk_btoks by lia; reflexivity|].
      rewrite (tk_btoks _ MPlain (String p r3)) by (simpl; lia). reflexivity.
    + rewrite (tk_btoks _ MPlain r2) by lia. reflexivity.
  - destruct (is_mark c).
    + destruct r as [|d r0]; [rewrite tk_btoks by (simpl; lia); reflexivity|].
      destruct (is_digit19 d).
      * destruct (span is_digit (String d r0)) as [ds r1] eqn:E1. apply span_length in E1.
        rewrite (tk_btoks _ MPlain r1) by lia. reflexivity.
      * rewrite (tk_btoks _ MPlain (String d r0)) by lia. reflexivity.
    + destruct (bquote c r) as [[b r1] cl] eqn:Eq. apply bquote_length in Eq.
      rewrite (tk_btoks _ MPlain r1) by lia. reflexivity.
Qed.

Lemma tk_args : forall s, tk MArgs s =
  match trim_left s with
  | "" => [a_eof]
  | String c r =>
    if Ascii.eqb c "," then mkA TkComma "," false KString :: tk MArgs r
    else if Ascii.eqb c ")" then mkA TkRparen ")" false KString :: tk MPlain r
    else if Ascii.eqb c "'" then
      let '(b, r1, closed) := bquote c r in
      mkA TkLiteral (String c b) (negb closed) KString ::
        tk (if closed then MArgs else MPlain) r1
    else
      let (w, r1) := span is_word (String c r) in
      a_word w :: tk MArgs r1
  end.
Proof.
  intro s. unfold tk at 1. cbn [btoks]. pose proof (trim_left_length s) as Lt.
  destruct (trim_left s) as [|c r] eqn:Et; [reflexivity|]. simpl in Lt.
  destruct (Ascii.eqb c ",") eqn:Ec; [rewrite tk_btoks by lia; reflexivity|].
  destruct (Ascii.eqb c ")") eqn:Ec2; [rewrite tk_btoks by lia; reflexivity|].
  destruct (Ascii.eqb c "'").
  - destruct (bquote c r) as [[b r1] cl] eqn:Eq. pose proof (bquote_length _ _ _ _ _ Eq) as Lq.
    rewrite tk_btoks by lia. reflexivity.
  - destruct (span is_word (String c r)) as [w r1] eqn:E1.
    assert (E2 := E1). simpl in E2. unfold is_word in E2 at 1. rewrite Ec, Ec2 in E2. simpl in E2.
    destruct (span is_word r) as [w2 r2]. injection E2 as <- <-.
    apply span_length in E1. simpl in E1. rewrite tk_btoks by lia. reflexivity.
Qed.

(* ------------------------------------------------------------------ *)
(** * Normal forms *)

Lemma cons_text_app : forall p x l, cons_text (p ++ x) l = cons_text p (cons_text x l).
Proof.
  intros p x l. destruct l as [|[u| | |] l]; simpl;
    try (destruct x as [|a x]; simpl; rewrite ?append_nil_r; [destruct p; reflexivity|
         destruct p; reflexivity]).
  rewrite append_assoc. reflexivity.
Qed.

Lemma cons_text_nil : forall l, cons_text "" l = l.
Proof. intros [|[u| | |] l]; reflexivity. Qed.

(** Normalised parse of a text, [idx] bind variables and style [st] so far. *)
Definition np (idx st : Z) (s : string) : option (list aexpr) :=
  option_map norm (ap PTop idx st (tk MPlain s)).

Lemma np_cons_text : forall t o,
  option_map norm (ocons (APlain t) o) = option_map (cons_text t) (option_map norm o).
Proof. intros t [l|]; reflexivity. Qed.

Lemma ap_plain : forall t idx st ts,
  option_map norm (ap PTop idx st (a_plain t ++ ts)%list) =
  option_map (cons_text t) (option_map norm (ap PTop idx st ts)).
Proof.
  intros t idx st ts. unfold a_plain. destruct t as [|a t].
  - simpl. destruct (ap PTop idx st ts) as [l|]; simpl; [|reflexivity]. rewrite cons_text_nil. reflexivity.
  - simpl app. cbn [ap a_typ a_lit]. apply np_cons_text.
Qed.

Lemma omap_cons_text : forall p x (o : option (list aexpr)),
  option_map (cons_text (p ++ x)) o = option_map (cons_text p) (option_map (cons_text x) o).
Proof. intros p x [l|]; simpl; [rewrite cons_text_app|]; reflexivity. Qed.

(** Text that never stops the plain scanner. *)
Definition inert (p : string) : Prop :=
  forall s, bplain (p ++ s) = (p ++ fst (bplain s), snd (bplain s)).

Lemma np_inert : forall p idx st s, inert p ->
  np idx st (p ++ s) = option_map (cons_text p) (np idx st s).
Proof.
  intros p idx st s Hp. unfold np. rewrite (tk_plain (p ++ s)), (tk_plain s). rewrite Hp. cbn [fst snd].
  destruct (bplain s) as [t r]. cbn [fst snd]. unfold tk_rest. destruct r as [|c r].
  - rewrite !ap_plain. rewrite omap_cons_text. reflexivity.
  - destruct (Ascii.eqb c "#").
    + rewrite !ap_plain. rewrite omap_cons_text. reflexivity.
    + destruct (is_mark c).
      * rewrite !ap_plain. rewrite omap_cons_text. reflexivity.
      * destruct (bquote c r) as [[b r1] cl]. cbn [ap a_typ a_lit].
        rewrite !np_cons_text. rewrite append_assoc, omap_cons_text. reflexivity.
Qed.

Lemma special_false : forall a, special a = false ->
  is_mark a = false /\ Ascii.eqb a "#" = false /\ is_quote a = false /\ Ascii.eqb a nul = false.
Proof.
  intros a H. unfold special in H. apply orb_false_iff in H. destruct H as [H H4].
  apply orb_false_iff in H. destruct H as [H H3]. apply orb_false_iff in H. destruct H as [H1 H2]. auto.
Qed.

Lemma inert_text : forall t, plain_text t = true -> inert t.
Proof.
  induction t as [|a t IH]; intros H s.
  - simpl. destruct (bplain s); reflexivity.
  - unfold plain_text in H. cbn [all] in H. apply andb_true_iff in H. destruct H as [Ha Ht].
    apply negb_true_iff in Ha. apply special_false in Ha. destruct Ha as (H1 & H2 & H3 & _).
    change (String a t ++ s) with (String a (t ++ s)). rewrite bplain_unmarked by assumption.
    rewrite (IH Ht s). reflexivity.
Qed.

Lemma inert_esc : forall d, inert (print1 (Esc d)).
Proof.
  intros d s. destruct d; simpl; destruct (bplain s); reflexivity.
Qed.

(* ------------------------------------------------------------------ *)
(** * Quoted text *)

Lemma quote_not : forall q, is_quote q = true -> is_mark q = false /\ Ascii.eqb q "#" = false.
Proof.
  intros q H. unfold is_quote in H.
  destruct (Ascii.eqb q "'") eqn:E1; [apply Ascii.eqb_eq in E1; rewrite E1; split; reflexivity|].
  destruct (Ascii.eqb q """") eqn:E2; [apply Ascii.eqb_eq in E2; rewrite E2; split; reflexivity|].
  destruct (Ascii.eqb q "`") eqn:E3; [apply Ascii.eqb_eq in E3; rewrite E3; split; reflexivity|discriminate H].
Qed.

Lemma np_quote : forall q r idx st, is_quote q = true ->
  np idx st (String q r) =
  option_map (cons_text (String q (fst (fst (bquote q r))))) (np idx st (snd (fst (bquote q r)))).
Proof.
  intros q r idx st H. destruct (quote_not q H) as [H1 H2]. unfold np at 1. rewrite tk_plain.
  assert (B : bplain (String q r) = ("", String q r)).
  { simpl. rewrite H1, H2, H. reflexivity. }
  rewrite B. cbn [fst snd]. unfold tk_rest. rewrite H2, H1.
  destruct (bquote q r) as [[b r1] cl]. cbn [fst snd ap a_typ a_lit append]. apply np_cons_text.
Qed.

Lemma bquote_body : forall q b s, body_ok q b = true ->
  bquote q (b ++ s) = (b ++ fst (fst (bquote q s)), snd (fst (bquote q s)), snd (bquote q s)).
Proof.
  intros q b. remember (String.length b) as k eqn:Hk. revert b Hk.
  induction k as [k IH] using lt_wf_ind. intros b Hk s H. subst k.
  destruct b as [|a b].
  - simpl. destruct (bquote q s) as [[? ?] ?]. reflexivity.
  - cbn [body_ok] in H. destruct (Ascii.eqb a q) eqn:Ea.
    + apply andb_true_iff in H. destruct H as [Hq H]. destruct b as [|c b]; [discriminate|].
      apply andb_true_iff in H. destruct H as [Hc H]. apply Ascii.eqb_eq in Hc. subst c.
      change (String a (String q b) ++ s) with (String a (String q (b ++ s))). cbn [bquote]. rewrite Ea, Hq. cbn [andb].
      rewrite (IH (String.length b) ltac:(simpl; lia) b eq_refl s H). reflexivity.
    + apply andb_true_iff in H. destruct H as [_ H].
      change (String a b ++ s) with (String a (b ++ s)). cbn [bquote]. rewrite Ea.
      rewrite (IH (String.length b) ltac:(simpl; lia) b eq_refl s H). reflexivity.
Qed.

Lemma np_quoted : forall q b s idx st, is_quote q = true -> body_ok q b = true ->
  np idx st (String q (b ++ String q s)) =
  option_map (cons_text (String q (b ++ String q ""))) (np idx st s).
Proof.
  intros q b s idx st Hq Hb. rewrite np_quote by exact Hq. rewrite bquote_body by exact Hb. cbn [fst snd].
  destruct (Ascii.eqb q "'" && starts (fun a => Ascii.eqb a "'") s) eqn:E.
  - (* closing quote directly followed by another single quote *)
    apply andb_true_iff in E. destruct E as [E1 E2]. apply Ascii.eqb_eq in E1. subst q.
    destruct s as [|a s]; [discriminate|]. simpl in E2. apply Ascii.eqb_eq in E2. subst a.
    cbn [bquote]. change (Ascii.eqb "'" "'") with true. cbn [andb].
    rewrite (np_quote "'" s) by reflexivity.
    destruct (bquote "'" s) as [[t r] c]. cbn [fst snd].
    rewrite <- omap_cons_text. f_equal. f_equal. simpl. rewrite append_assoc. reflexivity.
  - assert (B : bquote q (String q s) = (String q "", s, true)).
    { cbn [bquote]. rewrite Ascii.eqb_refl. destruct s as [|a s]; [reflexivity|]. simpl in E. rewrite E. reflexivity. }
    rewrite B. reflexivity.
Qed.

(* ------------------------------------------------------------------ *)
(** * Bind variables *)

Lemma span_stop : forall p t s, all p t = true -> starts p s = false -> span p (t ++ s) = (t, s).
Proof.
  induction t as [|a t IH]; intros s H1 H2.
  - destruct s as [|b s]; simpl in *; [reflexivity|]. rewrite H2. reflexivity.
  - cbn [all] in H1. apply andb_true_iff in H1. destruct H1 as [Ha Ht]. simpl. rewrite Ha, (IH s Ht H2). reflexivity.
Qed.

Lemma np_quest : forall s idx st, starts (fun a => Ascii.eqb a "?" || is_digit19 a) s = false ->
  np idx st (String "?" s) =
  (let st' := if (st =? 0)%Z then style_question else st in
   if (st' =? style_question)%Z
   then ocons (ABind style_question (idx + 1)) (np (idx + 1) st' s) else None).
Proof.
  intros s idx st H. unfold np at 1. rewrite tk_plain.
  assert (B : bplain (String "?" s) = ("", String "?" s)).
  { simpl. destruct s as [|a s]; [reflexivity|]. simpl in H. apply orb_false_iff in H. destruct H as [H _].
    rewrite H. reflexivity. }
  rewrite B. cbn [fst snd tk_rest]. change (Ascii.eqb "?" "#") with false. change (is_mark "?") with true.
  cbv iota. cbn [a_plain is_empty app].
  assert (T : (match s with
         | String d _ => if is_digit19 d then let (ds, r1) := span is_digit s in a_num ds :: tk MPlain r1 else tk MPlain s
         | "" => tk MPlain s end) = tk MPlain s).
  { destruct s as [|a s]; [reflexivity|]. simpl in H. apply orb_false_iff in H. destruct H as [_ H]. rewrite H. reflexivity. }
  rewrite T. cbn [ap a_typ a_lit]. change ("?" =? "?")%string with true. cbv iota zeta.
  destruct ((if (st =? 0)%Z then style_question else st) =? style_question)%Z; [|reflexivity].
  change (style_question =? style_question)%Z with true. cbv iota. unfold np.
  destruct (ap PTop (idx + 1) (if (st =? 0)%Z then style_question else st) (tk MPlain s)); reflexivity.
Qed.

Lemma digit19_digit : forall a, is_digit19 a = true -> is_digit a = true.
Proof.
  intros a H. unfold is_digit19, is_digit, in_range in *. apply andb_true_iff in H. destruct H as [A B].
  apply andb_true_iff. split; [|exact B]. apply N.leb_le in A. apply N.leb_le. lia.
Qed.

Lemma digit19_not_mark : forall a, is_digit19 a = true -> Ascii.eqb a "$" = false /\ Ascii.eqb a "?" = false.
Proof. intros [[] [] [] [] [] [] [] []] H; try discriminate H; split; reflexivity. Qed.

Lemma tk_dollar : forall ds s, starts is_digit19 ds = true -> all is_digit ds = true -> starts is_digit s = false ->
  tk MPlain (String "$" (ds ++ s)) = mkA TkRef "$" false KString :: a_num ds :: tk MPlain s.
Proof.
  intros ds s H1 H2 H3. rewrite tk_plain.
  destruct ds as [|d ds]; [discriminate|]. simpl in H1.
  assert (B : bplain (String "$" (String d ds ++ s)) = ("", String "$" (String d ds ++ s))).
  { simpl. destruct (digit19_not_mark d H1) as [E _]. rewrite E. reflexivity. }
  rewrite B. cbn [fst snd tk_rest]. change (Ascii.eqb "$" "#") with false. change (is_mark "$") with true.
  cbv iota. cbn [a_plain is_empty app]. f_equal.
  rewrite (span_stop is_digit (String d ds) s H2 H3). simpl. rewrite H1. reflexivity.
Qed.

Lemma np_dollar : forall n s idx st, (1 <= n)%N -> (n < 9223372036854775808)%N -> starts is_digit s = false ->
  np idx st (String "$" (dec n ++ s)) =
  if (st =? 0)%Z then ocons (ABind style_dollar (Z.of_N n)) (np (idx + 1) 0 s) else None.
Proof.
  intros n s idx st H1 H2 H3. unfold np at 1.
  rewrite (tk_dollar (dec n) s (dec_head n H1) (dec_digits n) H3).
  cbn [ap a_typ a_lit]. change ("$" =? "?")%string with false. cbv iota.
  change (style_dollar =? style_question)%Z with false. cbv iota.
  destruct (st =? 0)%Z eqn:S0.
  - change (style_dollar =? style_dollar)%Z with true. cbv iota. unfold a_num. cbn [a_kind a_typ a_lit].
    rewrite parse_uint64_dec by lia. rewrite int_of_uint64_small by exact H2. unfold np.
    change style_dollar with 0%Z.
    destruct (ap PTop (idx + 1) 0 (tk MPlain s)); reflexivity.
  - unfold style_dollar. rewrite S0. reflexivity.
Qed.

(* ------------------------------------------------------------------ *)
(** * Calls *)

Lemma all_app : forall p a b, all p (a ++ b) = all p a && all p b.
Proof. induction a as [|x a IH]; simpl; intros b; [reflexivity|]. rewrite IH, andb_assoc. reflexivity. Qed.

Lemma tk_hash : forall nm s, wf_name nm = true -> starts is_letter s = false ->
  tk MPlain (String "#" (nm ++ s)) =
  mkA TkHash "#" false KString :: mkA TkName nm false KString ::
  (let (ds, r2) := span is_digit s in
   if is_empty ds then
     match r2 with
     | String p r3 => if Ascii.eqb p "(" then mkA TkLparen "(" false KString :: tk MArgs r3 else tk MPlain r2
     | "" => tk MPlain r2
     end
   else a_num ds :: tk MPlain r2).
Proof.
  intros nm s H1 H2. unfold wf_name in H1. apply andb_true_iff in H1. destruct H1 as [H0 H1].
  apply negb_true_iff in H0. rewrite tk_plain. cbn [bplain]. change (is_mark "#") with false.
  change (Ascii.eqb "#" "#") with true. cbn [orb]. cbn [fst snd tk_rest].
  change (Ascii.eqb "#" "#") with true. cbv iota. cbn [a_plain is_empty app].
  rewrite (span_stop is_letter nm s H1 H2). rewrite H0. reflexivity.
Qed.

Lemma is_digit_not_letter : forall a, is_digit a = true -> is_letter a = false.
Proof. intros [[] [] [] [] [] [] [] []] H; try discriminate H; reflexivity. Qed.

Lemma starts_app_digits : forall ds s, ds <> "" -> all is_digit ds = true -> starts is_letter (ds ++ s) = false.
Proof.
  intros [|d ds] s Hn H; [congruence|]. cbn [all] in H. apply andb_true_iff in H. destruct H as [H _].
  simpl. apply is_digit_not_letter, H.
Qed.

Lemma ocons_np : forall e idx st s, (forall t, e <> APlain t) ->
  option_map norm (ocons e (ap PTop idx st (tk MPlain s))) = ocons e (np idx st s).
Proof.
  intros e idx st s H. unfold np. destruct (ap PTop idx st (tk MPlain s)); [|reflexivity]. simpl.
  destruct e; try reflexivity. exfalso. eapply H. reflexivity.
Qed.

(** #nameN, for any digits that ParseFloat accepts. *)
Lemma np_indexed : forall nm ds f s idx st, wf_name nm = true -> ds <> "" -> all is_digit ds = true ->
  parse_float ds = Some f -> starts is_digit s = false ->
  np idx st (String "#" (nm ++ ds ++ s)) = ocons (ACall nm [LNum f]) (np idx st s).
Proof.
  intros nm ds f s idx st H1 H2 H3 H4 H5. unfold np at 1.
  rewrite tk_hash by (try exact H1; apply starts_app_digits; assumption).
  rewrite (span_stop is_digit ds s H3 H5). destruct ds as [|d ds]; [congruence|]. cbn [is_empty].
  cbn [ap a_typ a_lit a_kind a_num]. rewrite H4. apply ocons_np. discriminate.
Qed.

Lemma np_func : forall nm s idx st, wf_name nm = true ->
  starts (fun a => is_letter a || is_digit a || Ascii.eqb a "(") s = false -> plain_start s = true ->
  np idx st (String "#" (nm ++ s)) = ocons (AFunc nm) (np idx st s).
Proof.
  intros nm s idx st H1 H2 H3. unfold np at 1.
  assert (F : starts is_letter s = false /\ starts is_digit s = false /\ starts (fun a => Ascii.eqb a "(") s = false).
  { destruct s as [|a s]; [auto|]. simpl in *. apply orb_false_iff in H2. destruct H2 as [H2 F3].
    apply orb_false_iff in H2. tauto. }
  destruct F as (F1 & F2 & F3).
  rewrite tk_hash by assumption.
  assert (Sp : span is_digit s = ("", s)) by apply (span_stop is_digit "" s eq_refl F2).
  rewrite Sp. cbn [is_empty].
  assert (T : match s with
     | String p r3 => if Ascii.eqb p "(" then mkA TkLparen "(" false KString :: tk MArgs r3 else tk MPlain s
     | "" => tk MPlain s end = tk MPlain s).
  { destruct s as [|a s]; [reflexivity|]. simpl in F3. rewrite F3. reflexivity. }
  rewrite T. cbn [ap a_typ a_lit].
  (* the first token of [s] is plain text or the end *)
  assert (First : exists t ts, tk MPlain s = t :: ts /\ (a_typ t = TkPlain \/ (a_typ t = TkEOF /\ a_lit t = "" /\ ts = []))).
  { rewrite tk_plain. destruct (bplain s) as [t r] eqn:Eb. cbn [fst snd]. unfold tk_rest.
    assert (Ne : t <> "" \/ match r with String c _ => is_quote c = true | "" => s = "" end).
    { destruct s as [|a s0]; [simpl in Eb; injection Eb as <- <-; auto|].
      simpl in Eb, H3. destruct (is_mark a) eqn:Em.
      - destruct s0 as [|b s1]; [discriminate|]. simpl in H3. rewrite H3 in Eb.
        destruct (bplain s1). injection Eb as <- <-. left. discriminate.
      - apply negb_true_iff in H3. rewrite H3 in Eb. simpl in Eb. destruct (is_quote a) eqn:Q.
        + injection Eb as <- <-. right. exact Q.
        + destruct (bplain s0). injection Eb as <- <-. left. discriminate. }
    destruct t as [|c0 t].
    - destruct Ne as [Ne|Ne]; [congruence|]. destruct r as [|c r].
      + simpl. do 2 eexists. split; [reflexivity|]. right. auto.
      + destruct (quote_not c Ne) as [Q1 Q2]. rewrite Q1, Q2.
        destruct (bquote c r) as [[b r1] cl]. do 2 eexists. split; [reflexivity|]. left. reflexivity.
    - unfold a_plain. simpl is_empty. cbv iota. destruct r as [|c r].
      + do 2 eexists. split; [reflexivity|]. left. reflexivity.
      + destruct (Ascii.eqb c "#"); [do 2 eexists; split; [reflexivity|]; left; reflexivity|].
        destruct (is_mark c); [do 2 eexists; split; [reflexivity|]; left; reflexivity|].
        destruct (bquote c r) as [[b r1] cl]. do 2 eexists. split; [reflexivity|]. left. reflexivity. }
  destruct First as (t & ts & Et & Ht). unfold np. rewrite Et. cbn [ap].
  destruct Ht as [Ht|(Ht & Hl & ->)]; rewrite Ht.
  - destruct (ap PTop idx st ts); reflexivity.
  - rewrite Hl. reflexivity.
Qed.

Lemma trim_left_nonspace : forall a s, (code a <? 128)%N = true -> is_space (code a) = false ->
  trim_left (String a s) = String a s.
Proof.
  intros a s H1 H2. unfold trim_left. cbn [String.length trim_left_f]. rewrite decode_ascii by exact H1.
  rewrite H2. rewrite andb_false_r. reflexivity.
Qed.
Lemma trim_left_blank : forall s, trim_left (String " " s) = trim_left s.
Proof.
  intro s. unfold trim_left. cbn [String.length trim_left_f]. rewrite decode_ascii by reflexivity.
  change (is_space (code " ")) with true. cbn [is_empty negb andb str_drop]. destruct s; reflexivity.
Qed.

Lemma a_word_num : forall ds f, ds <> "" -> all is_digit ds = true -> parse_float ds = Some f ->
  a_word ds = a_num ds.
Proof.
  intros ds f H1 H2 H3. unfold a_word. rewrite H3. destruct ds as [|d ds]; [congruence|].
  cbn [all] in H2. apply andb_true_iff in H2. destruct H2 as [H2 _].
  assert (K : Ascii.eqb d "t" = false /\ Ascii.eqb d "f" = false /\ Ascii.eqb d "n" = false).
  { clear -H2. destruct d as [[] [] [] [] [] [] [] []]; try discriminate H2; repeat split; reflexivity. }
  destruct K as (K1 & K2 & K3). cbn [String.eqb]. rewrite K1, K2, K3. reflexivity.
Qed.

Lemma digit_word : forall s, all is_digit s = true -> all is_word s = true.
Proof.
  induction s as [|a s IH]; simpl; intro H; [reflexivity|]. apply andb_true_iff in H. destruct H as [Ha Hs].
  rewrite (IH Hs), andb_true_r. clear -Ha. destruct a as [[] [] [] [] [] [] [] []]; try discriminate Ha; reflexivity.
Qed.

Lemma digit_ascii : forall a, is_digit a = true ->
  (code a <? 128)%N = true /\ is_space (code a) = false /\ Ascii.eqb a "," = false /\ Ascii.eqb a ")" = false /\ Ascii.eqb a "'" = false.
Proof. intros [[] [] [] [] [] [] [] []] H; try discriminate H; repeat split; reflexivity. Qed.

Lemma doubled_body : forall s, no_nul s = true -> body_ok "'" (doubled s) = true.
Proof.
  induction s as [|a s IH]; simpl; intro H; [reflexivity|]. unfold no_nul in H. cbn [all] in H. apply andb_true_iff in H.
  destruct H as [Ha Hs]. destruct (Ascii.eqb a "'") eqn:E.
  - apply Ascii.eqb_eq in E. subst a. simpl. apply IH, Hs.
  - cbn [body_ok]. rewrite E, Ha. apply IH, Hs.
Qed.

Lemma undouble_double : forall s, undouble_quotes (doubled s) = s.
Proof.
  induction s as [|a s IH]; [reflexivity|]. cbn [doubled]. destruct (Ascii.eqb a "'") eqn:E.
  - apply Ascii.eqb_eq in E. subst a. cbn [undouble_quotes]. change (Ascii.eqb "'" quote_char) with true. cbn [andb].
    rewrite IH. reflexivity.
  - cbn [undouble_quotes]. destruct (doubled s) as [|b r] eqn:D.
    + simpl in IH. rewrite <- IH. reflexivity.
    + change quote_char with "'"%char. rewrite E. cbn [andb]. rewrite IH. reflexivity.
Qed.

Lemma take_app : forall s t, str_take (String.length s) (s ++ t) = s.
Proof. induction s as [|a s IH]; simpl; intros t; [destruct t; reflexivity|]. rewrite IH. reflexivity. Qed.

Lemma strip_quotes_ok : forall s, strip_quotes (String "'" (s ++ "'")) = Some s.
Proof.
  intro s. unfold strip_quotes. cbn [String.length str_drop]. rewrite length_append.
  change (String.length "'") with 1.
  replace (Nat.ltb (S (String.length s + 1)) 2) with (Nat.ltb (String.length s) 0)
    by (unfold Nat.ltb; rewrite Nat.add_1_r; reflexivity).
  change (Nat.ltb (String.length s) 0) with false. cbv iota.
  replace (S (String.length s + 1) - 2) with (String.length s) by lia.
  rewrite take_app. reflexivity.
Qed.

(** The separator or end after an argument. *)
Definition arg_end (s : string) : bool := starts (fun a => Ascii.eqb a "," || Ascii.eqb a ")") s.

Lemma arg_end_stops : forall s, arg_end s = true -> starts is_word s = false.
Proof.
  intros [|a s] H; [reflexivity|]. simpl in *. unfold is_word. apply orb_true_iff in H.
  destruct H as [H|H]; rewrite H; [reflexivity|apply andb_false_r].
Qed.

Lemma tk_one_arg : forall a s, wf_arg a = true -> arg_end s = true ->
  exists t, tk MArgs (print_arg a ++ s) = t :: tk MArgs s /\ a_typ t = TkLiteral /\ a_value t = Some (denote_arg a).
Proof.
  intros a s Ha Hs. pose proof (arg_end_stops s Hs) as Hw. destruct a as [v|n|b|].
  - (* string *)
    cbn [print_arg wf_arg] in *. change (("'" ++ doubled v ++ "'") ++ s) with (String "'" ((doubled v ++ "'") ++ s)).
    rewrite tk_args. rewrite trim_left_nonspace by reflexivity.
    change (Ascii.eqb "'" ",") with false. change (Ascii.eqb "'" ")") with false. change (Ascii.eqb "'" "'") with true. cbv iota.
    rewrite append_assoc. rewrite bquote_body by (apply doubled_body; exact Ha).
    change ("'" ++ s) with (String "'" s).
    assert (B : bquote "'" (String "'" s) = ("'", s, true)).
    { cbn [bquote]. change (Ascii.eqb "'" "'") with true. cbv iota. destruct s as [|c s]; [discriminate|].
      replace (Ascii.eqb c "'") with false; [reflexivity|]. symmetry. unfold arg_end in Hs. simpl in Hs.
      apply orb_true_iff in Hs. destruct Hs as [Hs|Hs]; apply Ascii.eqb_eq in Hs; subst c; reflexivity. }
    rewrite B. cbn [fst snd]. eexists. split; [reflexivity|]. split; [reflexivity|].
    unfold a_value. cbn [a_bad negb a_kind a_lit]. rewrite strip_quotes_ok. cbn [option_map]. rewrite undouble_double. reflexivity.
  - (* number *)
    cbn [print_arg wf_arg] in *. apply N.ltb_lt in Ha.
    pose proof (dec_digits n) as D. pose proof (dec_nonempty n) as E. pose proof (parse_float_dec n Ha) as P.
    destruct (dec n) as [|c ds] eqn:Ed; [congruence|].
    assert (Dc : is_digit c = true) by (cbn [all] in D; apply andb_true_iff in D; tauto).
    destruct (digit_ascii c Dc) as (K1 & K2 & K3 & K4 & K5).
    change (String c ds ++ s) with (String c (ds ++ s)).
    rewrite tk_args, trim_left_nonspace by assumption. rewrite K3, K4, K5.
    change (String c (ds ++ s)) with (String c ds ++ s).
    rewrite (span_stop is_word (String c ds) s (digit_word _ D) Hw).
    eexists. split; [reflexivity|]. rewrite (a_word_num _ _ E D P). split; [reflexivity|].
    unfold a_value. cbn [a_bad a_num a_kind a_lit]. rewrite P. reflexivity.
  - (* bool *)
    destruct b; cbn [print_arg].
    + rewrite tk_args. change ("true" ++ s) with (String "t" ("rue" ++ s)). rewrite trim_left_nonspace by reflexivity.
      change (Ascii.eqb "t" ",") with false. change (Ascii.eqb "t" ")") with false. change (Ascii.eqb "t" "'") with false. cbv iota.
      change (String "t" ("rue" ++ s)) with ("true" ++ s). rewrite (span_stop is_word "true" s eq_refl Hw).
      eexists. split; [reflexivity|]. split; reflexivity.
    + rewrite tk_args. change ("false" ++ s) with (String "f" ("alse" ++ s)). rewrite trim_left_nonspace by reflexivity.
      change (Ascii.eqb "f" ",") with false. change (Ascii.eqb "f" ")") with false. change (Ascii.eqb "f" "'") with false. cbv iota.
      change (String "f" ("alse" ++ s)) with ("false" ++ s). rewrite (span_stop is_word "false" s eq_refl Hw).
      eexists. split; [reflexivity|]. split; reflexivity.
  - cbn [print_arg]. rewrite tk_args. change ("nil" ++ s) with (String "n" ("il" ++ s)). rewrite trim_left_nonspace by reflexivity.
    change (Ascii.eqb "n" ",") with false. change (Ascii.eqb "n" ")") with false. change (Ascii.eqb "n" "'") with false. cbv iota.
    change (String "n" ("il" ++ s)) with ("nil" ++ s). rewrite (span_stop is_word "nil" s eq_refl Hw).
    eexists. split; [reflexivity|]. split; reflexivity.
Qed.

Lemma tk_args_blank : forall s, tk MArgs (String " " s) = tk MArgs s.
Proof. intro s. rewrite !tk_args, trim_left_blank. reflexivity. Qed.
Lemma tk_args_comma : forall s, tk MArgs (String "," s) = mkA TkComma "," false KString :: tk MArgs s.
Proof. intro s. rewrite tk_args, trim_left_nonspace by reflexivity. reflexivity. Qed.
Lemma tk_args_rparen : forall s, tk MArgs (String ")" s) = mkA TkRparen ")" false KString :: tk MPlain s.
Proof. intro s. rewrite tk_args, trim_left_nonspace by reflexivity. reflexivity. Qed.

Lemma ap_args : forall args nm acc s idx st, forallb wf_arg args = true -> args <> [] ->
  ap (PArg nm acc) idx st (tk MArgs (sep_args args ++ String ")" s)) =
  ocons (ACall nm (acc ++ map denote_arg args)) (ap PTop idx st (tk MPlain s)).
Proof.
  induction args as [|a args IH]; intros nm acc s idx st H Hn; [congruence|].
  cbn [forallb] in H. apply andb_true_iff in H. destruct H as [Ha H].
  destruct args as [|b args].
  - unfold sep_args. cbn [map str_join].
    destruct (tk_one_arg a (String ")" s) Ha eq_refl) as (t & Et & T1 & T2).
    rewrite Et. cbn [ap]. rewrite T1, T2, tk_args_rparen. reflexivity.
  - unfold sep_args. change (str_join ", " (map print_arg (a :: b :: args)))
      with (print_arg a ++ ", " ++ sep_args (b :: args)).
    rewrite !append_assoc. change (", " ++ sep_args (b :: args) ++ String ")" s)
      with (String "," (String " " (sep_args (b :: args) ++ String ")" s))).
    destruct (tk_one_arg a (String "," (String " " (sep_args (b :: args) ++ String ")" s))) Ha eq_refl) as (t & Et & T1 & T2).
    rewrite Et. cbn [ap]. rewrite T1, T2, tk_args_comma, tk_args_blank. cbn [ap a_typ].
    rewrite IH by (assumption || discriminate). rewrite <- app_assoc. reflexivity.
Qed.

Lemma np_call : forall nm args s idx st, wf_name nm = true -> forallb wf_arg args = true ->
  np idx st (String "#" (nm ++ String "(" (sep_args args ++ String ")" s))) =
  ocons (ACall nm (map denote_arg args)) (np idx st s).
Proof.
  intros nm args s idx st H1 H2. unfold np at 1. rewrite tk_hash by (try exact H1; reflexivity).
  cbn [span]. change (is_digit "(") with false. cbv iota. cbn [is_empty].
  change (Ascii.eqb "(" "(") with true. cbv iota. cbn [ap a_typ a_lit].
  destruct args as [|a args].
  - cbn [sep_args map str_join append]. rewrite tk_args_rparen. cbn [ap a_typ]. apply ocons_np. discriminate.
  - rewrite ap_args by (assumption || discriminate). apply ocons_np. discriminate.
Qed.

(* ------------------------------------------------------------------ *)
(** * Lists of parts *)

(** Expressions in front of normalised ones. *)
Fixpoint ncat (a b : list aexpr) : list aexpr :=
  match a with
  | [] => b
  | APlain t :: a' => cons_text t (ncat a' b)
  | e :: a' => e :: ncat a' b
  end.
Lemma norm_app : forall a b, norm (a ++ b) = ncat a (norm b).
Proof. induction a as [|[t| | |] a IH]; intro b; simpl; rewrite ?IH; reflexivity. Qed.
Lemma ncat_nil : forall a, ncat a [] = norm a.
Proof. intro a. rewrite <- (app_nil_r a) at 2. rewrite norm_app. reflexivity. Qed.

Definition style_after (st : Z) (l : list part) : Z :=
  if existsb is_quest l && (st =? 0)%Z then style_question else st.

Lemma binds_cons : forall p l, binds (p :: l) = ((if is_bind p then 1 else 0) + binds l)%Z.
Proof. intros p l. unfold binds. simpl. destruct (is_bind p); [cbn [length]; lia|reflexivity]. Qed.

Lemma omap_ocons : forall (e : aexpr) a (o : option (list aexpr)), (forall t, e <> APlain t) ->
  ocons e (option_map (ncat a) o) = option_map (ncat (e :: a)) o.
Proof. intros e a [l|] H; [|reflexivity]. destruct e; try reflexivity. exfalso. eapply H. reflexivity. Qed.

Lemma omap_text : forall t a (o : option (list aexpr)),
  option_map (cons_text t) (option_map (ncat a) o) = option_map (ncat (APlain t :: a)) o.
Proof. intros t a [l|]; reflexivity. Qed.

Lemma np_parts : forall l x idx st, wf_at l x = true -> (st = 0 \/ st = style_question)%Z ->
  np idx st (print l ++ x) =
  if style_ok (negb (st =? 0)%Z) l
  then option_map (ncat (denote idx l)) (np (idx + binds l) (style_after st l) x)
  else None.
Proof.
  induction l as [|p l IH]; intros x idx st H Hst.
  - simpl. unfold style_after. simpl. rewrite Z.add_0_r. destruct (np idx st x); reflexivity.
  - cbn [wf_at] in H. apply andb_true_iff in H. destruct H as [H Hl]. apply andb_true_iff in H. destruct H as [Hp Hf].
    cbn [print]. rewrite append_assoc.
    destruct p as [t|d|q b| |n|nm args|nm n|nm]; rewrite binds_cons; cbn [is_bind print1 style_ok denote]; cbn [follow wf1] in Hp, Hf;
      cbv iota; rewrite ?Z.add_0_l;
      try (replace (style_after st (Text t :: l)) with (style_after st l) by reflexivity);
      try (replace (style_after st (Esc d :: l)) with (style_after st l) by reflexivity).
    + rewrite np_inert by (apply inert_text, Hp). rewrite IH by assumption.
      destruct (style_ok _ l); [apply omap_text|reflexivity].
    + change (if d then "$$" else "??") with (print1 (Esc d)). rewrite np_inert by apply inert_esc. rewrite IH by assumption.
      destruct (style_ok _ l); [apply omap_text|reflexivity].
    + apply andb_true_iff in Hp. destruct Hp as [Hq Hb].
      change (String q (b ++ String q "") ++ print l ++ x) with (String q ((b ++ String q "") ++ print l ++ x)).
      rewrite append_assoc. change (String q "" ++ print l ++ x) with (String q (print l ++ x)).
      rewrite np_quoted by assumption. rewrite IH by assumption.
      change (style_after st (Quoted q b :: l)) with (style_after st l).
      destruct (style_ok _ l); [apply omap_text|reflexivity].
    + apply negb_true_iff in Hf. change ("?" ++ print l ++ x) with (String "?" (print l ++ x)).
      rewrite np_quest by exact Hf. cbv zeta.
      assert (E : (if (st =? 0)%Z then style_question else st) = style_question) by (destruct Hst as [->| ->]; reflexivity).
      rewrite E. rewrite Z.eqb_refl. rewrite IH by (auto; exact Hl).
      change (negb (style_question =? 0)%Z) with true.
      replace (style_after st (Quest :: l)) with style_question by (unfold style_after; simpl; destruct Hst as [->| ->]; reflexivity).
      replace (style_after style_question l) with style_question by (unfold style_after; simpl; destruct (existsb is_quest l); reflexivity).
      replace (idx + 1 + binds l)%Z with (idx + (1 + binds l))%Z by lia.
      destruct (style_ok true l); [apply omap_ocons; discriminate|reflexivity].
    + apply andb_true_iff in Hp. destruct Hp as [H1 H2]. apply N.leb_le in H1. apply N.ltb_lt in H2.
      apply negb_true_iff in Hf. change (("$" ++ dec n) ++ print l ++ x) with (String "$" (dec n ++ print l ++ x)).
      rewrite np_dollar by assumption. destruct (st =? 0)%Z eqn:S0; [|reflexivity].
      apply Z.eqb_eq in S0. subst st. cbn [negb andb]. rewrite IH by auto.
      change (style_after 0 (Dollar n :: l)) with (style_after 0 l).
      replace (idx + 1 + binds l)%Z with (idx + (1 + binds l))%Z by lia.
      change (negb (0 =? 0)%Z) with false.
      destruct (style_ok false l); [apply omap_ocons; discriminate|reflexivity].
    + apply andb_true_iff in Hp. destruct Hp as [Hn Ha].
      replace (("#" ++ nm ++ "(" ++ sep_args args ++ ")") ++ print l ++ x)
        with (String "#" (nm ++ String "(" (sep_args args ++ String ")" (print l ++ x))))
        by (cbn [append]; rewrite !append_assoc; cbn [append]; rewrite append_assoc; reflexivity).
      rewrite np_call by assumption. rewrite IH by assumption.
      change (style_after st (Call nm args :: l)) with (style_after st l).
      destruct (style_ok _ l); [apply omap_ocons; discriminate|reflexivity].
    + apply andb_true_iff in Hp. destruct Hp as [Hn Ha]. apply N.ltb_lt in Ha. apply negb_true_iff in Hf.
      change (("#" ++ nm ++ dec n) ++ print l ++ x) with (String "#" ((nm ++ dec n) ++ print l ++ x)).
      rewrite append_assoc.
      rewrite np_indexed with (f := float_of_N n) by (first [assumption|apply dec_nonempty|apply dec_digits|apply parse_float_dec; assumption]).
      rewrite IH by assumption. change (style_after st (Indexed nm n :: l)) with (style_after st l).
      destruct (style_ok _ l); [apply omap_ocons; discriminate|reflexivity].
    + apply andb_true_iff in Hf. destruct Hf as [Hf1 Hf2]. apply negb_true_iff in Hf1.
      change (("#" ++ nm) ++ print l ++ x) with (String "#" (nm ++ print l ++ x)).
      rewrite np_func by assumption. rewrite IH by assumption.
      change (style_after st (Func nm :: l)) with (style_after st l).
      destruct (style_ok _ l); [apply omap_ocons; discriminate|reflexivity].
Qed.

(* ------------------------------------------------------------------ *)
(** * From the byte-level parser to Parse *)

Lemma parsed_np : forall s, parsed s = np 0 0 (cut_nul s).
Proof.
  intro s. unfold parsed, np. pose proof (parse_spec s) as P. unfold bparse, btokens in P.
  fold (tk MPlain (cut_nul s)) in P. destruct (ap PTop 0 0 (tk MPlain (cut_nul s))) as [es|]; simpl.
  - destruct P as (es' & E & M). rewrite E, M. reflexivity.
  - destruct P as (o & m & E). rewrite E. reflexivity.
Qed.

Lemma parse_total : forall s, (exists es, parse s = POk es) \/ (exists o m, parse s = PErr o m).
Proof.
  intro s. pose proof (parse_spec s) as P. destruct (bparse s) as [es|].
  - left. destruct P as (es' & E & _). eauto.
  - right. exact P.
Qed.

Lemma rejected_parsed : forall s, parsed s = None <-> rejected s.
Proof.
  intro s. unfold parsed, rejected. destruct (parse_total s) as [(es & E)|(o & m & E)]; rewrite E; split; intro H; try discriminate.
  - destruct H as (o & m & H). discriminate.
  - eauto.
  - reflexivity.
Qed.

Lemma cut_nul_app : forall a b, no_nul a = true -> cut_nul (a ++ b) = a ++ cut_nul b.
Proof.
  induction a as [|c a IH]; intros b H; [reflexivity|]. unfold no_nul in H. cbn [all] in H. apply andb_true_iff in H.
  destruct H as [Hc H]. apply negb_true_iff in Hc. simpl. rewrite Hc. f_equal. apply IH, H.
Qed.
Lemma cut_nul_id : forall a, no_nul a = true -> cut_nul a = a.
Proof. intros a H. rewrite <- (append_nil_r a) at 1. rewrite cut_nul_app by exact H. simpl. apply append_nil_r. Qed.

Lemma no_nul_app : forall a b, no_nul (a ++ b) = no_nul a && no_nul b.
Proof. intros. apply all_app. Qed.
Lemma all_impl : forall p q s, (forall a, p a = true -> q a = true) -> all p s = true -> all q s = true.
Proof.
  induction s as [|a s IH]; intros H1 H2; [reflexivity|]. cbn [all] in *. apply andb_true_iff in H2.
  destruct H2 as [A B]. rewrite (H1 a A), (IH H1 B). reflexivity.
Qed.
Lemma plain_no_nul : forall s, plain_text s = true -> no_nul s = true.
Proof.
  intros s H. revert H. apply all_impl. intros a Ha. apply negb_true_iff in Ha. apply special_false in Ha.
  destruct Ha as (_ & _ & _ & Ha). rewrite Ha. reflexivity.
Qed.
Lemma digits_no_nul : forall s, all is_digit s = true -> no_nul s = true.
Proof. intro s. apply all_impl. intros [[] [] [] [] [] [] [] []] H; try discriminate H; reflexivity. Qed.
Lemma letters_no_nul : forall s, all is_letter s = true -> no_nul s = true.
Proof. intro s. apply all_impl. intros [[] [] [] [] [] [] [] []] H; try discriminate H; reflexivity. Qed.
Lemma name_no_nul : forall s, wf_name s = true -> no_nul s = true.
Proof. intros s H. unfold wf_name in H. apply andb_true_iff in H. apply letters_no_nul, H. Qed.
Lemma quote_no_nul : forall q, is_quote q = true -> Ascii.eqb q nul = false.
Proof. intros [[] [] [] [] [] [] [] []] H; try discriminate H; reflexivity. Qed.
Lemma body_no_nul : forall q b, is_quote q = true -> body_ok q b = true -> no_nul b = true.
Proof.
  intros q b Hq. remember (String.length b) as k eqn:Hk. revert b Hk.
  induction k as [k IH] using lt_wf_ind. intros b Hk H. subst k. pose proof (quote_no_nul q Hq) as Qn.
  destruct b as [|a b]; [reflexivity|]. cbn [body_ok] in H. unfold no_nul. cbn [all].
  destruct (Ascii.eqb a q) eqn:Ea.
  - apply andb_true_iff in H. destruct H as [_ H]. destruct b as [|c b]; [discriminate|].
    apply andb_true_iff in H. destruct H as [Hc H]. apply Ascii.eqb_eq in Ea, Hc. subst a c. cbn [all]. rewrite Qn. simpl.
    apply (IH (String.length b) ltac:(simpl; lia) b eq_refl H).
  - apply andb_true_iff in H. destruct H as [Ha H]. rewrite Ha. simpl.
    apply (IH (String.length b) ltac:(simpl; lia) b eq_refl H).
Qed.
Lemma doubled_no_nul : forall s, no_nul s = true -> no_nul (doubled s) = true.
Proof. intros s H. apply (body_no_nul "'"); [reflexivity|]. apply doubled_body, H. Qed.
Lemma arg_no_nul : forall a, wf_arg a = true -> no_nul (print_arg a) = true.
Proof.
  intros [s|n|[]|] H; try reflexivity.
  - cbn [print_arg]. rewrite !no_nul_app. simpl in H. rewrite (doubled_no_nul s H). reflexivity.
  - apply digits_no_nul, dec_digits.
Qed.
Lemma args_no_nul : forall l, forallb wf_arg l = true -> no_nul (sep_args l) = true.
Proof.
  induction l as [|a l IH]; intro H; [reflexivity|]. cbn [forallb] in H. apply andb_true_iff in H. destruct H as [Ha H].
  destruct l as [|b l].
  - apply arg_no_nul, Ha.
  - change (sep_args (a :: b :: l)) with (print_arg a ++ ", " ++ sep_args (b :: l)).
    rewrite !no_nul_app. rewrite (arg_no_nul a Ha), (IH H). reflexivity.
Qed.
Lemma part_no_nul : forall p, wf1 p = true -> no_nul (print1 p) = true.
Proof.
  intros [t|d|q b| |n|nm args|nm n|nm] H; cbn [wf1] in H; cbn [print1].
  - apply plain_no_nul, H.
  - destruct d; reflexivity.
  - apply andb_true_iff in H. destruct H as [H1 H2].
    change (no_nul (String q (b ++ String q ""))) with (negb (Ascii.eqb q nul) && no_nul (b ++ String q "")).
    rewrite no_nul_app. rewrite (body_no_nul q b H1 H2). unfold no_nul. simpl. rewrite (quote_no_nul q H1). reflexivity.
  - reflexivity.
  - rewrite no_nul_app, (digits_no_nul _ (dec_digits n)). reflexivity.
  - apply andb_true_iff in H. destruct H as [H1 H2]. rewrite !no_nul_app, (name_no_nul nm H1), (args_no_nul args H2). reflexivity.
  - apply andb_true_iff in H. destruct H as [H1 H2]. rewrite !no_nul_app, (name_no_nul nm H1), (digits_no_nul _ (dec_digits n)). reflexivity.
  - rewrite no_nul_app, (name_no_nul nm H). reflexivity.
Qed.
Lemma parts_no_nul : forall l x, wf_at l x = true -> no_nul (print l) = true.
Proof.
  induction l as [|p l IH]; intros x H; [reflexivity|]. cbn [wf_at] in H.
  apply andb_true_iff in H. destruct H as [H Hl]. apply andb_true_iff in H. destruct H as [Hp _].
  cbn [print]. rewrite no_nul_app, (part_no_nul p Hp), (IH x Hl). reflexivity.
Qed.

(** Conditions on the following text do not depend on what comes after a NUL. *)
Lemma starts_cut : forall p s, p nul = false -> starts p (cut_nul s) = starts p s.
Proof.
  intros p [|a s] H; [reflexivity|]. simpl. destruct (Ascii.eqb a nul) eqn:E; [|reflexivity].
  apply Ascii.eqb_eq in E. subst a. symmetry. exact H.
Qed.
Lemma plain_start_cut : forall s, plain_start s = true -> plain_start (cut_nul s) = true.
Proof.
  intros [|a s] H; [reflexivity|]. simpl. destruct (Ascii.eqb a nul) eqn:E; [reflexivity|].
  simpl in *. destruct (is_mark a) eqn:M; [|exact H]. rewrite starts_cut; [exact H|].
  rewrite Ascii.eqb_sym. exact E.
Qed.
Lemma follow_cut : forall p s, follow p s = true -> follow p (cut_nul s) = true.
Proof.
  intros [t|d|q b| |n|nm args|nm n|nm] s H; cbn [follow] in *; try reflexivity; rewrite starts_cut by reflexivity; try exact H.
  apply andb_true_iff in H. destruct H as [H1 H2]. rewrite H1, (plain_start_cut s H2). reflexivity.
Qed.
Lemma wf_at_cut : forall l x, wf_at l x = true -> wf_at l (cut_nul x) = true.
Proof.
  induction l as [|p l IH]; intros x H; [reflexivity|]. cbn [wf_at] in *.
  apply andb_true_iff in H. destruct H as [H Hl]. apply andb_true_iff in H. destruct H as [Hp Hf].
  rewrite Hp, (IH x Hl), andb_true_r. simpl. rewrite <- cut_nul_app by (eapply parts_no_nul; exact Hl).
  apply follow_cut, Hf.
Qed.

(** The parts in front of any text. *)
Lemma parsed_parts : forall l x, wf_at l x = true ->
  parsed (print l ++ x) =
  if style_ok false l
  then option_map (ncat (denote 0 l)) (np (binds l) (style_after 0 l) (cut_nul x))
  else None.
Proof.
  intros l x H. rewrite parsed_np, cut_nul_app by (eapply parts_no_nul; exact H).
  rewrite np_parts by (auto; apply wf_at_cut, H). rewrite Z.add_0_l. reflexivity.
Qed.

Lemma np_empty : forall idx st, np idx st "" = Some [].
Proof. intros. reflexivity. Qed.

Lemma parsed_print : forall l, wf l = true ->
  parsed (print l) = if style_ok false l then Some (norm (denote 0 l)) else None.
Proof.
  intros l H. rewrite <- (append_nil_r (print l)). rewrite parsed_parts by exact H.
  destruct (style_ok false l); [|reflexivity]. simpl cut_nul. rewrite np_empty. simpl. rewrite ncat_nil. reflexivity.
Qed.

(* ------------------------------------------------------------------ *)
(** * Rejected forms *)

Lemma tk_plain_first : forall s, exists t ts, tk MPlain s = t :: ts /\ a_typ t <> TkLiteral /\
  a_typ t <> TkName.
Proof.
  intro s. rewrite tk_plain. destruct (bplain s) as [t r]. cbn [fst snd]. unfold tk_rest, a_plain.
  destruct t as [|a t]; cbn [is_empty]; cbv iota; cbn [app].
  - destruct r as [|c r]; [do 2 eexists; split; [reflexivity|]; split; discriminate|].
    destruct (Ascii.eqb c "#"); [do 2 eexists; split; [reflexivity|]; split; discriminate|].
    destruct (is_mark c); [do 2 eexists; split; [reflexivity|]; split; discriminate|].
    destruct (bquote c r) as [[b r1] cl]. do 2 eexists; split; [reflexivity|]; split; discriminate.
  - destruct r as [|c r]; [do 2 eexists; split; [reflexivity|]; split; discriminate|].
    destruct (Ascii.eqb c "#"); [do 2 eexists; split; [reflexivity|]; split; discriminate|].
    destruct (is_mark c); [do 2 eexists; split; [reflexivity|]; split; discriminate|].
    destruct (bquote c r) as [[b r1] cl]. do 2 eexists; split; [reflexivity|]; split; discriminate.
Qed.

Lemma np_bare_hash : forall s idx st, starts is_letter s = false -> np idx st (String "#" s) = None.
Proof.
  intros s idx st H. unfold np. rewrite tk_plain. cbn [bplain]. change (is_mark "#") with false.
  change (Ascii.eqb "#" "#") with true. cbn [orb]. cbn [fst snd tk_rest].
  change (Ascii.eqb "#" "#") with true. cbv iota. cbn [a_plain is_empty app].
  assert (Sp : span is_letter s = ("", s)) by apply (span_stop is_letter "" s eq_refl H).
  rewrite Sp. cbn [is_empty]. cbn [ap a_typ].
  destruct (tk_plain_first s) as (t & ts & Et & _ & H2). rewrite Et. cbn [ap].
  destruct (a_typ t); try reflexivity. congruence.
Qed.

Lemma np_bare_dollar : forall s idx st, starts (fun a => Ascii.eqb a "$" || is_digit19 a) s = false ->
  np idx st (String "$" s) = None.
Proof.
  intros s idx st H. unfold np. rewrite tk_plain.
  assert (B : bplain (String "$" s) = ("", String "$" s)).
  { simpl. destruct s as [|a s]; [reflexivity|]. simpl in H. apply orb_false_iff in H. destruct H as [H _].
    rewrite H. reflexivity. }
  rewrite B. cbn [fst snd tk_rest]. change (Ascii.eqb "$" "#") with false. change (is_mark "$") with true.
  cbv iota. cbn [a_plain is_empty app].
  assert (T : (match s with
         | String d _ => if is_digit19 d then let (ds, r1) := span is_digit s in a_num ds :: tk MPlain r1 else tk MPlain s
         | "" => tk MPlain s end) = tk MPlain s).
  { destruct s as [|a s]; [reflexivity|]. simpl in H. apply orb_false_iff in H. destruct H as [_ H]. rewrite H. reflexivity. }
  rewrite T. cbn [ap a_typ a_lit]. change ("$" =? "?")%string with false. cbv iota zeta.
  destruct ((if (st =? 0)%Z then style_dollar else st) =? style_dollar)%Z; [|reflexivity].
  change (style_dollar =? style_question)%Z with false. cbv iota.
  destruct (tk_plain_first s) as (t & ts & Et & H2 & _). rewrite Et. cbn [ap].
  destruct (a_typ t); try reflexivity. congruence.
Qed.

Lemma np_dollar_big : forall n s idx st, (18446744073709551616 <= n)%N -> starts is_digit s = false ->
  np idx st (String "$" (dec n ++ s)) = None.
Proof.
  intros n s idx st H1 H3. unfold np at 1.
  rewrite (tk_dollar (dec n) s) by (first [apply dec_head; lia|apply dec_digits|exact H3]).
  cbn [ap a_typ a_lit]. change ("$" =? "?")%string with false. cbv iota.
  change (style_dollar =? style_question)%Z with false. cbv iota.
  destruct ((if (st =? 0)%Z then style_dollar else st) =? style_dollar)%Z; [|reflexivity].
  unfold a_num. cbn [a_kind a_typ a_lit]. rewrite parse_uint64_dec_big by lia. reflexivity.
Qed.

Lemma rejected_after : forall l x, wf_at l x = true ->
  (forall idx st, np idx st (cut_nul x) = None) -> rejected (print l ++ x).
Proof.
  intros l x H1 H2. apply rejected_parsed. rewrite parsed_parts by exact H1. rewrite H2.
  destruct (style_ok false l); reflexivity.
Qed.

Lemma bare_hash_rejected : forall l x, wf_at l (String "#" x) = true -> starts is_letter x = false ->
  rejected (print l ++ String "#" x).
Proof.
  intros l x H1 H2. apply rejected_after; [exact H1|]. intros idx st. simpl. apply np_bare_hash.
  rewrite starts_cut by reflexivity. exact H2.
Qed.

Lemma bare_dollar_rejected : forall l x, wf_at l (String "$" x) = true ->
  starts (fun a => Ascii.eqb a "$" || is_digit19 a) x = false -> rejected (print l ++ String "$" x).
Proof.
  intros l x H1 H2. apply rejected_after; [exact H1|]. intros idx st. simpl. apply np_bare_dollar.
  rewrite starts_cut by reflexivity. exact H2.
Qed.

Lemma big_dollar_rejected : forall l n x, wf_at l ("$" ++ dec n ++ x) = true ->
  (18446744073709551616 <= n)%N -> starts is_digit x = false -> rejected (print l ++ "$" ++ dec n ++ x).
Proof.
  intros l n x H1 H2 H3. apply rejected_after; [exact H1|]. intros idx st.
  change ("$" ++ dec n ++ x) with (("$" ++ dec n) ++ x).
  rewrite cut_nul_app by (rewrite no_nul_app, (digits_no_nul _ (dec_digits n)); reflexivity).
  change (("$" ++ dec n) ++ cut_nul x) with (String "$" (dec n ++ cut_nul x)).
  apply np_dollar_big; [exact H2|]. rewrite starts_cut by reflexivity. exact H3.
Qed.

(** Both spellings of a one-number call. *)
Lemma np_indexed_bad : forall nm ds s idx st, wf_name nm = true -> ds <> "" -> all is_digit ds = true ->
  parse_float ds = None -> starts is_digit s = false ->
  np idx st (String "#" (nm ++ ds ++ s)) = None.
Proof.
  intros nm ds s idx st H1 H2 H3 H4 H5. unfold np at 1.
  rewrite tk_hash by (try exact H1; apply starts_app_digits; assumption).
  rewrite (span_stop is_digit ds s H3 H5). destruct ds as [|d ds]; [congruence|]. cbn [is_empty].
  cbn [ap a_typ a_lit a_kind a_num]. rewrite H4. reflexivity.
Qed.

Lemma np_call_digits : forall nm ds s idx st, wf_name nm = true -> ds <> "" -> all is_digit ds = true ->
  np idx st (String "#" (nm ++ String "(" (ds ++ String ")" s))) =
  match parse_float ds with
  | Some f => ocons (ACall nm [LNum f]) (np idx st s)
  | None => None
  end.
Proof.
  intros nm ds s idx st H1 H2 H3. unfold np at 1. rewrite tk_hash by (try exact H1; reflexivity).
  cbn [span]. change (is_digit "(") with false. cbv iota. cbn [is_empty].
  change (Ascii.eqb "(" "(") with true. cbv iota. cbn [ap a_typ a_lit].
  destruct ds as [|c ds]; [congruence|].
  assert (Dc : is_digit c = true) by (cbn [all] in H3; apply andb_true_iff in H3; tauto).
  destruct (digit_ascii c Dc) as (K1 & K2 & K3 & K4 & K5).
  change (String c ds ++ String ")" s) with (String c (ds ++ String ")" s)).
  rewrite tk_args, trim_left_nonspace by assumption. rewrite K3, K4, K5.
  change (String c (ds ++ String ")" s)) with (String c ds ++ String ")" s).
  rewrite (span_stop is_word (String c ds) (String ")" s) (digit_word _ H3) eq_refl).
  destruct (parse_float (String c ds)) as [f|] eqn:P.
  - rewrite (a_word_num _ _ H2 H3 P). cbn [ap a_typ a_num a_value a_bad a_kind a_lit]. unfold a_num, a_value. cbn [a_typ a_bad a_kind a_lit].
    rewrite P. cbn [option_map app]. rewrite tk_args_rparen. cbn [ap a_typ]. apply ocons_np. discriminate.
  - unfold a_word. rewrite P.
    assert (K : Ascii.eqb c "t" = false /\ Ascii.eqb c "f" = false /\ Ascii.eqb c "n" = false).
    { clear -Dc. destruct c as [[] [] [] [] [] [] [] []]; try discriminate Dc; repeat split; reflexivity. }
    destruct K as (Q1 & Q2 & Q3). cbn [String.eqb]. rewrite Q1, Q2, Q3. reflexivity.
Qed.

Lemma indexed_is_call : forall l nm ds x, wf_name nm = true -> ds <> "" -> all is_digit ds = true ->
  starts is_digit x = false ->
  wf_at l ("#" ++ nm ++ ds ++ x) = true ->
  parsed (print l ++ "#" ++ nm ++ ds ++ x) = parsed (print l ++ "#" ++ nm ++ "(" ++ ds ++ ")" ++ x).
Proof.
  intros l nm ds x H1 H2 H3 H4 H5.
  assert (W : wf_at l ("#" ++ nm ++ "(" ++ ds ++ ")" ++ x) = true).
  { clear -H5. revert H5. generalize (nm ++ ds ++ x) as u. generalize (nm ++ "(" ++ ds ++ ")" ++ x) as v. intros v u.
    induction l as [|p l IH]; intro H; [reflexivity|]. cbn [wf_at] in *.
    apply andb_true_iff in H. destruct H as [H Hl]. apply andb_true_iff in H. destruct H as [Hp Hf].
    rewrite Hp, (IH Hl), andb_true_r. simpl. destruct p; cbn [follow] in *; try reflexivity;
      destruct (print l) as [|a [|b r]]; exact Hf. }
  rewrite !parsed_parts by assumption. destruct (style_ok false l); [|reflexivity]. f_equal.
  change ("#" ++ nm ++ ds ++ x) with (String "#" (nm ++ ds ++ x)).
  change ("#" ++ nm ++ "(" ++ ds ++ ")" ++ x) with (String "#" (nm ++ String "(" (ds ++ String ")" x))).
  cbn [cut_nul]. change (Ascii.eqb "#" nul) with false. cbv iota.
  rewrite !(cut_nul_app nm) by (apply name_no_nul, H1). cbn [cut_nul]. change (Ascii.eqb "(" nul) with false. cbv iota.
  rewrite !(cut_nul_app ds) by (apply digits_no_nul, H3). cbn [cut_nul]. change (Ascii.eqb ")" nul) with false. cbv iota.
  rewrite np_call_digits by assumption.
  assert (H4' : starts is_digit (cut_nul x) = false) by (rewrite starts_cut by reflexivity; exact H4).
  destruct (parse_float ds) as [f|] eqn:P.
  - apply np_indexed; assumption.
  - apply np_indexed_bad; assumption.
Qed.

(* ------------------------------------------------------------------ *)
(** * Function values followed by a reference *)

Lemma span_name : forall nm s, wf_name nm = true -> starts is_letter s = false -> span is_letter (nm ++ s) = (nm, s).
Proof. intros nm s H1 H2. unfold wf_name in H1. apply andb_true_iff in H1. apply span_stop; tauto. Qed.

Lemma func_hash_rejected : forall f g x, wf_name f = true -> wf_name g = true ->
  rejected ("#" ++ f ++ "#" ++ g ++ x).
Proof.
  intros f g x Hf Hg. apply (rejected_after [] _ eq_refl). intros idx st.
  change ("#" ++ f ++ "#" ++ g ++ x) with (String "#" (f ++ String "#" (g ++ x))).
  cbn [cut_nul append]. change (Ascii.eqb "#" nul) with false. cbv iota.
  rewrite (cut_nul_app f) by (apply name_no_nul, Hf). cbn [cut_nul append]. change (Ascii.eqb "#" nul) with false. cbv iota.
  rewrite (cut_nul_app g) by (apply name_no_nul, Hg). generalize (cut_nul x) as y. intro y.
  unfold np. rewrite tk_hash by (try exact Hf; reflexivity).
  cbn [span]. change (is_digit "#") with false. cbv iota. cbn [is_empty].
  change (Ascii.eqb "#" "(") with false. cbv iota. rewrite tk_plain. cbn [bplain]. change (is_mark "#") with false.
  change (Ascii.eqb "#" "#") with true. cbn [orb]. cbn [fst snd tk_rest].
  change (Ascii.eqb "#" "#") with true. cbv iota. cbn [a_plain is_empty app].
  destruct (span is_letter (g ++ y)) as [nm r1] eqn:E.
  assert (is_empty nm = false).
  { unfold wf_name in Hg. apply andb_true_iff in Hg. destruct Hg as [G1 G2]. destruct g as [|a g]; [discriminate|].
    cbn [all] in G2. apply andb_true_iff in G2. destruct G2 as [G2 _]. simpl in E. rewrite G2 in E.
    destruct (span is_letter (g ++ y)). injection E as <- _. reflexivity. }
  rewrite H. cbn [ap a_typ a_lit]. reflexivity.
Qed.

Lemma func_dollar_rejected : forall f n x, wf_name f = true -> (1 <= n)%N -> rejected ("#" ++ f ++ "$" ++ dec n ++ x).
Proof.
  intros f n x Hf Hn. apply (rejected_after [] _ eq_refl). intros idx st.
  change ("#" ++ f ++ "$" ++ dec n ++ x) with (String "#" (f ++ String "$" (dec n ++ x))).
  cbn [cut_nul append]. change (Ascii.eqb "#" nul) with false. cbv iota.
  rewrite (cut_nul_app f) by (apply name_no_nul, Hf). cbn [cut_nul append]. change (Ascii.eqb "$" nul) with false. cbv iota.
  rewrite (cut_nul_app (dec n)) by (apply digits_no_nul, dec_digits). generalize (cut_nul x) as y. intro y.
  unfold np. rewrite tk_hash by (try exact Hf; reflexivity).
  cbn [span]. change (is_digit "$") with false. cbv iota. cbn [is_empty].
  change (Ascii.eqb "$" "(") with false. cbv iota. rewrite tk_plain.
  pose proof (dec_head n Hn) as Hd. destruct (dec n) as [|d ds]; [discriminate|]. simpl in Hd.
  destruct (digit19_not_mark d Hd) as [K1 K2].
  cbn [append bplain]. change (is_mark "$") with true. cbv iota. rewrite K1. cbn [fst snd tk_rest].
  change (Ascii.eqb "$" "#") with false. change (is_mark "$") with true. cbv iota. rewrite Hd.
  destruct (span is_digit (String d (ds ++ y))) as [w r]. cbn [a_plain is_empty app ap a_typ a_lit a_num]. reflexivity.
Qed.

Lemma func_quest_plain : forall f x, wf_name f = true -> no_nul x = true ->
  starts (fun a => Ascii.eqb a "?" || is_digit19 a) x = false ->
  parsed ("#" ++ f ++ "?" ++ x) = option_map (fun es => AFunc f :: cons_text "?" es) (parsed x).
Proof.
  intros f x Hf Hx Hq. rewrite !parsed_np. rewrite (cut_nul_id x Hx).
  rewrite cut_nul_id by (rewrite !no_nul_app, (name_no_nul f Hf), Hx; reflexivity).
  change ("#" ++ f ++ "?" ++ x) with (String "#" (f ++ String "?" x)).
  unfold np at 1. rewrite tk_hash by (try exact Hf; reflexivity).
  cbn [span]. change (is_digit "?") with false. cbv iota. cbn [is_empty].
  change (Ascii.eqb "?" "(") with false. cbv iota. rewrite tk_plain.
  assert (B : bplain (String "?" x) = ("", String "?" x)).
  { simpl. destruct x as [|a x]; [reflexivity|]. simpl in Hq. apply orb_false_iff in Hq. destruct Hq as [Hq _].
    rewrite Hq. reflexivity. }
  rewrite B. cbn [fst snd tk_rest]. change (Ascii.eqb "?" "#") with false. change (is_mark "?") with true.
  cbv iota. cbn [a_plain is_empty app].
  assert (T : (match x with
         | String d _ => if is_digit19 d then let (ds, r1) := span is_digit x in a_num ds :: tk MPlain r1 else tk MPlain x
         | "" => tk MPlain x end) = tk MPlain x).
  { destruct x as [|a x]; [reflexivity|]. simpl in Hq. apply orb_false_iff in Hq. destruct Hq as [_ Hq]. rewrite Hq. reflexivity. }
  rewrite T. cbn [ap a_typ a_lit]. unfold np. destruct (ap PTop 0 0 (tk MPlain x)); reflexivity.
Qed.

(* ------------------------------------------------------------------ *)
(** * Bind variables of the result *)

Lemma abinds_cons_text : forall t es, abinds (cons_text t es) = abinds es.
Proof. intros t [|[u| | |] es]; simpl; destruct t; reflexivity. Qed.
Lemma abinds_norm : forall es, abinds (norm es) = abinds es.
Proof.
  induction es as [|[u| | |] es IH]; simpl; rewrite ?abinds_cons_text; rewrite ?IH; auto.
Qed.

Lemma quest_ordinals : forall l k, existsb is_dollar l = false ->
  abinds (denote k l) = map (ABind style_question) (count_from k (quests l)).
Proof.
  induction l as [|p l IH]; intros k H; [reflexivity|]. simpl in H. apply orb_false_iff in H. destruct H as [Hp H].
  destruct p; try discriminate Hp; simpl; unfold quests in *; simpl; try (apply IH; exact H).
  f_equal. apply IH. exact H.
Qed.
Lemma dollar_indexes : forall l k, existsb is_quest l = false ->
  abinds (denote k l) = map (fun n => ABind style_dollar (Z.of_N n)) (dollars l).
Proof.
  induction l as [|p l IH]; intros k H; [reflexivity|]. simpl in H. apply orb_false_iff in H. destruct H as [Hp H].
  destruct p; try discriminate Hp; simpl; try (apply IH; exact H). f_equal. apply IH. exact H.
Qed.
Lemma style_ok_quest : forall l b, existsb is_dollar l = false -> style_ok b l = true.
Proof. induction l as [|[] l IH]; intros b H; simpl in *; try discriminate; auto. Qed.
Lemma style_ok_dollar : forall l, existsb is_quest l = false -> style_ok false l = true.
Proof. induction l as [|[] l IH]; intros H; simpl in *; try discriminate; auto. Qed.

Lemma parsed_quests : forall l, wf l = true -> existsb is_dollar l = false ->
  exists es, parsed (print l) = Some es /\ abinds es = map (ABind style_question) (count_from 0 (quests l)).
Proof.
  intros l H1 H2. rewrite parsed_print by exact H1. rewrite style_ok_quest by exact H2. eexists. split; [reflexivity|].
  rewrite abinds_norm. apply quest_ordinals, H2.
Qed.
Lemma parsed_dollars : forall l, wf l = true -> existsb is_quest l = false ->
  exists es, parsed (print l) = Some es /\ abinds es = map (fun n => ABind style_dollar (Z.of_N n)) (dollars l).
Proof.
  intros l H1 H2. rewrite parsed_print by exact H1. rewrite style_ok_dollar by exact H2. eexists. split; [reflexivity|].
  rewrite abinds_norm. apply dollar_indexes, H2.
Qed.

Lemma parsed_mixed : forall l, wf l = true -> style_ok false l = false -> rejected (print l).
Proof. intros l H1 H2. apply rejected_parsed. rewrite parsed_print by exact H1. rewrite H2. reflexivity. Qed.

Lemma parsed_roundtrip : forall l, wf l = true -> style_ok false l = true ->
  parsed (print l) = Some (norm (denote 0 l)).
Proof. intros l H1 H2. rewrite parsed_print by exact H1. rewrite H2. reflexivity. Qed.

Lemma inert_wf : forall l, forallb is_inert l = true -> forallb wf1 l = true -> wf l = true.
Proof.
  unfold wf. induction l as [|p l IH]; intros H1 H2; [reflexivity|]. cbn [forallb] in *.
  apply andb_true_iff in H1, H2. destruct H1 as [A1 A2], H2 as [B1 B2]. cbn [wf_at]. rewrite B1, (IH A2 B2).
  destruct p; try discriminate A1; reflexivity.
Qed.
Lemma inert_denote : forall l k, forallb is_inert l = true -> norm (denote k l) = cons_text (print l) [].
Proof.
  induction l as [|p l IH]; intros k H; [reflexivity|]. cbn [forallb] in H. apply andb_true_iff in H. destruct H as [H1 H2].
  cbn [print]. rewrite cons_text_app, <- (IH k H2). destruct p; try discriminate H1; reflexivity.
Qed.
Lemma inert_style : forall l b, forallb is_inert l = true -> style_ok b l = true.
Proof. induction l as [|[] l IH]; intros b H; simpl in *; try discriminate; auto. Qed.
Lemma parsed_inert : forall l, forallb is_inert l = true -> forallb wf1 l = true ->
  parsed (print l) = Some (cons_text (print l) []).
Proof.
  intros l H1 H2. rewrite parsed_print by (apply inert_wf; assumption). rewrite inert_style by exact H1.
  rewrite inert_denote by exact H1. reflexivity.
Qed.

Lemma parsed_quoted : forall q b x, is_quote q = true -> body_ok q b = true ->
  parsed (String q (b ++ String q x)) = option_map (cons_text (String q (b ++ String q ""))) (parsed x).
Proof.
  intros q b x Hq Hb. rewrite !parsed_np. cbn [cut_nul]. rewrite (quote_no_nul q Hq).
  rewrite cut_nul_app by (eapply body_no_nul; eassumption). cbn [cut_nul]. rewrite (quote_no_nul q Hq).
  apply np_quoted; assumption.
Qed.

Lemma parsed_nul : forall s x, parsed (s ++ String nul x) = parsed s.
Proof.
  intros s x. rewrite !parsed_np. f_equal. induction s as [|a s IH]; [reflexivity|]. simpl.
  destruct (Ascii.eqb a nul); [reflexivity|]. f_equal. exact IH.
Qed.

Lemma parsed_string_arg : forall nm s, wf_name nm = true -> no_nul s = true ->
  parsed ("#" ++ nm ++ "('" ++ doubled s ++ "')") = Some [ACall nm [LStr s]].
Proof.
  intros nm s H1 H2. assert (W : wf [Call nm [SStr s]] = true).
  { unfold wf. simpl. rewrite H1, H2. reflexivity. }
  replace ("#" ++ nm ++ "('" ++ doubled s ++ "')") with (print [Call nm [SStr s]]).
  - rewrite parsed_print by exact W. reflexivity.
  - cbn [print print1]. unfold sep_args. cbn [map str_join print_arg]. rewrite append_nil_r.
    cbn [append]. rewrite !append_assoc. reflexivity.
Qed.
