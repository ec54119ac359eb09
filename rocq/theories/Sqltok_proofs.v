(** Proofs for Prop_sqltok.v: interpolated values read back as one literal each. *)
From Coq Require Import Strings.String Strings.Ascii NArith ZArith List Bool Lia Floats.SpecFloat.
From Verif Require Import GoStr GoNum Syntax Value Util Spec_syntax Lex_proofs Grammar_proofs Base_proofs Num_proofs Spec_util Util_proofs Spec_sqltok.
Import ListNotations.
Open Scope string_scope.
Open Scope list_scope.

(** ** Reading text in pieces *)
Lemma feed_app : forall bs a p b, feed bs p (a ++ b)%string =
  (fst (feed bs (fst (feed bs p a)) b), snd (feed bs p a) ++ snd (feed bs (fst (feed bs p a)) b)).
Proof.
  intros bs. induction a as [|c a IH]; intros p b; [cbn [append feed fst snd app]; apply surjective_pairing|].
  cbn [append feed]. destruct (step bs p c) as [q ts]. rewrite IH.
  destruct (feed bs q a) as [r us]. cbn [fst snd]. rewrite app_assoc. reflexivity.
Qed.
Lemma tokens_eq : forall bs s, tokens bs s = snd (feed bs Between s) ++ finish (fst (feed bs Between s)).
Proof. intros bs s. unfold tokens. destruct (feed bs Between s). reflexivity. Qed.
Lemma tokens_leaves : forall bs t r, leaves bs t -> tokens bs (t ++ r)%string = tokens bs t ++ tokens bs r.
Proof.
  intros bs t r H. unfold leaves in H. rewrite !tokens_eq, feed_app, H. cbn [fst snd finish]. rewrite app_nil_r, app_assoc. reflexivity.
Qed.

(** ** Where a value leaves off *)
Definition settles (bs : bool) (p : place) (rest : list token) : Prop :=
  finish p = rest /\ forall c, separates c = true -> step bs p c = (fst (begin c), rest ++ snd (begin c)).
Definition reads (bs : bool) (s : string) (ts : list token) : Prop :=
  exists out rest, settles bs (fst (feed bs Between s)) rest /\ snd (feed bs Between s) = out /\ ts = out ++ rest.
Lemma reads_text : forall bs s ts r, reads bs s ts -> (r = ""%string \/ starts separates r = true) ->
  tokens bs (s ++ r)%string = ts ++ tokens bs r.
Proof.
  intros bs s ts r (out & rest & [F St] & O & ->) H. rewrite !tokens_eq, feed_app. cbn [fst snd]. rewrite O.
  destruct r as [|c r].
  - cbn [feed fst snd finish app]. rewrite F, !app_nil_r. reflexivity.
  - destruct H as [H|H]; [discriminate|]. cbn [starts] in H. cbn [feed]. rewrite (St c H). cbn [step].
    destruct (begin c) as [q us]. cbn [fst snd]. destruct (feed bs q r) as [z ws]. cbn [fst snd]. rewrite <- !app_assoc. reflexivity.
Qed.
Lemma sep_false : forall c, separates c = true -> in_word c = false /\ in_num c = false /\ Ascii.eqb c "'" = false.
Proof. intros c H. unfold separates in H. apply negb_true_iff in H. apply orb_false_iff in H. destruct H as [H Q]. apply orb_false_iff in H. tauto. Qed.
Lemma settles_word : forall bs a, settles bs (InWord a) [TWord a].
Proof. intros bs a. split; [reflexivity|]. intros c H. apply sep_false in H. destruct H as (H & _ & _). cbn [step]. rewrite H. reflexivity. Qed.
Lemma settles_num : forall bs a, settles bs (InNum a) [TNum a].
Proof. intros bs a. split; [reflexivity|]. intros c H. apply sep_false in H. destruct H as (_ & H & _). cbn [step]. rewrite H. reflexivity. Qed.
Lemma settles_str : forall bs a, settles bs (EndStr a) [TStr a].
Proof. intros bs a. split; [reflexivity|]. intros c H. apply sep_false in H. destruct H as (_ & _ & H). cbn [step]. rewrite H. reflexivity. Qed.
Lemma reads_by : forall bs s p out rest, feed bs Between s = (p, out) -> settles bs p rest -> reads bs s (out ++ rest).
Proof. intros bs s p out rest E St. exists out, rest. rewrite E. auto. Qed.

(** ** Words *)
Lemma reads_null : forall bs, reads bs "NULL" [TWord "NULL"].
Proof. intros bs. apply (reads_by bs "NULL" (InWord "NULL") [] [TWord "NULL"]); [reflexivity|apply settles_word]. Qed.
Lemma reads_true : forall bs, reads bs "TRUE" [TWord "TRUE"].
Proof. intros bs. apply (reads_by bs "TRUE" (InWord "TRUE") [] [TWord "TRUE"]); [reflexivity|apply settles_word]. Qed.
Lemma reads_false : forall bs, reads bs "FALSE" [TWord "FALSE"].
Proof. intros bs. apply (reads_by bs "FALSE" (InWord "FALSE") [] [TWord "FALSE"]); [reflexivity|apply settles_word]. Qed.
Lemma reads_nan : forall bs, reads bs "NaN" [TWord "NaN"].
Proof. intros bs. apply (reads_by bs "NaN" (InWord "NaN") [] [TWord "NaN"]); [reflexivity|apply settles_word]. Qed.
Lemma reads_inf : forall bs c, c = "+"%char \/ c = "-"%char -> reads bs (String c "Inf") [TOp c; TWord "Inf"].
Proof.
  intros bs c [->| ->].
  - apply (reads_by bs "+Inf" (InWord "Inf") [TOp "+"] [TWord "Inf"]); [reflexivity|apply settles_word].
  - apply (reads_by bs "-Inf" (InWord "Inf") [TOp "-"] [TWord "Inf"]); [reflexivity|apply settles_word].
Qed.

(** ** Numbers *)
Lemma snoc_app : forall a c s, (snoc a c ++ s)%string = (a ++ String c s)%string.
Proof. intros a c s. unfold snoc. rewrite append_assoc. reflexivity. Qed.
Lemma feed_num : forall bs s a, all in_num s = true -> feed bs (InNum a) s = (InNum (a ++ s)%string, []).
Proof.
  intros bs. induction s as [|c s IH]; intros a H; [cbn [feed]; rewrite append_nil_r; reflexivity|].
  cbn [all] in H. apply andb_prop in H. destruct H as [Hc H]. cbn [feed step]. rewrite Hc, (IH _ H), snoc_app. reflexivity.
Qed.
Lemma digit_begin : forall c, is_digit c = true -> begin c = (InNum (String c ""), []) /\ step false AtDash c = (InNum (String c ""), [TOp "-"]).
Proof.
  intros c H.
  assert (B : begin c = (InNum (String c ""), [])).
  { unfold begin. rewrite H. destruct c as [[] [] [] [] [] [] [] []]; try discriminate H; reflexivity. }
  split; [exact B|]. cbn [step]. unfold after. rewrite B.
  destruct c as [[] [] [] [] [] [] [] []]; try discriminate H; reflexivity.
Qed.
Lemma feed_unsigned : forall bs d, starts is_digit d = true -> all in_num d = true -> feed bs Between d = (InNum d, []).
Proof.
  intros bs [|c d] H A; [discriminate|]. cbn [starts] in H. cbn [all] in A. apply andb_prop in A. destruct A as [_ A].
  cbn [feed step]. rewrite (proj1 (digit_begin c H)), (feed_num bs d _ A). reflexivity.
Qed.
Lemma reads_num : forall bs (neg : bool) d, starts is_digit d = true -> all in_num d = true ->
  reads bs ((if neg then "-" else "") ++ d)%string (signed neg (TNum d)).
Proof.
  intros bs neg d H A. destruct neg.
  - apply (reads_by bs ("-" ++ d)%string (InNum d) [TOp "-"] [TNum d]); [|apply settles_num].
    destruct d as [|c d]; [discriminate|]. cbn [starts] in H. cbn [all] in A. apply andb_prop in A. destruct A as [_ A].
    pose proof (proj2 (digit_begin c H)) as E. cbn [append feed step]. change (begin "-") with (AtDash, @nil token). cbv iota.
    change (step bs AtDash c) with (step false AtDash c). rewrite E, (feed_num bs d _ A). reflexivity.
  - apply (reads_by bs d (InNum d) [] [TNum d]); [apply feed_unsigned; assumption|apply settles_num].
Qed.
Lemma digit_num : forall c, is_digit c = true -> in_num c = true.
Proof. intros c H. unfold in_num. rewrite H, orb_true_r. reflexivity. Qed.
Lemma dec_starts : forall n, starts is_digit (dec n) = true.
Proof. intros n. pose proof (dec_digits n) as D. pose proof (dec_nonempty n) as N. destruct (dec n) as [|c s]; [congruence|]. cbn [all] in D. apply andb_prop in D. apply D. Qed.
Lemma dec_num : forall n, all in_num (dec n) = true.
Proof. intros n. eapply all_impl; [exact digit_num|apply dec_digits]. Qed.
Lemma reads_int : forall bs z, reads bs (itoa z) (signed (z <? 0)%Z (TNum (itoa (Z.abs z)))).
Proof.
  intros bs [|p|p].
  - apply (reads_num bs false (dec 0)); [apply dec_starts|apply dec_num].
  - apply (reads_num bs false (dec (Npos p))); [apply dec_starts|apply dec_num].
  - apply (reads_num bs true (dec (Npos p))); [apply dec_starts|apply dec_num].
Qed.
Lemma starts_app : forall f a b, starts f a = true -> starts f (a ++ b)%string = true.
Proof. intros f [|c a] b H; [discriminate|exact H]. Qed.
Lemma millionths_digits : forall neg M s, millionths neg M s -> exists d, s = ((if neg then "-" else "") ++ d)%string /\ starts is_digit d = true /\ all in_num d = true.
Proof.
  intros neg M s (a & b & -> & Ha & _ & D & _). exists (itoa a ++ "." ++ b)%string.
  assert (E : itoa a = dec (Z.to_N a)) by (unfold dec; rewrite Z2N.id by exact Ha; reflexivity). rewrite E.
  split; [reflexivity|]. split; [apply starts_app, dec_starts|].
  rewrite !all_app, dec_num. cbn [all]. rewrite (all_impl _ _ _ digit_num D). reflexivity.
Qed.
Lemma reads_float : forall bs f s, float_text f s -> exists ts, float_tokens f ts /\ reads bs s ts.
Proof.
  intros bs f s H.
  assert (G : forall neg M, millionths neg M s -> exists ts, float_tokens f ts /\ reads bs s ts).
  { intros neg M K. apply millionths_digits in K. destruct K as (d & -> & D1 & D2). exists (signed neg (TNum d)).
    split; [constructor; assumption|apply reads_num; assumption]. }
  inversion H; subst; eauto.
  - exists [TWord "NaN"]. split; [constructor|apply reads_nan].
  - exists [TOp "+"; TWord "Inf"]. split; [exact (fk_inf false)|apply reads_inf; auto].
  - exists [TOp "-"; TWord "Inf"]. split; [exact (fk_inf true)|apply reads_inf; auto].
Qed.

(** ** Strings *)
Lemma plain_step : forall bs c, plain_char bs c = true -> bs && Ascii.eqb c "\" = false.
Proof. intros bs c H. apply negb_true_iff in H. exact H. Qed.
Lemma feed_doubled : forall bs s a, all (plain_char bs) s = true -> feed bs (InStr a) (doubled s) = (InStr (a ++ s)%string, []).
Proof.
  intros bs. induction s as [|c s IH]; intros a H; [cbn [doubled feed]; rewrite append_nil_r; reflexivity|].
  cbn [all] in H. apply andb_prop in H. destruct H as [Hc H]. apply plain_step in Hc. cbn [doubled].
  destruct (Ascii.eqb c "'") eqn:Q; cbn [feed step]; rewrite Q.
  - cbn [feed step]. rewrite Q, (IH _ H), snoc_app. reflexivity.
  - rewrite Hc, (IH _ H), snoc_app. reflexivity.
Qed.
Lemma feed_unquoted : forall bs s a, all (fun c => plain_char bs c && negb (Ascii.eqb c "'")) s = true -> feed bs (InStr a) s = (InStr (a ++ s)%string, []).
Proof.
  intros bs. induction s as [|c s IH]; intros a H; [cbn [feed]; rewrite append_nil_r; reflexivity|].
  cbn [all] in H. apply andb_prop in H. destruct H as [Hc H]. apply andb_prop in Hc. destruct Hc as [Hc Q].
  apply plain_step in Hc. apply negb_true_iff in Q. cbn [feed step]. rewrite Q, Hc, (IH _ H), snoc_app. reflexivity.
Qed.
Lemma reads_string : forall bs t s, feed bs (InStr "") t = (InStr s, []) -> reads bs ("'" ++ t ++ "'")%string [TStr s].
Proof.
  intros bs t s H. apply (reads_by bs _ (EndStr s) [] [TStr s]); [|apply settles_str].
  cbn [append feed step]. change (begin "'") with (InStr "", @nil token). cbv iota. rewrite feed_app, H. reflexivity.
Qed.

(** ** Values *)
Theorem value_reads : forall bs ft v s, literal ft v s -> readable bs ft v = true -> exists ts, stands ft v ts /\ reads bs s ts.
Proof.
  intros bs ft v s H R. induction H; cbn [readable] in R.
  - eexists. split; [constructor|apply reads_null].
  - destruct (IHliteral R) as (ts & A & B). exists ts. split; [constructor; exact A|exact B].
  - exists [TStr "0000-00-00"]. split; [constructor; assumption|]. apply (reads_string bs "0000-00-00"). destruct bs; reflexivity.
  - exists [TStr (ft t)]. split; [constructor; assumption|]. apply (reads_string bs (ft t)). apply (feed_unquoted bs _ "" R).
  - exists [TStr s]. split; [constructor|]. apply (reads_string bs (doubled s)). apply (feed_doubled bs _ "" R).
  - eexists. split; [constructor|apply reads_true].
  - eexists. split; [constructor|apply reads_false].
  - eexists. split; [constructor|apply reads_int].
  - destruct (reads_float bs f s H) as (ts & A & B). exists ts. split; [constructor; exact A|exact B].
  - exists [TStr s]. split; [constructor|]. apply (reads_string bs (doubled s)). apply (feed_doubled bs _ "" R).
Qed.
Lemma pieces_shown : forall bs ft args l outs, forallb (readable bs ft) args = true -> alone bs l -> Forall2 (replaced ft args) l outs ->
  shown bs ft args l (tokens bs (concat_all outs)).
Proof.
  intros bs ft args l outs R. rewrite forallb_forall in R. revert outs.
  induction l as [|e l IH]; intros outs A F; inversion F as [|e' x l' os Hx Hr]; subst; [constructor|].
  inversion Hx as [t|sty k v s N1 N2 L]; subst; cbn [alone] in A; destruct A as [A1 A2]; change (concat_all (x :: os)) with (x ++ concat_all os)%string.
  - destruct A1 as [->|A1].
    + inversion Hr; subst. change (concat_all []) with ""%string. rewrite append_nil_r, <- (app_nil_r (tokens bs x)). constructor. constructor.
    + rewrite (tokens_leaves bs x _ A1). constructor. apply IH; assumption.
  - assert (Rv : readable bs ft v = true) by (apply R; eapply nth_error_In; exact N2).
    destruct (value_reads bs ft v x L Rv) as (us & St & Rd).
    rewrite (reads_text bs x us (concat_all os) Rd); [econstructor; eauto|].
    destruct l as [|[t|a b|a b|a] l]; try contradiction; inversion Hr as [|e' y l' os' Hy Hr']; subst; [left; reflexivity|].
    right. inversion Hy; subst. change (concat_all (y :: os')) with (y ++ concat_all os')%string. apply starts_app. exact A1.
Qed.
Theorem interpolated_tokens : forall bs ft q args l out, parsed q = Some l -> alone bs l -> forallb (readable bs ft) args = true ->
  interpolate ft q args = ROk out -> shown bs ft args l (tokens bs out).
Proof.
  intros bs ft q args l out P A R H. apply (same_ok _ _ _ (interpolate_parsed ft q args l P)) in H.
  apply ie_iff in H. destruct H as (outs & F & ->). apply pieces_shown; assumption.
Qed.

(** ** Shapes *)
Lemma signed_shape : forall b n n', map shape (signed b (TNum n)) = map shape (signed b (TNum n')).
Proof. intros [] n n'; reflexivity. Qed.
Lemma float_unique : forall f s s', float_text f s -> float_text f s' -> s = s'.
Proof. intros f s s' H H'. apply fmt_f_iff in H, H'. congruence. Qed.
Lemma finite_text : forall b m e s, float_text (S754_finite b m e) s -> exists d, s = ((if b then "-" else "") ++ d)%string /\ starts is_digit d = true.
Proof. intros b m e s H. inversion H as [| | | |b' m' e' M s' K]; subst. apply millionths_digits in K. destruct K as (d & E & D & _). eauto. Qed.
Lemma finite_shape : forall b m e ts, float_tokens (S754_finite b m e) ts -> map shape ts = signed b (TNum "").
Proof.
  intros b m e ts H. inversion H as [f neg d T D| |]; subst; apply finite_text in T; destruct T as (d' & E & D1).
  destruct neg, b; cbn [append] in E; try reflexivity; subst; discriminate.
Qed.
Lemma nan_text : forall (neg : bool) d, float_text S754_nan ((if neg then "-" else "") ++ d)%string -> starts is_digit d = false.
Proof. intros neg d H. assert (E : ((if neg then "-" else "") ++ d = "NaN")%string) by (inversion H; reflexivity). destruct neg; cbn [append] in E; [discriminate|]. subst d. reflexivity. Qed.
Lemma inf_text : forall b (neg : bool) d, float_text (S754_infinity b) ((if neg then "-" else "") ++ d)%string -> starts is_digit d = false.
Proof.
  intros b neg d H. assert (E : ((if neg then "-" else "") ++ d = if b then "-Inf" else "+Inf")%string) by (inversion H; reflexivity).
  destruct neg, b; cbn [append] in E; try discriminate; [injection E as ->|subst d|subst d]; reflexivity.
Qed.
Lemma float_tokens_one : forall f ts us, float_tokens f ts -> float_tokens f us -> ts = us.
Proof.
  intros f ts us H K. inversion H as [f1 n1 d1 T1 D1| |n1]; subst; inversion K as [f2 n2 d2 T2 D2| |n2]; subst; try reflexivity.
  - pose proof (float_unique _ _ _ T1 T2) as E. destruct n1, n2; cbn [append] in E; try congruence; subst; discriminate.
  - rewrite (nan_text _ _ T1) in D1. discriminate.
  - rewrite (inf_text _ _ _ T1) in D1. discriminate.
  - rewrite (nan_text _ _ T2) in D2. discriminate.
  - rewrite (inf_text _ _ _ T2) in D2. discriminate.
Qed.
Lemma stands_one : forall ft v ts us, stands ft v ts -> stands ft v us -> ts = us.
Proof.
  intros ft v ts us H. revert us. induction H; intros us K; inversion K; subst; try reflexivity; try contradiction; auto.
  eapply float_tokens_one; eassumption.
Qed.
Lemma alike_shape : forall ft v w ts us, alike v w -> stands ft v ts -> stands ft w us -> map shape ts = map shape us.
Proof.
  intros ft v w ts us A. revert ts us. induction A; intros ts us S1 S2.
  - rewrite (stands_one _ _ _ _ S1 S2). reflexivity.
  - inversion S1; inversion S2; subst. rewrite H. apply signed_shape.
  - inversion S1; inversion S2; subst.
    match goal with F : float_tokens (S754_finite _ m e) _, G : float_tokens (S754_finite _ m' e') _ |- _ => rewrite (finite_shape _ _ _ _ F), (finite_shape _ _ _ _ G) end. reflexivity.
  - inversion S1; inversion S2; subst. reflexivity.
  - inversion S1; inversion S2; subst. reflexivity.
  - inversion S1; inversion S2; subst. reflexivity.
  - inversion S1; inversion S2; subst; reflexivity.
  - inversion S1; inversion S2; subst. auto.
Qed.
Lemma alike_nth : forall args args' n v w, Forall2 alike args args' -> nth_error args n = Some v -> nth_error args' n = Some w -> alike v w.
Proof.
  intros args args' n v w F. revert n. induction F as [|a b l l' H F IH]; intros n Hv Hw; destruct n as [|n]; try discriminate.
  - cbn in Hv, Hw. injection Hv as <-. injection Hw as <-. exact H.
  - cbn in Hv, Hw. eauto.
Qed.
Lemma shown_shape : forall bs ft args args' l ts us, Forall2 alike args args' -> shown bs ft args l ts -> shown bs ft args' l us -> map shape ts = map shape us.
Proof.
  intros bs ft args args' l ts us F H. revert us. induction H; intros us' K; inversion K; subst; [reflexivity| |].
  - rewrite !map_app. f_equal. auto.
  - rewrite !map_app. f_equal; [|auto]. eapply alike_shape; [|eassumption|eassumption]. eapply alike_nth; eassumption.
Qed.
Lemma shown_one : forall bs ft args l ts us, shown bs ft args l ts -> shown bs ft args l us -> ts = us.
Proof.
  intros bs ft args l ts us H. revert us. induction H; intros us' K; inversion K; subst; [reflexivity| |].
  - f_equal. auto.
  - f_equal; [|auto]. match goal with A : nth_error args (Z.to_nat (k - 1)) = Some ?x, B : nth_error args (Z.to_nat (k - 1)) = Some ?y |- _ => assert (x = y) by congruence; subst end.
    eapply stands_one; eassumption.
Qed.
Theorem interpolated_shape : forall bs ft q args args' l out out', parsed q = Some l -> alone bs l ->
  forallb (readable bs ft) args = true -> forallb (readable bs ft) args' = true -> Forall2 alike args args' ->
  interpolate ft q args = ROk out -> interpolate ft q args' = ROk out' ->
  map shape (tokens bs out) = map shape (tokens bs out').
Proof. intros. eapply shown_shape; [eassumption| |]; eapply interpolated_tokens; eassumption. Qed.
(** The literal alone. *)
Theorem literal_tokens : forall bs ft v s, encode_value ft v = ROk s -> readable bs ft v = true -> stands ft v (tokens bs s).
Proof.
  intros bs ft v s H R. apply encode_iff in H. destruct (value_reads bs ft v s H R) as (ts & St & Rd).
  pose proof (reads_text bs s ts "" Rd (or_introl eq_refl)) as E. rewrite append_nil_r in E. rewrite E. change (tokens bs "") with (@nil token). rewrite app_nil_r. exact St.
Qed.

(** ** The conditions are needed *)
Definition no_clock (t : gotime) : string := "".
Lemma not_alone : ~ forall ft q args l out, parsed q = Some l -> forallb (readable false ft) args = true ->
  interpolate ft q args = ROk out -> shown false ft args l (tokens false out).
Proof.
  intros H. pose proof (H no_clock "SELECT 10-$1"%string [VInt "int" (-5)%Z] [APlain "SELECT 10-"; ABind 0 1] "SELECT 10--5"%string
    ltac:(vm_compute; reflexivity) eq_refl ltac:(vm_compute; reflexivity)) as K.
  assert (W : shown false no_clock [VInt "int" (-5)%Z] [APlain "SELECT 10-"; ABind 0 1] (tokens false "SELECT 10-" ++ [TOp "-"; TNum "5"] ++ [])).
  { constructor. apply (sh_value _ _ _ 0 1 (VInt "int" (-5)%Z)); [lia|reflexivity|exact (sd_int no_clock "int" (-5))|constructor]. }
  pose proof (shown_one _ _ _ _ _ _ K W) as E. vm_compute in E. discriminate.
Qed.
Definition escaping : string := "\' OR 1=1 -- ".
Lemma not_escaped : ~ forall ft q args l out, parsed q = Some l -> alone true l ->
  interpolate ft q args = ROk out -> shown true ft args l (tokens true out).
Proof.
  intros H. pose proof (H no_clock "a = $1"%string [VStr "string" escaping] [APlain "a = "; ABind 0 1] ("a = '\'' OR 1=1 -- '")%string
    ltac:(vm_compute; reflexivity) ltac:(cbn [alone]; repeat split; right; vm_compute; reflexivity) ltac:(vm_compute; reflexivity)) as K.
  assert (W : shown true no_clock [VStr "string" escaping] [APlain "a = "; ABind 0 1] (tokens true "a = " ++ [TStr escaping] ++ [])).
  { constructor. apply (sh_value _ _ _ 0 1 (VStr "string" escaping)); [lia|reflexivity|constructor|constructor]. }
  pose proof (shown_one _ _ _ _ _ _ K W) as E. vm_compute in E. discriminate.
Qed.
Definition quote_clock (t : gotime) : string := "10 o'clock".
Lemma not_quoted : ~ forall ft q args l out, parsed q = Some l -> alone false l ->
  interpolate ft q args = ROk out -> shown false ft args l (tokens false out).
Proof.
  intros H. set (v := VTime (GoTime 1 0 None)).
  pose proof (H quote_clock "a = $1"%string [v] [APlain "a = "; ABind 0 1] ("a = '10 o'clock'")%string
    ltac:(vm_compute; reflexivity) ltac:(cbn [alone]; repeat split; right; vm_compute; reflexivity) ltac:(vm_compute; reflexivity)) as K.
  assert (W : shown false quote_clock [v] [APlain "a = "; ABind 0 1] (tokens false "a = " ++ [TStr "10 o'clock"] ++ [])).
  { constructor. apply (sh_value _ _ _ 0 1 v); [lia|reflexivity| |constructor]. apply (sd_time quote_clock (GoTime 1 0 None)). discriminate. }
  pose proof (shown_one _ _ _ _ _ _ K W) as E. vm_compute in E. discriminate.
Qed.
