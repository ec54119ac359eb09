(** The scanner of Syntax.v equals the byte-level scanner of ByteLex.v. *)
From Coq Require Import Strings.String Strings.Ascii NArith ZArith List Bool Lia.
From Verif Require Import GoStr GoNum Syntax Spec_syntax ByteLex.
Import ListNotations.
Open Scope string_scope.

(* ------------------------------------------------------------------ *)
(** * Strings *)

Lemma append_nil_r : forall s : string, s ++ "" = s.
Proof. induction s as [|a s IH]; simpl; congruence. Qed.
Lemma append_assoc : forall a b c : string, (a ++ b) ++ c = a ++ b ++ c.
Proof. induction a as [|x a IH]; simpl; intros b c; congruence. Qed.
Lemma length_append : forall a b : string,
  String.length (a ++ b) = String.length a + String.length b.
Proof. induction a as [|x a IH]; simpl; intros b; [reflexivity|rewrite IH; reflexivity]. Qed.
Lemma take_drop : forall n s, str_take n s ++ str_drop n s = s.
Proof. induction n as [|n IH]; destruct s as [|a s]; simpl; try reflexivity. rewrite IH. reflexivity. Qed.
Lemma is_empty_true : forall s, is_empty s = true -> s = "".
Proof. destruct s; simpl; congruence. Qed.

Lemma code_lt_256 : forall a, (code a < 256)%N.
Proof. intro a. apply N_ascii_bounded. Qed.
Lemma code_inj : forall a b, code a = code b -> a = b.
Proof. intros a b H. rewrite <- (ascii_N_embedding a), <- (ascii_N_embedding b). unfold code in H. congruence. Qed.
Lemma code_eqb : forall a b, (code a =? code b)%N = Ascii.eqb a b.
Proof.
  intros a b. destruct (Ascii.eqb_spec a b) as [->|N].
  - apply N.eqb_refl.
  - apply N.eqb_neq. intro H. apply N. apply code_inj, H.
Qed.

Definition hi (a : ascii) : bool := negb (code a <? 128)%N.
Fixpoint all_hi (s : string) : bool :=
  match s with "" => true | String a s' => hi a && all_hi s' end.

Lemma hi_neq : forall a b, hi a = true -> (code b < 128)%N -> Ascii.eqb a b = false.
Proof.
  intros a b H Hb. unfold hi in H. rewrite <- code_eqb. apply N.eqb_neq.
  apply negb_true_iff, N.ltb_ge in H. lia.
Qed.

(* ------------------------------------------------------------------ *)
(** * UTF-8 decoding *)

Lemma decode_ascii : forall a s, (code a <? 128)%N = true -> decode_rune (String a s) = (code a, 1).
Proof. intros a s H. unfold decode_rune. rewrite H. reflexivity. Qed.

Lemma in_range_hi : forall a lo h, in_range (code a) lo h = true -> (128 <= lo)%N -> hi a = true.
Proof.
  intros a lo h H L. unfold in_range in H. apply andb_true_iff in H. destruct H as [H _].
  apply N.leb_le in H. unfold hi. apply negb_true_iff, N.ltb_ge. lia.
Qed.

Ltac split_ranges :=
  repeat match goal with
  | H : _ && _ = true |- _ => apply andb_true_iff in H; destruct H
  | H : in_range _ _ _ = true |- _ => unfold in_range in H
  | H : (_ <=? _)%N = true |- _ => apply N.leb_le in H
  | H : (_ <? _)%N = true |- _ => apply N.ltb_lt in H
  | H : (_ <? _)%N = false |- _ => apply N.ltb_ge in H
  end.

(** A non-ASCII first byte decodes to a rune >= 128 of width >= 1, made of
    non-ASCII bytes only. *)
Lemma decode_hi : forall a s r w,
  hi a = true -> decode_rune (String a s) = (r, w) ->
  (128 <= r)%N /\ 1 <= w /\ exists u v, String a s = u ++ v /\ String.length u = w /\ all_hi u = true
    /\ str_take w (String a s) = u /\ str_drop w (String a s) = v.
Proof.
  intros a s r w Ha Hd.
  assert (E1 : forall r' , (rune_error, 1) = (r', w) -> r = r' ->
    (128 <= r)%N /\ 1 <= w /\ exists u v, String a s = u ++ v /\ String.length u = w /\ all_hi u = true
    /\ str_take w (String a s) = u /\ str_drop w (String a s) = v).
  { intros r' E Er. injection E as E1 E2. subst. split; [unfold rune_error; lia|]. split; [lia|].
    exists (String a ""), s. simpl. rewrite Ha. destruct s; auto. }
  unfold decode_rune in Hd. fold (code a) in *.
  assert (Hlt : (code a <? 128)%N = false) by (unfold hi in Ha; apply negb_true_iff; exact Ha).
  rewrite Hlt in Hd.
  destruct (in_range (code a) 194 223) eqn:R2.
  { destruct s as [|a1 s1]; [apply (E1 r Hd eq_refl)|].
    destruct (in_range (code a1) 128 191) eqn:R21; [|apply (E1 r Hd eq_refl)].
    injection Hd as <- <-.
    pose proof (in_range_hi _ _ _ R21 ltac:(lia)) as Hi1.
    split. { split_ranges. lia. } split; [lia|].
    exists (String a (String a1 "")), s1. simpl. rewrite Ha, Hi1. destruct s1; auto. }
  destruct (in_range (code a) 224 239) eqn:R3.
  { destruct s as [|a1 [|a2 s2]]; try apply (E1 r Hd eq_refl).
    destruct (in_range (code a1) (if (code a =? 224)%N then 160%N else 128%N)
                (if (code a =? 237)%N then 159%N else 191%N) && in_range (code a2) 128 191) eqn:R;
      [|apply (E1 r Hd eq_refl)].
    injection Hd as <- <-.
    apply andb_true_iff in R. destruct R as [Ra Rb].
    pose proof (in_range_hi _ _ _ Rb ltac:(lia)) as Hi2.
    assert (Hi1 : hi a1 = true).
    { apply (in_range_hi _ _ _ Ra). destruct (code a =? 224)%N; lia. }
    split.
    { split_ranges. destruct (code a =? 224)%N eqn:E224; [|apply N.eqb_neq in E224; lia].
      apply N.eqb_eq in E224. lia. }
    split; [lia|].
    exists (String a (String a1 (String a2 ""))), s2. simpl. rewrite Ha, Hi1, Hi2. destruct s2; auto. }
  destruct (in_range (code a) 240 244) eqn:R4.
  { destruct s as [|a1 [|a2 [|a3 s3]]]; try apply (E1 r Hd eq_refl).
    destruct (in_range (code a1) (if (code a =? 240)%N then 144%N else 128%N)
                (if (code a =? 244)%N then 143%N else 191%N) && in_range (code a2) 128 191
              && in_range (code a3) 128 191) eqn:R;
      [|apply (E1 r Hd eq_refl)].
    injection Hd as <- <-.
    apply andb_true_iff in R. destruct R as [R Rc]. apply andb_true_iff in R. destruct R as [Ra Rb].
    pose proof (in_range_hi _ _ _ Rb ltac:(lia)) as Hi2.
    pose proof (in_range_hi _ _ _ Rc ltac:(lia)) as Hi3.
    assert (Hi1 : hi a1 = true).
    { apply (in_range_hi _ _ _ Ra). destruct (code a =? 240)%N; lia. }
    split.
    { split_ranges. destruct (code a =? 240)%N eqn:E240; [|apply N.eqb_neq in E240; lia].
      apply N.eqb_eq in E240. lia. }
    split; [lia|].
    exists (String a (String a1 (String a2 (String a3 "")))), s3. simpl. rewrite Ha, Hi1, Hi2, Hi3.
    destruct s3; auto. }
  apply (E1 r Hd eq_refl).
Qed.

(* ------------------------------------------------------------------ *)
(** * Lexer states *)

(** The current rune is the decoding of the rest of the input; at the end it is
    either the phantom RuneError or EOF. *)
Definition valid (l : lexer) : Prop :=
  match l_rest l with
  | "" => l_width l = 0 /\ (l_rune l = rune_error \/ l_rune l = eof)
  | s => decode_rune s = (l_rune l, l_width l)
  end.

Definition at_eof (l : lexer) : Prop := l_rune l = eof.

Lemma valid_start : forall l, valid l -> valid (start_token l).
Proof. intros l H. exact H. Qed.

Lemma valid_decode_rest : forall l rest r w,
  l_rest l = rest -> decode_rune rest = (r, w) -> l_rune l = r -> l_width l = w -> valid l.
Proof.
  intros l rest r w H Hd Hr Hw. unfold valid. rewrite H. destruct rest as [|a s].
  - injection Hd as <- <-. auto.
  - rewrite Hd, Hr, Hw. reflexivity.
Qed.

(** One step on an ASCII byte. *)
Lemma next_ascii : forall l a s, valid l -> l_rest l = String a s -> hi a = false ->
  l_rune l = code a /\ l_rest (lex_next l) = s /\ l_pre (lex_next l) = l_pre l ++ String a ""
  /\ valid (lex_next l).
Proof.
  intros l a s V E Ha. unfold valid in V. rewrite E in V.
  rewrite decode_ascii in V by (unfold hi in Ha; apply negb_false_iff; exact Ha).
  injection V as Vr Vw. split; [auto|].
  unfold lex_next. rewrite E. rewrite <- Vw. simpl str_drop. simpl str_take.
  destruct (decode_rune s) as [r w] eqn:Hd. simpl.
  split; [reflexivity|]. split; [reflexivity|].
  eapply valid_decode_rest with (rest := s); simpl; eauto.
Qed.

(** One step on a non-ASCII byte. *)
Lemma next_hi : forall l a s, valid l -> l_rest l = String a s -> hi a = true ->
  (128 <= l_rune l)%N /\ exists u v, String a s = u ++ v /\ u <> "" /\ all_hi u = true /\
  l_rest (lex_next l) = v /\ l_pre (lex_next l) = l_pre l ++ u /\ valid (lex_next l).
Proof.
  intros l a s V E Ha. unfold valid in V. rewrite E in V.
  destruct (decode_hi _ _ _ _ Ha V) as (Hr & Hw & u & v & Euv & Lu & Hu & Tu & Dv).
  split; [exact Hr|]. exists u, v. split; [exact Euv|].
  split. { intro Z. rewrite Z in Lu. simpl in Lu. lia. }
  split; [exact Hu|].
  unfold lex_next. rewrite E. rewrite Tu, Dv.
  destruct (decode_rune v) as [r w] eqn:Hd. simpl.
  split; [reflexivity|]. split; [reflexivity|].
  eapply valid_decode_rest with (rest := v); simpl; eauto.
Qed.

(** One step at the end of input: EOF, nothing moves. *)
Lemma next_end : forall l, l_rest l = "" ->
  l_rune (lex_next l) = eof /\ l_rest (lex_next l) = "" /\ l_pre (lex_next l) = l_pre l
  /\ valid (lex_next l).
Proof. intros l E. unfold lex_next, valid. rewrite E. simpl. repeat split; auto. Qed.

Lemma rune_end : forall l, valid l -> l_rest l = "" -> l_rune l = rune_error \/ l_rune l = eof.
Proof. intros l V E. unfold valid in V. rewrite E in V. tauto. Qed.

Lemma cut_nul_hi : forall u v, all_hi u = true -> cut_nul (u ++ v) = u ++ cut_nul v.
Proof.
  induction u as [|a u IH]; simpl; intros v H; [reflexivity|].
  apply andb_true_iff in H. destruct H as [Ha Hu].
  rewrite (hi_neq a nul Ha) by (vm_compute; reflexivity). rewrite IH by exact Hu. reflexivity.
Qed.

Lemma length_pos : forall u, u <> "" -> 1 <= String.length u.
Proof. destruct u; simpl; [congruence|lia]. Qed.

Lemma eof_is_nul : forall a, (code a =? eof)%N = Ascii.eqb a nul.
Proof. intro a. change eof with (code nul). apply code_eqb. Qed.

(** The peeked rune is an ASCII character iff the next byte is. *)
Lemma peek_ascii : forall l a s c, valid l -> l_rest l = String a s -> hi a = false ->
  (code c <? 128)%N = true -> Ascii.eqb c nul = false ->
  (lex_peek l =? code c)%N = match s with String b _ => Ascii.eqb b c | "" => false end.
Proof.
  intros l a s c V E Ha Hc Hn. unfold valid in V. rewrite E in V.
  rewrite decode_ascii in V by (unfold hi in Ha; apply negb_false_iff; exact Ha).
  injection V as _ Vw. unfold lex_peek. rewrite E, <- Vw. simpl str_drop.
  destruct s as [|b s'].
  - rewrite N.eqb_sym, eof_is_nul. exact Hn.
  - destruct (hi b) eqn:Hb.
    + destruct (decode_rune (String b s')) as [r w] eqn:Hd.
      destruct (decode_hi _ _ _ _ Hb Hd) as (Hr & _).
      rewrite (hi_neq b c Hb) by (apply N.ltb_lt; exact Hc).
      simpl. apply N.eqb_neq. apply N.ltb_lt in Hc. lia.
    + rewrite decode_ascii by (unfold hi in Hb; apply negb_false_iff; exact Hb).
      simpl. apply code_eqb.
Qed.

(** A byte predicate vs. a rune predicate. *)
Definition agrees (p : N -> bool) (pb : ascii -> bool) (h : bool) : Prop :=
  p eof = false /\ (forall a, hi a = false -> Ascii.eqb a nul = false -> p (code a) = pb a)
  /\ (forall r, (128 <= r)%N -> p r = h) /\ (forall a, hi a = true -> pb a = h).

Lemma span_hi : forall pb u v, all_hi u = true -> (forall a, hi a = true -> pb a = true) ->
  span pb (u ++ v) = (u ++ fst (span pb v), snd (span pb v)).
Proof.
  induction u as [|a u IH]; simpl; intros v H P.
  - destruct (span pb v); reflexivity.
  - apply andb_true_iff in H. destruct H as [Ha Hu]. rewrite (P a Ha). rewrite IH by assumption. reflexivity.
Qed.

(** The generic scanning loop. *)
Lemma while_spec : forall p pb h, agrees p pb h ->
  forall n l, valid l -> String.length (l_rest l) + 2 <= n ->
  exists l', while_loop n p l = Some l' /\ valid l' /\
    l_pre l' = l_pre l ++ fst (span pb (cut_nul (l_rest l))) /\
    cut_nul (l_rest l') = snd (span pb (cut_nul (l_rest l))) /\
    String.length (l_rest l') <= String.length (l_rest l) /\
    (h = true -> cut_nul (l_rest l') = "" -> l_rune l' = eof).
Proof.
  intros p pb h (P0 & Pa & Ph & Pb).
  induction n as [|n IH]; intros l V Hn; [lia|].
  destruct (l_rest l) as [|a s] eqn:E.
  - simpl. destruct (rune_end l V E) as [R|R].
    + rewrite R. rewrite (Ph rune_error) by (unfold rune_error; lia). destruct h.
      * destruct (next_end l E) as (N1 & N2 & N3 & N4).
        destruct n as [|n]; [simpl in Hn; lia|].
        exists (lex_next l). simpl. rewrite N1, P0, N2, N3. rewrite append_nil_r. simpl. auto 10.
      * exists l. rewrite E. simpl. rewrite append_nil_r. split; [reflexivity|]. split; [exact V|].
        repeat split; auto. discriminate.
    + rewrite R, P0. exists l. rewrite E. simpl. rewrite append_nil_r. split; [reflexivity|]. split; [exact V|].
      repeat split; auto.
  - destruct (hi a) eqn:Ha.
    + destruct (next_hi l a s V E Ha) as (R & u & v & Euv & Une & Hu & Nr & Np & Nv).
      pose proof (Ph _ R) as Pr. cbn [while_loop]. rewrite Pr. destruct h.
      * assert (Lv : String.length v < String.length (String a s)).
        { rewrite Euv, length_append. pose proof (length_pos u Une). lia. }
        destruct (IH (lex_next l) Nv) as (l' & W1 & W2 & W3 & W4 & W5 & W6).
        { rewrite Nr. simpl in Lv, Hn |- *. lia. }
        exists l'. rewrite Euv. rewrite cut_nul_hi by exact Hu.
        rewrite span_hi by (try exact Hu; intros; apply Pb; assumption).
        rewrite Nr in *. simpl fst. simpl snd. rewrite W3, Np, append_assoc.
        split; [exact W1|]. split; [exact W2|]. split; [reflexivity|]. split; [exact W4|].
        split; [|exact W6]. rewrite <- Euv. lia.
      * exists l. simpl. rewrite (hi_neq a nul Ha) by (vm_compute; reflexivity).
        simpl. rewrite (Pb a Ha). simpl. rewrite append_nil_r, E.
        simpl. rewrite (hi_neq a nul Ha) by (vm_compute; reflexivity).
        split; [reflexivity|]. split; [exact V|]. repeat split; auto; discriminate.
    + destruct (next_ascii l a s V E Ha) as (R & Nr & Np & Nv).
      simpl. rewrite R. destruct (Ascii.eqb a nul) eqn:Ez.
      * assert (code a = eof) as -> by (apply N.eqb_eq; rewrite eof_is_nul; exact Ez).
        rewrite P0. exists l. simpl. rewrite append_nil_r, E. simpl. rewrite Ez.
        split; [reflexivity|]. split; [exact V|]. repeat split; auto.
        intros _ _. rewrite R. apply N.eqb_eq. rewrite eof_is_nul. exact Ez.
      * rewrite (Pa a Ha Ez). destruct (pb a) eqn:Eb.
        -- destruct (IH (lex_next l) Nv) as (l' & W1 & W2 & W3 & W4 & W5 & W6).
           { rewrite Nr. simpl in Hn. lia. }
           exists l'. simpl. rewrite Eb. rewrite Nr in *.
           destruct (span pb (cut_nul s)) as [t r] eqn:Es. simpl in *.
           rewrite W3, Np, append_assoc. simpl. split; [exact W1|]. split; [exact W2|]. repeat split; auto.
        -- exists l. simpl. rewrite Eb. simpl. rewrite append_nil_r, E. simpl. rewrite Ez.
           split; [reflexivity|]. split; [exact V|]. repeat split; auto. discriminate.
Qed.

Lemma digits_loop_while : forall n l, digits_loop n l = while_loop n is_decimal_rune l.
Proof.
  induction n as [|n IH]; intros l; simpl; [reflexivity|].
  destruct (l_rune l =? eof)%N eqn:E; simpl.
  - apply N.eqb_eq in E. rewrite E. reflexivity.
  - rewrite IH. destruct (is_decimal_rune (l_rune l)); reflexivity.
Qed.

Lemma agrees_digit : agrees is_decimal_rune is_digit false.
Proof.
  repeat split; auto.
  - intros r H. unfold is_decimal_rune, in_range. apply andb_false_iff. right. apply N.leb_gt. lia.
  - intros a H. unfold is_digit, in_range, hi in *. apply negb_true_iff, N.ltb_ge in H.
    apply andb_false_iff. right. apply N.leb_gt. lia.
Qed.

Lemma lor32_ge : forall r, (128 <= r)%N -> (128 <= N.lor 32 r)%N.
Proof.
  intros r H. pose proof (N.log2_le_mono 128 r H) as L. change (N.log2 128) with 7%N in L.
  assert (L2 : (7 <= N.log2 (N.lor 32 r))%N).
  { rewrite N.log2_lor. lia. }
  destruct (N.lt_ge_cases (N.lor 32 r) 128) as [C|C]; [|exact C].
  destruct (N.eq_dec (N.lor 32 r) 0) as [Z|Z].
  - rewrite Z in L2. simpl in L2. lia.
  - apply N.log2_lt_pow2 with (b := 7%N) in C; [lia|lia].
Qed.

Lemma letter_rune : forall a, is_letter_rune (code a) = is_letter a.
Proof. intros [[] [] [] [] [] [] [] []]; reflexivity. Qed.

Lemma agrees_letter : agrees is_letter_rune is_letter false.
Proof.
  assert (K : forall r, (128 <= r)%N -> is_letter_rune r = false).
  { intros r H. unfold is_letter_rune, in_range. pose proof (lor32_ge r H).
    apply orb_false_iff. split.
    - apply andb_false_iff. right. apply N.leb_gt. lia.
    - apply N.eqb_neq. lia. }
  repeat split; auto.
  - intros a _ _. apply letter_rune.
  - intros a H. rewrite <- letter_rune. apply K. unfold hi in H. apply negb_true_iff, N.ltb_ge in H. exact H.
Qed.

Lemma agrees_word : agrees word_rune is_word true.
Proof.
  repeat split; auto.
  - intros a Ha Hn. unfold word_rune, is_word. rewrite eof_is_nul, Hn. simpl.
    change r_comma with (code ","). change r_rparen with (code ")"). rewrite !code_eqb. reflexivity.
  - intros r H. unfold word_rune, eof, r_comma, r_rparen.
    rewrite !(proj2 (N.eqb_neq r _)) by lia. reflexivity.
  - intros a H. unfold is_word. rewrite !(hi_neq a _ H) by (vm_compute; reflexivity). reflexivity.
Qed.

(* ------------------------------------------------------------------ *)
(** * Plain text *)

Lemma bplain_hi : forall u v, all_hi u = true ->
  bplain (u ++ v) = (u ++ fst (bplain v), snd (bplain v)).
Proof.
  induction u as [|a u IH]; intros v H.
  - simpl. destruct (bplain v); reflexivity.
  - simpl in H. apply andb_true_iff in H. destruct H as [Ha Hu].
    simpl. unfold is_mark, is_quote. rewrite !(hi_neq a _ Ha) by (vm_compute; reflexivity).
    simpl. rewrite IH by exact Hu. reflexivity.
Qed.

(** What the plain scanner returns when it stops in front of [r] (cut input),
    in lexer state [l]. *)
Definition plain_result (l : lexer) (r : string) : list token * option scanstate :=
  match r with
  | "" => if advanced l then ([emit l TkPlain KString false], Some ScPlain)
          else ([emit l TkEOF KString false], None)
  | String c _ =>
    if Ascii.eqb c "#" then (if advanced l then [emit l TkPlain KString false] else [], Some ScFunc)
    else if is_mark c then (if advanced l then [emit l TkPlain KString false] else [], Some ScRef)
    else ([], Some ScQuotedPlain)
  end.

Lemma scan_plain_loop_hi : forall n l, (128 <= l_rune l)%N ->
  scan_plain_loop (S n) l = scan_plain_loop n (lex_next l).
Proof.
  intros n l H. simpl. unfold eof, r_dollar, r_quest, r_hash, r_squote, r_dquote, r_bquote.
  rewrite !(proj2 (N.eqb_neq (l_rune l) _)) by lia. reflexivity.
Qed.

Lemma bplain_unmarked : forall a s, is_mark a = false -> Ascii.eqb a "#" = false -> is_quote a = false ->
  bplain (String a s) = (String a (fst (bplain s)), snd (bplain s)).
Proof. intros a s H1 H2 H3. simpl. rewrite H1, H2, H3. simpl. destruct (bplain s); reflexivity. Qed.

Lemma plain_spec : forall n l, valid l -> String.length (l_rest l) + 2 <= n ->
  exists l', scan_plain_loop n l = Some (l', fst (plain_result l' (snd (bplain (cut_nul (l_rest l))))),
                                         snd (plain_result l' (snd (bplain (cut_nul (l_rest l)))))) /\
    valid l' /\ l_pre l' = l_pre l ++ fst (bplain (cut_nul (l_rest l))) /\
    cut_nul (l_rest l') = snd (bplain (cut_nul (l_rest l))) /\
    String.length (l_rest l') <= String.length (l_rest l) /\
    (snd (bplain (cut_nul (l_rest l))) = "" -> l_rune l' = eof).
Proof.
  induction n as [n IH] using lt_wf_ind. intros l V Hn.
  destruct n as [|n]; [lia|].
  destruct (l_rest l) as [|a s] eqn:E.
  - (* end of input *)
    simpl in Hn. simpl bplain. simpl fst. simpl snd.
    destruct (rune_end l V E) as [R|R].
    + rewrite scan_plain_loop_hi by (rewrite R; unfold rune_error; lia).
      destruct (next_end l E) as (N1 & N2 & N3 & N4).
      exists (lex_next l). destruct n as [|n]; [lia|]. simpl. rewrite N1, N2, N3. simpl. rewrite append_nil_r.
      split. { destruct (advanced (lex_next l)); reflexivity. } auto 10.
    + exists l. simpl. rewrite R. simpl. rewrite append_nil_r, E. simpl.
      split. { destruct (advanced l); reflexivity. } auto 10.
  - destruct (hi a) eqn:Ha.
    + destruct (next_hi l a s V E Ha) as (R & u & v & Euv & Une & Hu & Nr & Np & Nv).
      rewrite scan_plain_loop_hi by exact R.
      assert (Lv : String.length v < String.length (String a s)).
      { rewrite Euv, length_append. pose proof (length_pos u Une). lia. }
      destruct (IH n ltac:(lia) (lex_next l) Nv) as (l' & W1 & W2 & W3 & W4 & W5 & W6).
      { rewrite Nr. simpl in Lv, Hn |- *. lia. }
      exists l'. rewrite Euv. rewrite cut_nul_hi by exact Hu. rewrite bplain_hi by exact Hu.
      rewrite Nr in *. simpl fst. simpl snd. rewrite W3, Np, append_assoc.
      split; [exact W1|]. split; [exact W2|]. split; [reflexivity|]. split; [exact W4|].
      split; [rewrite <- Euv; lia|exact W6].
    + destruct (next_ascii l a s V E Ha) as (R & Nr & Np & Nv).
      destruct (Ascii.eqb a nul) eqn:Ez.
      * (* NUL reads as EOF *)
        assert (Re : l_rune l = eof) by (rewrite R; apply N.eqb_eq; rewrite eof_is_nul; exact Ez).
        exists l. simpl. rewrite Ez, Re. simpl. rewrite append_nil_r, E. simpl. rewrite Ez.
        split. { destruct (advanced l); reflexivity. } auto 10.
      * simpl scan_plain_loop. rewrite R.
        rewrite eof_is_nul, Ez.
        change r_dollar with (code "$"). change r_quest with (code "?"). change r_hash with (code "#").
        change r_squote with (code "'"). change r_dquote with (code """"). change r_bquote with (code "`").
        rewrite !code_eqb. simpl cut_nul. rewrite Ez.
        fold (is_mark a). fold (is_quote a).
        destruct (is_mark a) eqn:Em.
        -- (* $ or ? *)
           assert (Hc : (code a <? 128)%N = true) by (unfold hi in Ha; apply negb_false_iff; exact Ha).
           rewrite (peek_ascii l a s a V E Ha Hc Ez).
           assert (Hash : Ascii.eqb a "#" = false).
           { unfold is_mark in Em. destruct (Ascii.eqb_spec a "#") as [->|]; [discriminate Em|reflexivity]. }
           destruct s as [|b s2].
           ++ exists l. simpl. rewrite Em. simpl. rewrite Hash, Em. simpl. rewrite append_nil_r, E. simpl. rewrite Ez.
              split; [reflexivity|]. split; [exact V|]. repeat split; auto. discriminate.
           ++ destruct (Ascii.eqb b a) eqn:Eb.
              ** (* doubled *)
                 apply Ascii.eqb_eq in Eb. subst b.
                 destruct (next_ascii (lex_next l) a s2 Nv Nr Ha) as (R2 & Nr2 & Np2 & Nv2).
                 destruct (IH n ltac:(lia) (lex_next (lex_next l)) Nv2) as (l' & W1 & W2 & W3 & W4 & W5 & W6).
                 { rewrite Nr2. simpl in Hn. lia. }
                 exists l'. simpl cut_nul. rewrite Ez. simpl bplain. rewrite Em, Ascii.eqb_refl.
                 rewrite Nr2 in *. destruct (bplain (cut_nul s2)) as [t r] eqn:Eb.
                 simpl fst in *. simpl snd in *. rewrite W3, Np2, Np, !append_assoc.
                 split; [exact W1|]. split; [exact W2|]. split; [reflexivity|]. split; [exact W4|].
                 split; [simpl; lia|exact W6].
              ** exists l. simpl cut_nul.
                 assert (Bp : bplain (String a (if Ascii.eqb b nul then "" else String b (cut_nul s2)))
                              = ("", String a (if Ascii.eqb b nul then "" else String b (cut_nul s2)))).
                 { simpl. rewrite Em. destruct (Ascii.eqb b nul); [reflexivity|]. rewrite Eb. reflexivity. }
                 rewrite Bp. simpl fst. simpl snd. simpl plain_result. rewrite Hash, Em.
                 rewrite append_nil_r, E. simpl cut_nul. rewrite Ez.
                 split; [reflexivity|]. split; [exact V|]. repeat split; auto. discriminate.
        -- destruct (Ascii.eqb a "#") eqn:Eh.
           ++ exists l. simpl bplain. rewrite Em, Eh. simpl. rewrite Eh. rewrite append_nil_r, E. simpl. rewrite Ez.
              split; [reflexivity|]. split; [exact V|]. repeat split; auto. discriminate.
           ++ destruct (is_quote a) eqn:Eq.
              ** exists l. simpl bplain. rewrite Em, Eh, Eq. simpl. rewrite Eh, Em. rewrite append_nil_r, E. simpl. rewrite Ez.
                 split; [reflexivity|]. split; [exact V|]. repeat split; auto. discriminate.
              ** destruct (IH n ltac:(lia) (lex_next l) Nv) as (l' & W1 & W2 & W3 & W4 & W5 & W6).
                 { rewrite Nr. simpl in Hn. lia. }
                 exists l'. rewrite bplain_unmarked by assumption.
                 rewrite Nr in *. simpl fst. simpl snd. rewrite W3, Np, append_assoc.
                 split; [exact W1|]. split; [exact W2|]. split; [reflexivity|]. split; [exact W4|].
                 split; [simpl; lia|exact W6].
Qed.

(* ------------------------------------------------------------------ *)
(** * Quoted text *)

Lemma bquote_hi : forall q u v, hi q = false -> all_hi u = true ->
  bquote q (u ++ v) = let '(t, r, c) := bquote q v in (u ++ t, r, c).
Proof.
  induction u as [|a u IH]; intros v Hq H.
  - simpl. destruct (bquote q v) as [[t r] c]. reflexivity.
  - simpl in H. apply andb_true_iff in H. destruct H as [Ha Hu].
    simpl. rewrite (hi_neq a q Ha) by (unfold hi in Hq; apply N.ltb_lt, negb_false_iff; exact Hq).
    rewrite IH by assumption. destruct (bquote q v) as [[t r] c]. reflexivity.
Qed.

Lemma quote_facts : forall q, is_quote q = true -> hi q = false /\ Ascii.eqb q nul = false.
Proof.
  intros q H. unfold is_quote in H.
  destruct (Ascii.eqb q "'") eqn:E1; [apply Ascii.eqb_eq in E1; rewrite E1; split; reflexivity|].
  destruct (Ascii.eqb q """") eqn:E2; [apply Ascii.eqb_eq in E2; rewrite E2; split; reflexivity|].
  destruct (Ascii.eqb q "`") eqn:E3; [apply Ascii.eqb_eq in E3; rewrite E3; split; reflexivity|discriminate H].
Qed.

Lemma quoted_spec : forall q, is_quote q = true ->
  forall n l, valid l -> String.length (l_rest l) + 2 <= n ->
  exists l', quoted_loop n (code q) l = Some (l', snd (bquote q (cut_nul (l_rest l)))) /\
    valid l' /\ l_pre l' = l_pre l ++ fst (fst (bquote q (cut_nul (l_rest l)))) /\
    cut_nul (l_rest l') = snd (fst (bquote q (cut_nul (l_rest l)))) /\
    String.length (l_rest l') <= String.length (l_rest l).
Proof.
  intros q Q. destruct (quote_facts q Q) as [Hq Hqn].
  assert (Hqc : (code q <? 128)%N = true) by (unfold hi in Hq; apply negb_false_iff; exact Hq).
  induction n as [n IH] using lt_wf_ind. intros l V Hn.
  destruct n as [|n]; [lia|].
  destruct (l_rest l) as [|a s] eqn:E.
  - simpl in Hn. simpl bquote. simpl fst. simpl snd. simpl quoted_loop.
    destruct (rune_end l V E) as [R|R].
    + rewrite R. change (rune_error =? eof)%N with false.
      replace (rune_error =? code q)%N with false
        by (symmetry; apply N.eqb_neq; apply N.ltb_lt in Hqc; unfold rune_error; lia).
      destruct (next_end l E) as (N1 & N2 & N3 & N4).
      exists (lex_next l). destruct n as [|n]; [lia|]. simpl. rewrite N1, N2, N3. simpl. rewrite append_nil_r. auto 10.
    + exists l. rewrite R. simpl. rewrite append_nil_r, E. auto 10.
  - destruct (hi a) eqn:Ha.
    + destruct (next_hi l a s V E Ha) as (R & u & v & Euv & Une & Hu & Nr & Np & Nv).
      assert (St : quoted_loop (S n) (code q) l = quoted_loop n (code q) (lex_next l)).
      { simpl. unfold eof. apply N.ltb_lt in Hqc. rewrite !(proj2 (N.eqb_neq (l_rune l) _)) by lia. reflexivity. }
      rewrite St.
      assert (Lv : String.length v < String.length (String a s)).
      { rewrite Euv, length_append. pose proof (length_pos u Une). lia. }
      destruct (IH n ltac:(lia) (lex_next l) Nv) as (l' & W1 & W2 & W3 & W4 & W5).
      { rewrite Nr. simpl in Lv, Hn |- *. lia. }
      exists l'. rewrite Euv. rewrite cut_nul_hi by exact Hu. rewrite bquote_hi by assumption.
      rewrite Nr in *. destruct (bquote q (cut_nul v)) as [[t r] c]. simpl fst in *. simpl snd in *.
      rewrite W3, Np, append_assoc.
      split; [exact W1|]. split; [exact W2|]. split; [reflexivity|]. split; [exact W4|].
      rewrite <- Euv; lia.
    + destruct (next_ascii l a s V E Ha) as (R & Nr & Np & Nv).
      simpl quoted_loop. rewrite R, eof_is_nul. simpl cut_nul.
      destruct (Ascii.eqb a nul) eqn:Ez.
      * exists l. simpl. rewrite append_nil_r, E. simpl. rewrite Ez. auto 10.
      * rewrite code_eqb. simpl bquote. destruct (Ascii.eqb a q) eqn:Eq.
        -- apply Ascii.eqb_eq in Eq. subst a.
           change r_squote with (code "'") in *. rewrite code_eqb.
           rewrite (peek_ascii l q s "'" V E Ha eq_refl eq_refl).
           destruct s as [|b s2].
           ++ rewrite andb_false_r. exists (lex_next l). simpl. rewrite Nr. auto 10.
           ++ simpl cut_nul. destruct (Ascii.eqb b "'") eqn:Eb.
              ** apply Ascii.eqb_eq in Eb. subst b. change (Ascii.eqb "'" nul) with false.
                 destruct (Ascii.eqb q "'") eqn:Eq1; cbv [andb].
                 --- destruct (next_ascii (lex_next l) "'" s2 Nv Nr eq_refl) as (R2 & Nr2 & Np2 & Nv2).
                     destruct (IH n ltac:(lia) (lex_next (lex_next l)) Nv2) as (l' & W1 & W2 & W3 & W4 & W5).
                     { rewrite Nr2. simpl in Hn. lia. }
                     exists l'. rewrite Nr2 in *. change (Ascii.eqb "'" "'") with true. cbv iota.
                     destruct (bquote q (cut_nul s2)) as [[t r] c].
                     simpl fst in *. simpl snd in *. rewrite W3, Np2, Np, !append_assoc.
                     split; [exact W1|]. split; [exact W2|]. split; [reflexivity|]. split; [exact W4|]. simpl; lia.
                 --- exists (lex_next l). rewrite Nr. simpl. split; [reflexivity|]. split; [exact Nv|].
                     split; [exact Np|]. split; [reflexivity|lia].
              ** rewrite andb_false_r. exists (lex_next l). rewrite Nr.
                 assert (B : (let s' := if Ascii.eqb b nul then "" else String b (cut_nul s2) in
                   match s' with
                   | "" => (String q "", "", true)
                   | String b0 s'' =>
                     if Ascii.eqb q "'" && Ascii.eqb b0 "'"
                     then let '(t, r, c) := bquote q s'' in (String q (String b0 t), r, c)
                     else (String q "", s', true)
                   end) = (String q "", if Ascii.eqb b nul then "" else String b (cut_nul s2), true)).
                 { cbv zeta. destruct (Ascii.eqb b nul); [reflexivity|]. rewrite Eb, andb_false_r. reflexivity. }
                 cbv zeta in B. rewrite B. simpl. repeat split; auto.
        -- destruct (IH n ltac:(lia) (lex_next l) Nv) as (l' & W1 & W2 & W3 & W4 & W5).
           { rewrite Nr. simpl in Hn. lia. }
           exists l'. rewrite Nr in *. destruct (bquote q (cut_nul s)) as [[t r] c].
           simpl fst in *. simpl snd in *. rewrite W3, Np, append_assoc.
           split; [exact W1|]. split; [exact W2|]. split; [reflexivity|]. split; [exact W4|]. simpl; lia.
Qed.

(* ------------------------------------------------------------------ *)
(** * White space *)

Lemma cut_cons : forall s c r, cut_nul s = String c r ->
  exists s', s = String c s' /\ cut_nul s' = r /\ Ascii.eqb c nul = false.
Proof.
  intros [|a s] c r H; simpl in H; [discriminate|].
  destruct (Ascii.eqb a nul) eqn:E; [discriminate|]. injection H as <- <-. eauto.
Qed.

Lemma length_cut : forall s, String.length (cut_nul s) <= String.length s.
Proof. induction s as [|a s IH]; simpl; [lia|]. destruct (Ascii.eqb a nul); simpl; lia. Qed.

Lemma nul_cont : forall a lo h, Ascii.eqb a nul = true -> (128 <= lo)%N -> in_range (code a) lo h = false.
Proof.
  intros a lo h H L. apply Ascii.eqb_eq in H. subst a. unfold in_range.
  apply andb_false_iff. left. apply N.leb_gt. change (code nul) with 0%N. lia.
Qed.

Lemma decode_cut : forall a s, Ascii.eqb a nul = false ->
  decode_rune (cut_nul (String a s)) = decode_rune (String a s).
Proof.
  intros a s Ha. simpl cut_nul. rewrite Ha. unfold decode_rune.
  destruct (code a <? 128)%N; [reflexivity|].
  destruct (in_range (code a) 194 223) eqn:R2.
  { destruct s as [|b s]; simpl; [reflexivity|]. destruct (Ascii.eqb b nul) eqn:Eb; [|reflexivity].
    rewrite nul_cont by (assumption || lia). reflexivity. }
  destruct (in_range (code a) 224 239) eqn:R3.
  { destruct s as [|b [|c s]]; simpl; [reflexivity|destruct (Ascii.eqb b nul); reflexivity|].
    destruct (Ascii.eqb b nul) eqn:Eb.
    - rewrite nul_cont; [reflexivity|assumption|destruct (code a =? 224)%N; lia].
    - destruct (Ascii.eqb c nul) eqn:Ec; [|reflexivity].
      rewrite (nul_cont c) by (assumption || lia). rewrite andb_false_r. reflexivity. }
  destruct (in_range (code a) 240 244) eqn:R4; [|reflexivity].
  destruct s as [|b [|c [|d s]]]; simpl; [reflexivity|destruct (Ascii.eqb b nul); reflexivity
    |destruct (Ascii.eqb b nul); [reflexivity|destruct (Ascii.eqb c nul); reflexivity]|].
  destruct (Ascii.eqb b nul) eqn:Eb.
  - rewrite nul_cont; [reflexivity|assumption|destruct (code a =? 240)%N; lia].
  - destruct (Ascii.eqb c nul) eqn:Ec.
    + rewrite (nul_cont c) by (assumption || lia). rewrite andb_false_r. reflexivity.
    + destruct (Ascii.eqb d nul) eqn:Ed; [|reflexivity].
      rewrite (nul_cont d) by (assumption || lia). rewrite andb_false_r. reflexivity.
Qed.

Lemma drop_append : forall u v, str_drop (String.length u) (u ++ v) = v.
Proof. induction u as [|a u IH]; simpl; intros v; [destruct v; reflexivity|apply IH]. Qed.

Lemma decode_width_pos : forall a s r w, decode_rune (String a s) = (r, w) -> 1 <= w.
Proof.
  intros a s r w H. destruct (hi a) eqn:Ha.
  - apply decode_hi in H; [tauto|assumption].
  - rewrite decode_ascii in H by (unfold hi in Ha; apply negb_false_iff; exact Ha).
    injection H as _ <-. lia.
Qed.

Lemma length_drop : forall n s, String.length (str_drop n s) = String.length s - n.
Proof. induction n as [|n IH]; destruct s as [|a s]; simpl; auto. Qed.

Lemma trim_left_fuel : forall n m s, String.length s <= n -> String.length s <= m ->
  trim_left_f n s = trim_left_f m s.
Proof.
  induction n as [n IH] using lt_wf_ind. intros m s Hn Hm.
  destruct s as [|a s].
  - destruct n, m; reflexivity.
  - destruct n as [|n]; [simpl in Hn; lia|]. destruct m as [|m]; [simpl in Hm; lia|].
    cbn [trim_left_f]. destruct (decode_rune (String a s)) as [r w] eqn:D.
    pose proof (decode_width_pos _ _ _ _ D). destruct (negb (is_empty (String a s)) && is_space r); [|reflexivity].
    simpl String.length in Hn, Hm.
    apply IH; [lia|rewrite length_drop; cbn [String.length]; lia|rewrite length_drop; cbn [String.length]; lia].
Qed.

Lemma skip_spec : forall n l, valid l -> String.length (l_rest l) + 2 <= n ->
  exists l', skip_ws n l = Some l' /\ valid l' /\
    cut_nul (l_rest l') = trim_left (cut_nul (l_rest l)) /\
    String.length (l_rest l') <= String.length (l_rest l).
Proof.
  induction n as [|n IH]; intros l V Hn; [lia|].
  destruct (l_rest l) as [|a s] eqn:E.
  - exists l. simpl. rewrite E. destruct (rune_end l V E) as [R|R]; rewrite R; simpl; auto.
  - simpl skip_ws. assert (V2 := V). unfold valid in V2. rewrite E in V2.
    destruct (Ascii.eqb a nul) eqn:Ez.
    + assert (Re : l_rune l = eof).
      { apply Ascii.eqb_eq in Ez. subst a. rewrite decode_ascii in V2 by reflexivity. injection V2 as <- _. reflexivity. }
      exists l. rewrite Re. simpl. rewrite E. simpl. rewrite Ez. simpl. auto.
    + assert (Step : trim_left (cut_nul (String a s)) =
        if is_space (l_rune l) then trim_left (cut_nul (l_rest (lex_next l))) else cut_nul (String a s)).
      { assert (K : exists w v, decode_rune (String a s) = (l_rune l, w) /\ 1 <= w /\
                 str_drop w (cut_nul (String a s)) = cut_nul v /\ l_rest (lex_next l) = v).
        { destruct (hi a) eqn:Ha.
          - destruct (decode_hi _ _ _ _ Ha V2) as (_ & Hw & u & v & Euv & Lu & Hu & Tu & Dv).
            exists (l_width l), v. split; [exact V2|]. split; [exact Hw|]. split.
            + rewrite Euv, cut_nul_hi by exact Hu. rewrite <- Lu. apply drop_append.
            + unfold lex_next. rewrite E, Dv. destruct (decode_rune v). reflexivity.
          - destruct (next_ascii l a s V E Ha) as (R & Nr & Np & Nv).
            exists 1, s. rewrite R. split; [apply decode_ascii; unfold hi in Ha; apply negb_false_iff; exact Ha|].
            split; [lia|]. split; [|exact Nr]. simpl. rewrite Ez. simpl. destruct (cut_nul s); reflexivity. }
        destruct K as (w & v & D & Hw & Dr & Nr).
        unfold trim_left. simpl cut_nul at 1. rewrite Ez. simpl String.length.
        cbn [trim_left_f]. replace (decode_rune (cut_nul (String a s))) with (l_rune l, w)
          by (rewrite decode_cut by exact Ez; symmetry; exact D).
        replace (is_empty (cut_nul (String a s))) with false by (simpl; rewrite Ez; reflexivity).
        simpl negb. simpl andb. destruct (is_space (l_rune l)); [|reflexivity].
        rewrite Dr, Nr. apply trim_left_fuel; [|lia].
        rewrite <- Dr, length_drop. cbn [cut_nul]. rewrite Ez. cbn [String.length]. lia. }
      rewrite Step. destruct (is_space (l_rune l)); simpl negb; cbv iota.
      * assert (NL : String.length (l_rest (lex_next l)) < String.length (String a s) /\ valid (lex_next l)).
        { destruct (hi a) eqn:Ha.
          - destruct (next_hi l a s V E Ha) as (R & u & v & Euv & Une & Hu & Nr & Np & Nv).
            split; [|exact Nv]. rewrite Nr, Euv, length_append. pose proof (length_pos u Une). lia.
          - destruct (next_ascii l a s V E Ha) as (R & Nr & Np & Nv). split; [|exact Nv]. rewrite Nr. simpl. lia. }
        destruct NL as [NL Nv].
        destruct (l_rune (lex_next l) =? eof)%N eqn:Ee.
        -- exists (lex_next l). split; [reflexivity|]. split; [exact Nv|]. split; [|lia].
           apply N.eqb_eq in Ee. destruct (l_rest (lex_next l)) as [|b t] eqn:E2; [reflexivity|].
           unfold valid in Nv. rewrite E2 in Nv. rewrite Ee in Nv.
           destruct (hi b) eqn:Hb.
           ++ apply decode_hi in Nv; [|exact Hb]. unfold eof in Nv. lia.
           ++ rewrite decode_ascii in Nv by (unfold hi in Hb; apply negb_false_iff; exact Hb).
              injection Nv as Nv _. simpl. rewrite <- eof_is_nul, Nv. reflexivity.
        -- destruct (IH (lex_next l) Nv) as (l' & W1 & W2 & W3 & W4).
           { simpl in NL, Hn. lia. }
           exists l'. split; [exact W1|]. split; [exact W2|]. split; [exact W3|]. lia.
      * exists l. rewrite E. auto.
Qed.

(* ------------------------------------------------------------------ *)
(** * The token stream *)

Lemma map_strip_emit : forall l t k b, strip_tok (emit l t k b) = mkA t (l_pre l) b k.
Proof. reflexivity. Qed.

Lemma strip_word : forall l, strip_tok (word_token l) = a_word (l_pre l).
Proof.
  intro l. unfold word_token, a_word.
  destruct (String.eqb (l_pre l) "true" || String.eqb (l_pre l) "false"); [reflexivity|].
  destruct (String.eqb (l_pre l) "null" || String.eqb (l_pre l) "nil"); [reflexivity|].
  destruct (parse_float (l_pre l)); reflexivity.
Qed.

Definition sc (m : mode) : scanstate := match m with MPlain => ScPlain | MArgs => ScFuncArgs end.

Definition scans (n : nat) (s : scanstate) (l : lexer) (ts : list atok) : Prop :=
  exists toks, scan_loop n s l = Some toks /\ map strip_tok toks = ts.

Lemma scans_step : forall n s l l' toks s' ts,
  scan_step s l = Some (l', toks, Some s') -> scans n s' l' ts ->
  scans (S n) s l (map strip_tok toks ++ ts).
Proof.
  intros n s l l' toks s' ts H (more & Hm & Em). unfold scans. simpl. rewrite H, Hm.
  eexists. split; [reflexivity|]. rewrite map_app, Em. reflexivity.
Qed.

Lemma scans_mono : forall n s l ts, scans n s l ts -> scans (S n) s l ts.
Proof.
  induction n as [|n IH]; intros s l ts (toks & H & E); [discriminate|].
  cbn [scan_loop] in H. destruct (scan_step s l) as [[[l' tk] [s'|]]|] eqn:Hs; [| |discriminate].
  - destruct (scan_loop n s' l') as [more|] eqn:Hm; [|discriminate].
    injection H as <-. rewrite map_app in E. rewrite <- E.
    apply scans_step with (l' := l') (s' := s'); [exact Hs|]. apply IH. exists more. auto.
  - unfold scans. cbn [scan_loop]. rewrite Hs. eauto.
Qed.
Lemma scans_le : forall n m s l ts, n <= m -> scans n s l ts -> scans m s l ts.
Proof. intros n m s l ts H K. induction H; [exact K|apply scans_mono; assumption]. Qed.

Lemma start_pre : forall l, l_pre (start_token l) = "".
Proof. reflexivity. Qed.
Lemma start_rest : forall l, l_rest (start_token l) = l_rest l.
Proof. reflexivity. Qed.

Lemma fuel_ok : forall l, String.length (l_rest l) + 2 <= lex_fuel l.
Proof. intro l. unfold lex_fuel. lia. Qed.

Lemma ascii_rune_not : forall l c, valid l -> (code c <? 128)%N = true -> Ascii.eqb c nul = false ->
  (l_rune l =? code c)%N = match cut_nul (l_rest l) with String b _ => Ascii.eqb b c | "" => false end.
Proof.
  intros l c V Hc Hn. destruct (l_rest l) as [|a s] eqn:E.
  - simpl. destruct (rune_end l V E) as [R|R]; rewrite R; apply N.eqb_neq.
    + apply N.ltb_lt in Hc. unfold rune_error. lia.
    + intro Z. rewrite <- Z in Hc. assert (c = nul) by (apply code_inj; rewrite <- Z; reflexivity).
      subst c. discriminate.
  - destruct (hi a) eqn:Ha.
    + destruct (next_hi l a s V E Ha) as (R & _). simpl. rewrite (hi_neq a nul Ha) by (vm_compute; reflexivity).
      rewrite (hi_neq a c Ha) by (apply N.ltb_lt; exact Hc). apply N.eqb_neq. apply N.ltb_lt in Hc. lia.
    + destruct (next_ascii l a s V E Ha) as (R & _). rewrite R, code_eqb. simpl.
      destruct (Ascii.eqb a nul) eqn:Ez; [|reflexivity].
      apply Ascii.eqb_eq in Ez. subst a. destruct (Ascii.eqb nul c) eqn:Q; [|reflexivity].
      apply Ascii.eqb_eq in Q. subst c. discriminate.
Qed.

Lemma rune_eof : forall l, valid l ->
  (l_rune l =? eof)%N = true -> cut_nul (l_rest l) = "".
Proof.
  intros l V H. apply N.eqb_eq in H. destruct (l_rest l) as [|b t] eqn:E2; [reflexivity|].
  destruct (hi b) eqn:Hb.
  - destruct (next_hi l b t V E2 Hb) as (R & _). unfold eof in H. lia.
  - destruct (next_ascii l b t V E2 Hb) as (R & _). simpl. rewrite <- eof_is_nul, <- R, H. reflexivity.
Qed.

Lemma cut_nonempty_not_eof : forall l, valid l -> cut_nul (l_rest l) <> "" -> (l_rune l =? eof)%N = false.
Proof.
  intros l V H. destruct (l_rune l =? eof)%N eqn:E; [|reflexivity]. exfalso. apply H, rune_eof; assumption.
Qed.

Lemma digit19_rune : forall l, valid l ->
  in_range (l_rune l) 49 57 = match cut_nul (l_rest l) with String b _ => is_digit19 b | "" => false end.
Proof.
  intros l V. destruct (l_rest l) as [|a s] eqn:E.
  - simpl. destruct (rune_end l V E) as [R|R]; rewrite R; reflexivity.
  - destruct (hi a) eqn:Ha.
    + destruct (next_hi l a s V E Ha) as (R & _). simpl. rewrite (hi_neq a nul Ha) by (vm_compute; reflexivity).
      unfold is_digit19, in_range. unfold hi in Ha. apply negb_true_iff, N.ltb_ge in Ha.
      rewrite (proj2 (N.leb_gt (l_rune l) 57)) by lia. rewrite (proj2 (N.leb_gt (code a) 57)) by lia.
      rewrite !andb_false_r. reflexivity.
    + destruct (next_ascii l a s V E Ha) as (R & _). rewrite R. simpl.
      destruct (Ascii.eqb a nul) eqn:Ez; [|reflexivity]. apply Ascii.eqb_eq in Ez. subst a. reflexivity.
Qed.

Lemma span_length : forall p s t r, span p s = (t, r) -> String.length s = String.length t + String.length r.
Proof.
  induction s as [|a s IH]; simpl; intros t r H.
  - injection H as <- <-. reflexivity.
  - destruct (p a); [|injection H as <- <-; reflexivity].
    destruct (span p s) as [t' r'] eqn:E. injection H as <- <-. simpl. rewrite (IH t' r'); auto.
Qed.
Lemma bquote_length : forall q s t r c, bquote q s = (t, r, c) ->
  String.length s = String.length t + String.length r.
Proof.
  intros q s. remember (String.length s) as k eqn:Hk. revert s Hk.
  induction k as [k IH] using lt_wf_ind. intros s Hk t r c H. subst k.
  destruct s as [|a s]; simpl in H.
  - injection H as <- <- <-. reflexivity.
  - destruct (Ascii.eqb a q).
    + destruct s as [|b s2]; [injection H as <- <- <-; reflexivity|].
      destruct (Ascii.eqb q "'" && Ascii.eqb b "'").
      * destruct (bquote q s2) as [[t' r'] c'] eqn:E. injection H as <- <- <-.
        simpl. rewrite (IH (String.length s2) ltac:(simpl; lia) s2 eq_refl _ _ _ E). reflexivity.
      * injection H as <- <- <-. reflexivity.
    + destruct (bquote q s) as [[t' r'] c'] eqn:E. injection H as <- <- <-.
      simpl. rewrite (IH (String.length s) ltac:(simpl; lia) s eq_refl _ _ _ E). reflexivity.
Qed.
Lemma bplain_length : forall s t r, bplain s = (t, r) -> String.length s = String.length t + String.length r.
Proof.
  intro s. remember (String.length s) as k eqn:Hk. revert s Hk.
  induction k as [k IH] using lt_wf_ind. intros s Hk t r H. subst k.
  destruct s as [|a s]; simpl in H.
  - injection H as <- <-. reflexivity.
  - destruct (is_mark a).
    + destruct s as [|b s2]; [injection H as <- <-; reflexivity|].
      destruct (Ascii.eqb b a).
      * destruct (bplain s2) as [t' r'] eqn:E. injection H as <- <-.
        simpl. rewrite (IH (String.length s2) ltac:(simpl; lia) s2 eq_refl _ _ E). reflexivity.
      * injection H as <- <-. reflexivity.
    + destruct (Ascii.eqb a "#" || is_quote a).
      * injection H as <- <-. reflexivity.
      * destruct (bplain s) as [t' r'] eqn:E. injection H as <- <-.
        simpl. rewrite (IH (String.length s) ltac:(simpl; lia) s eq_refl _ _ E). reflexivity.
Qed.
Lemma bplain_stop : forall s t r, bplain s = (t, r) ->
  match r with "" => True | String c _ => Ascii.eqb c "#" || is_mark c || is_quote c = true end.
Proof.
  intro s. remember (String.length s) as k eqn:Hk. revert s Hk.
  induction k as [k IH] using lt_wf_ind. intros s Hk t r H. subst k.
  destruct s as [|a s]; simpl in H.
  - injection H as <- <-. exact I.
  - destruct (is_mark a) eqn:Em.
    + destruct s as [|b s2]; [injection H as <- <-; rewrite Em; apply orb_true_iff; left; apply orb_true_r|].
      destruct (Ascii.eqb b a).
      * destruct (bplain s2) as [t' r'] eqn:E. injection H as <- <-.
        apply (IH (String.length s2) ltac:(simpl; lia) s2 eq_refl _ _ E).
      * injection H as <- <-. rewrite Em. apply orb_true_iff; left; apply orb_true_r.
    + destruct (Ascii.eqb a "#" || is_quote a) eqn:Q.
      * injection H as <- <-. rewrite Em, orb_false_r. exact Q.
      * destruct (bplain s) as [t' r'] eqn:E. injection H as <- <-.
        apply (IH (String.length s) ltac:(simpl; lia) s eq_refl _ _ E).
Qed.
Lemma trim_left_length : forall s, String.length (trim_left s) <= String.length s.
Proof.
  intro s. unfold trim_left. generalize (String.length s) at 1. intro n. revert s.
  induction n as [|n IH]; intros s; simpl; [lia|].
  destruct (decode_rune s) as [r w]. destruct (negb (is_empty s) && is_space r); [|lia].
  specialize (IH (str_drop w s)). rewrite length_drop in IH. lia.
Qed.

Arguments scan_plain_loop : simpl never.
Arguments while_loop : simpl never.
Arguments quoted_loop : simpl never.

Definition good_scan (l : lexer) (m : mode) : Prop :=
  forall n k, 3 * String.length (cut_nul (l_rest l)) + 4 <= n -> String.length (cut_nul (l_rest l)) < k ->
  scans n (sc m) l (btoks k m (cut_nul (l_rest l))).

Lemma scan_at_end : forall n l, valid l -> cut_nul (l_rest l) = "" -> 1 <= n ->
  scans n ScPlain l [a_eof].
Proof.
  intros n l V C Hn. destruct n as [|n]; [lia|].
  destruct (plain_spec (lex_fuel (start_token l)) (start_token l) (valid_start l V) (fuel_ok _))
    as (l' & W1 & W2 & W3 & W4 & W5 & W6).
  rewrite start_rest, C in W1, W3, W4. simpl in W3, W4. cbn [bplain fst snd plain_result] in W1.
  unfold advanced in W1. rewrite W3 in W1. cbn [is_empty negb fst snd] in W1.
  exists [emit l' TkEOF KString false]. cbn [scan_loop scan_step]. unfold scan_plain. rewrite W1.
  split; [reflexivity|]. simpl. unfold a_eof. rewrite map_strip_emit, W3. reflexivity.
Qed.

Lemma hash_quote_mark_ascii : forall c, Ascii.eqb c "#" || is_mark c || is_quote c = true ->
  hi c = false.
Proof.
  intros c H. destruct (hi c) eqn:Hc; [|reflexivity].
  unfold is_mark, is_quote in H. rewrite !(hi_neq c _ Hc) in H by (vm_compute; reflexivity). discriminate.
Qed.

Lemma strip_plain : forall l t, l_pre l = t ->
  map strip_tok (if advanced l then [emit l TkPlain KString false] else []) = a_plain t.
Proof. intros l t <-. unfold advanced, a_plain. destruct (is_empty (l_pre l)); reflexivity. Qed.

Lemma good_all : forall L l m, String.length (cut_nul (l_rest l)) <= L -> valid l -> good_scan l m.
Proof.
  induction L as [L IHL] using lt_wf_ind. intros l m HL V n k Hn Hk.
  assert (IH : forall l' m' n' k', String.length (cut_nul (l_rest l')) < String.length (cut_nul (l_rest l)) -> valid l' ->
     3 * String.length (cut_nul (l_rest l')) + 4 <= n' -> String.length (cut_nul (l_rest l')) < k' ->
     scans n' (sc m') l' (btoks k' m' (cut_nul (l_rest l')))).
  { intros l' m' n' k' H1 H2 H3 H4.
    apply (IHL (String.length (cut_nul (l_rest l')))); auto. lia. }
  clear IHL. destruct k as [|k]; [lia|]. destruct m.
  - (* plain text *)
    cbn [sc btoks].
    destruct (plain_spec (lex_fuel (start_token l)) (start_token l) (valid_start l V) (fuel_ok _))
      as (l' & W1 & W2 & W3 & W4 & W5 & W6).
    rewrite start_rest in *. rewrite start_pre in W3. simpl in W3.
    destruct (bplain (cut_nul (l_rest l))) as [t r] eqn:Eb. simpl fst in *. simpl snd in *.
    pose proof (bplain_length _ _ _ Eb) as Lb. pose proof (bplain_stop _ _ _ Eb) as Sb.
    destruct n as [|n]; [lia|].
    assert (Hstep : scan_step ScPlain l = Some (l', fst (plain_result l' r), snd (plain_result l' r))) by exact W1.
    clear W1. destruct r as [|c r].
    + unfold plain_result in Hstep. destruct (advanced l') eqn:Ad.
      * cbn [fst snd] in Hstep. pose proof (strip_plain l' t W3) as Sp. rewrite Ad in Sp. rewrite <- Sp.
        eapply scans_step; [exact Hstep|]. apply scan_at_end; auto. lia.
      * cbn [fst snd] in Hstep. pose proof (strip_plain l' t W3) as Sp. rewrite Ad in Sp. rewrite <- Sp.
        unfold scans. cbn [scan_loop]. rewrite Hstep. eexists. split; [reflexivity|].
        simpl. rewrite map_strip_emit. unfold advanced in Ad. apply negb_false_iff, is_empty_true in Ad.
        rewrite Ad. reflexivity.
    + pose proof (hash_quote_mark_ascii c Sb) as Hc.
      destruct (cut_cons _ _ _ W4) as (s' & Es' & Cs' & Ecn).
      destruct (next_ascii l' c s' W2 Es' Hc) as (R & Nr & Np & Nv).
      assert (Ls' : String.length r < String.length (cut_nul (l_rest l))).
      { simpl in Lb. lia. }
      assert (Lr : String.length r < k).
      { simpl in Lb. lia. }
      unfold plain_result in Hstep. destruct (Ascii.eqb c "#") eqn:Eh.
      * (* function call *)
        cbn [fst snd] in Hstep. rewrite <- (strip_plain l' t W3). eapply scans_step; [exact Hstep|]. clear Hstep.
        destruct n as [|n]; [lia|].
        set (l1 := lex_next (start_token l')).
        assert (N1 : l_rest l1 = s' /\ l_pre l1 = "#" /\ valid l1).
        { destruct (next_ascii (start_token l') c s' (valid_start _ W2) Es' Hc) as (_ & A & B & C).
          apply Ascii.eqb_eq in Eh. subst c. auto. }
        destruct N1 as (N1r & N1p & N1v).
        change (mkA TkHash "#" false KString :: ?x) with ([mkA TkHash "#" false KString] ++ x)%list.
        replace [mkA TkHash "#" false KString] with (map strip_tok [emit l1 TkHash KString false])
          by (simpl; rewrite map_strip_emit, N1p; reflexivity).
        eapply scans_step with (l' := l1); [reflexivity|].
        destruct n as [|n]; [lia|].
        destruct (while_spec _ _ _ agrees_letter (lex_fuel (start_token l1)) (start_token l1)
                    (valid_start _ N1v) (fuel_ok _)) as (l2 & A1 & A2 & A3 & A4 & A5 & _).
        rewrite start_rest, N1r, Cs' in A3, A4. rewrite start_rest, N1r in A5. rewrite start_pre in A3. simpl in A3.
        destruct (span is_letter r) as [nm r1] eqn:Esp. simpl in A3, A4.
        pose proof (span_length _ _ _ _ Esp) as Lsp.
        destruct (is_empty nm) eqn:Enm.
        -- assert (St : scan_step ScFuncName l1 = Some (l2, [], Some ScPlain)).
           { cbn [scan_step]. unfold scan_func_name. rewrite A1. unfold advanced. rewrite A3, Enm. reflexivity. }
           change (btoks k MPlain r1) with (map strip_tok [] ++ btoks k MPlain r1)%list.
           eapply scans_step; [exact St|]. rewrite <- A4. apply (IH l2 MPlain); auto; rewrite A4; lia.
        -- destruct (while_spec _ _ _ agrees_digit (lex_fuel (start_token l2)) (start_token l2)
                    (valid_start _ A2) (fuel_ok _)) as (l3 & B1 & B2 & B3 & B4 & B5 & _).
           rewrite start_rest, A4 in B3, B4. rewrite start_rest in B5. rewrite start_pre in B3. simpl in B3.
           destruct (span is_digit r1) as [ds r2] eqn:Esp2. simpl in B3, B4.
           pose proof (span_length _ _ _ _ Esp2) as Lsp2.
           assert (Ad2 : advanced l2 = true) by (unfold advanced; rewrite A3, Enm; reflexivity).
           destruct (is_empty ds) eqn:Eds.
           ++ assert (Ad3 : advanced l3 = false) by (unfold advanced; rewrite B3, Eds; reflexivity).
              apply is_empty_true in Eds.
              destruct r2 as [|p r3].
              ** assert (St : scan_step ScFuncName l1 = Some (l3, [emit l2 TkName KString false], Some ScPlain)).
                 { cbn [scan_step]. unfold scan_func_name. rewrite A1. rewrite Ad2. simpl negb. cbv iota.
                   rewrite B1, Ad3. change r_lparen with (code "(").
                   rewrite (ascii_rune_not l3 "(" B2) by reflexivity. rewrite B4. reflexivity. }
                 change (mkA TkName nm false KString :: ?x) with ([mkA TkName nm false KString] ++ x)%list.
                 replace [mkA TkName nm false KString] with (map strip_tok [emit l2 TkName KString false])
                   by (simpl; rewrite map_strip_emit, A3; reflexivity).
                 eapply scans_step; [exact St|]. rewrite <- B4. apply (IH l3 MPlain); auto; rewrite B4; simpl; lia.
              ** destruct (Ascii.eqb p "(") eqn:Ep.
                 --- destruct (cut_cons _ _ _ B4) as (s3 & Es3 & Cs3 & _).
                     assert (Hp : hi p = false) by (apply Ascii.eqb_eq in Ep; subst p; reflexivity).
                     destruct (next_ascii l3 p s3 B2 Es3 Hp) as (R3 & Nr3 & Np3 & Nv3).
                     assert (St : scan_step ScFuncName l1 =
                        Some (lex_next l3, [emit l2 TkName KString false; emit (lex_next l3) TkLparen KString false], Some ScFuncArgs)).
                     { cbn [scan_step]. unfold scan_func_name. rewrite A1. rewrite Ad2. simpl negb. cbv iota.
                       rewrite B1, Ad3. change r_lparen with (code "(").
                       rewrite (ascii_rune_not l3 "(" B2) by reflexivity. rewrite B4, Ep. reflexivity. }
                     change (mkA TkName nm false KString :: mkA TkLparen "(" false KString :: ?x)
                       with ([mkA TkName nm false KString; mkA TkLparen "(" false KString] ++ x)%list.
                     replace [mkA TkName nm false KString; mkA TkLparen "(" false KString] with
                       (map strip_tok [emit l2 TkName KString false; emit (lex_next l3) TkLparen KString false]).
                     2: { simpl; rewrite !map_strip_emit, A3, Np3, B3, Eds. apply Ascii.eqb_eq in Ep. subst p. reflexivity. }
                     eapply scans_step; [exact St|]. rewrite <- Cs3, <- Nr3.
                     simpl in Lsp2.
                     apply (IH (lex_next l3) MArgs); auto; rewrite Nr3, Cs3; lia.
                 --- assert (St : scan_step ScFuncName l1 = Some (l3, [emit l2 TkName KString false], Some ScPlain)).
                     { cbn [scan_step]. unfold scan_func_name. rewrite A1. rewrite Ad2. simpl negb. cbv iota.
                       rewrite B1, Ad3. change r_lparen with (code "(").
                       rewrite (ascii_rune_not l3 "(" B2) by reflexivity. rewrite B4, Ep. reflexivity. }
                     change (mkA TkName nm false KString :: ?x) with ([mkA TkName nm false KString] ++ x)%list.
                     replace [mkA TkName nm false KString] with (map strip_tok [emit l2 TkName KString false])
                       by (simpl; rewrite map_strip_emit, A3; reflexivity).
                     eapply scans_step; [exact St|]. rewrite <- B4. apply (IH l3 MPlain); auto; rewrite B4; lia.
           ++ assert (Ad3 : advanced l3 = true) by (unfold advanced; rewrite B3, Eds; reflexivity).
              assert (St : scan_step ScFuncName l1 =
                 Some (l3, [emit l2 TkName KString false; emit l3 TkLiteral KNumber false], Some ScPlain)).
              { cbn [scan_step]. unfold scan_func_name. rewrite A1. rewrite Ad2. simpl negb. cbv iota.
                rewrite B1, Ad3. reflexivity. }
              change (mkA TkName nm false KString :: a_num ds :: ?x)
                with ([mkA TkName nm false KString; a_num ds] ++ x)%list.
              replace [mkA TkName nm false KString; a_num ds] with
                (map strip_tok [emit l2 TkName KString false; emit l3 TkLiteral KNumber false])
                by (simpl; rewrite !map_strip_emit, A3, B3; reflexivity).
              eapply scans_step; [exact St|]. rewrite <- B4. apply (IH l3 MPlain); auto; rewrite B4; lia.
      * destruct (is_mark c) eqn:Em.
        -- (* bindvar *)
           cbn [fst snd] in Hstep. rewrite <- (strip_plain l' t W3). eapply scans_step; [exact Hstep|]. clear Hstep.
           destruct n as [|n]; [lia|].
           set (l1 := lex_next (start_token l')).
           assert (N1 : l_rest l1 = s' /\ l_pre l1 = String c "" /\ valid l1).
           { destruct (next_ascii (start_token l') c s' (valid_start _ W2) Es' Hc) as (_ & A & B & C). auto. }
           destruct N1 as (N1r & N1p & N1v).
           change (mkA TkRef (String c "") false KString :: ?x) with ([mkA TkRef (String c "") false KString] ++ x)%list.
           replace [mkA TkRef (String c "") false KString] with (map strip_tok [emit l1 TkRef KString false])
             by (simpl; rewrite map_strip_emit, N1p; reflexivity).
           eapply scans_step with (l' := l1); [reflexivity|].
           destruct n as [|n]; [lia|].
           pose proof (digit19_rune l1 N1v) as D19. rewrite N1r, Cs' in D19.
           assert (Skip : in_range (l_rune l1) 49 57 = false -> scans (S n) ScIndex l1 (btoks k MPlain r)).
           { intro F. change (btoks k MPlain r) with (map strip_tok [] ++ btoks k MPlain r)%list.
             eapply scans_step; [cbn [scan_step]; unfold scan_index; rewrite F; reflexivity|].
             rewrite <- Cs', <- N1r. apply (IH l1 MPlain); auto; rewrite N1r, Cs'; lia. }
           destruct r as [|d r0].
           ++ apply Skip. exact D19.
           ++ destruct (is_digit19 d) eqn:Ed.
              ** destruct (while_spec _ _ _ agrees_digit (lex_fuel (start_token l1)) (start_token l1)
                    (valid_start _ N1v) (fuel_ok _)) as (l3 & B1 & B2 & B3 & B4 & B5 & _).
                 rewrite start_rest, N1r, Cs' in B3, B4. rewrite start_rest, N1r in B5. rewrite start_pre in B3.
                 cbn [append] in B3.
                 destruct (span is_digit (String d r0)) as [ds r1] eqn:Esp. simpl fst in B3. simpl snd in B4.
                 pose proof (span_length _ _ _ _ Esp) as Lsp.
                 change (a_num ds :: ?x) with ([a_num ds] ++ x)%list.
                 replace [a_num ds] with (map strip_tok [emit l3 TkLiteral KNumber false])
                   by (simpl; rewrite map_strip_emit, B3; reflexivity).
                 eapply scans_step.
                 { cbn [scan_step]. unfold scan_index. rewrite D19. cbv zeta. rewrite digits_loop_while, B1. reflexivity. }
                 rewrite <- B4. apply (IH l3 MPlain); auto; rewrite B4; lia.
              ** apply Skip. exact D19.
        -- (* quoted text *)
           cbn [fst snd] in Hstep. simpl in Sb.
           destruct (quoted_spec c Sb (lex_fuel (lex_next l')) (lex_next l') Nv (fuel_ok _))
             as (l2 & A1 & A2 & A3 & A4 & A5).
           rewrite Nr, Cs' in A1, A3, A4. rewrite Nr in A5.
           destruct (bquote c r) as [[b r1] closed] eqn:Eq. simpl fst in *. simpl snd in *.
           pose proof (bquote_length _ _ _ _ _ Eq) as Lq.
           change (mkA TkPlain (t ++ String c b) (negb closed) KString :: btoks k MPlain r1) with
             (map strip_tok [] ++ mkA TkPlain (t ++ String c b) (negb closed) KString :: btoks k MPlain r1)%list.
           eapply scans_step; [exact Hstep|]. destruct n as [|n]; [lia|].
           change (mkA TkPlain (t ++ String c b) (negb closed) KString :: btoks k MPlain r1) with
             ([mkA TkPlain (t ++ String c b) (negb closed) KString] ++ btoks k MPlain r1)%list.
           replace [mkA TkPlain (t ++ String c b) (negb closed) KString] with
             (map strip_tok [emit l2 TkPlain KString (negb closed)]).
           2: { simpl. rewrite map_strip_emit, A3, Np, W3, append_assoc. reflexivity. }
           eapply scans_step.
           { cbn [scan_step]. unfold scan_quoted_plain. rewrite R. rewrite A1. reflexivity. }
           rewrite <- A4. apply (IH l2 MPlain); auto; rewrite A4; lia.
  - (* function arguments *)
    cbn [sc btoks].
    destruct (skip_spec (lex_fuel l) l V (fuel_ok _)) as (l1 & A1 & A2 & A3 & A4).
    pose proof (trim_left_length (cut_nul (l_rest l))) as Lt.
    destruct n as [|n]; [lia|].
    set (l2 := start_token l1). assert (V2 : valid l2) by exact A2.
    assert (R2 : l_rest l2 = l_rest l1) by reflexivity.
    assert (P2 : l_pre l2 = "") by reflexivity.
    destruct (trim_left (cut_nul (l_rest l))) as [|c r] eqn:Et.
    + (* end of input *)
      change [a_eof] with (map strip_tok [] ++ [a_eof])%list.
      assert (E2 : cut_nul (l_rest l2) = "") by (rewrite R2; exact A3).
      destruct (l_rune l2 =? eof)%N eqn:Ee.
      * eapply scans_step.
        { cbn [scan_step]. unfold scan_func_args. rewrite A1. cbv zeta. fold l2. rewrite Ee. reflexivity. }
        apply scan_at_end; auto. lia.
      * destruct (while_spec _ _ _ agrees_word (lex_fuel l2) l2 V2 (fuel_ok _)) as (l3 & B1 & B2 & B3 & B4 & B5 & B6).
        rewrite E2 in B3, B4. simpl in B3, B4.
        eapply scans_step.
        { cbn [scan_step]. unfold scan_func_args. rewrite A1. cbv zeta. fold l2. rewrite Ee.
          change r_comma with (code ","). change r_rparen with (code ")"). change r_squote with (code "'").
          rewrite !ascii_rune_not by (exact V2 || reflexivity). rewrite E2.
          rewrite B1. unfold advanced. rewrite B3. reflexivity. }
        specialize (B6 eq_refl B4). destruct n as [|n]; [lia|].
        change [a_eof] with (map strip_tok [] ++ [a_eof])%list.
        eapply scans_step.
        { cbn [scan_step]. unfold scan_func_args.
          assert (Sk : skip_ws (lex_fuel l3) l3 = Some l3).
          { unfold lex_fuel. cbn [skip_ws]. rewrite B6. reflexivity. }
          rewrite Sk. cbv zeta. change (l_rune (start_token l3)) with (l_rune l3). rewrite B6. reflexivity. }
        apply scan_at_end; [exact B2|exact B4|lia].
    + destruct (cut_cons _ _ _ A3) as (s' & Es' & Cs' & Ecn).
      assert (Ne : (l_rune l2 =? eof)%N = false).
      { apply cut_nonempty_not_eof; [exact V2|]. rewrite R2, A3. discriminate. }
      assert (Ls' : String.length r < String.length (cut_nul (l_rest l))).
      { simpl in Lt. lia. }
      assert (Lr : String.length r < k) by (simpl in Lt; lia).
      assert (Hcut : cut_nul (l_rest l2) = String c r) by (rewrite R2; exact A3).
      destruct (Ascii.eqb c ",") eqn:Ec.
      * assert (Hc : hi c = false) by (apply Ascii.eqb_eq in Ec; subst c; reflexivity).
        destruct (next_ascii l2 c s' V2 Es' Hc) as (R & Nr & Np & Nv).
        change (mkA TkComma "," false KString :: ?x) with ([mkA TkComma "," false KString] ++ x)%list.
        replace [mkA TkComma "," false KString] with (map strip_tok [emit (lex_next l2) TkComma KString false]).
        2: { simpl. rewrite map_strip_emit, Np, P2. apply Ascii.eqb_eq in Ec; subst c. reflexivity. }
        eapply scans_step.
        { cbn [scan_step]. unfold scan_func_args. rewrite A1. cbv zeta. fold l2. rewrite Ne.
          change r_comma with (code ","). rewrite !ascii_rune_not by (exact V2 || reflexivity). rewrite Hcut, Ec. reflexivity. }
        rewrite <- Cs', <- Nr. apply (IH (lex_next l2) MArgs); auto; rewrite Nr, Cs'; lia.
      * destruct (Ascii.eqb c ")") eqn:Ec2.
        { assert (Hc : hi c = false) by (apply Ascii.eqb_eq in Ec2; subst c; reflexivity).
          destruct (next_ascii l2 c s' V2 Es' Hc) as (R & Nr & Np & Nv).
          change (mkA TkRparen ")" false KString :: ?x) with ([mkA TkRparen ")" false KString] ++ x)%list.
          replace [mkA TkRparen ")" false KString] with (map strip_tok [emit (lex_next l2) TkRparen KString false]).
          2: { simpl. rewrite map_strip_emit, Np, P2. apply Ascii.eqb_eq in Ec2; subst c. reflexivity. }
          eapply scans_step.
          { cbn [scan_step]. unfold scan_func_args. rewrite A1. cbv zeta. fold l2. rewrite Ne.
            change r_comma with (code ","). change r_rparen with (code ")").
            rewrite !ascii_rune_not by (exact V2 || reflexivity). rewrite Hcut, Ec, Ec2. reflexivity. }
          rewrite <- Cs', <- Nr. apply (IH (lex_next l2) MPlain); auto; rewrite Nr, Cs'; lia. }
        destruct (Ascii.eqb c "'") eqn:Ec3.
        { assert (Hc : hi c = false) by (apply Ascii.eqb_eq in Ec3; subst c; reflexivity).
          assert (Qc : is_quote c = true) by (apply Ascii.eqb_eq in Ec3; subst c; reflexivity).
          destruct (next_ascii l2 c s' V2 Es' Hc) as (R & Nr & Np & Nv).
          destruct (quoted_spec c Qc (lex_fuel (lex_next l2)) (lex_next l2) Nv (fuel_ok _))
             as (l3 & B1 & B2 & B3 & B4 & B5).
          rewrite Nr, Cs' in B1, B3, B4. rewrite Nr in B5.
          destruct (bquote c r) as [[b r1] closed] eqn:Eq. simpl fst in *. simpl snd in *.
          pose proof (bquote_length _ _ _ _ _ Eq) as Lq.
          set (rest := btoks k (if closed then MArgs else MPlain) r1).
          change (mkA TkLiteral (String c b) (negb closed) KString :: rest) with
             (map strip_tok [] ++ mkA TkLiteral (String c b) (negb closed) KString :: rest)%list.
          eapply scans_step.
          { cbn [scan_step]. unfold scan_func_args. rewrite A1. cbv zeta. fold l2. rewrite Ne.
            change r_comma with (code ","). change r_rparen with (code ")"). change r_squote with (code "'").
            rewrite !ascii_rune_not by (exact V2 || reflexivity). rewrite Hcut, Ec, Ec2, Ec3. reflexivity. }
          destruct n as [|n]; [lia|].
          change (mkA TkLiteral (String c b) (negb closed) KString :: rest) with
             ([mkA TkLiteral (String c b) (negb closed) KString] ++ rest)%list.
          replace [mkA TkLiteral (String c b) (negb closed) KString] with
             (map strip_tok [emit l3 TkLiteral KString (negb closed)]).
          2: { simpl. rewrite map_strip_emit, B3, Np, P2. reflexivity. }
          eapply scans_step.
          { cbn [scan_step]. unfold scan_func_arg_quoted. rewrite R, B1. reflexivity. }
          unfold rest. rewrite <- B4.
          destruct closed.
          - apply (IH l3 MArgs); auto; rewrite B4; lia.
          - apply (IH l3 MPlain); auto; rewrite B4; lia. }
        destruct (while_spec _ _ _ agrees_word (lex_fuel l2) l2 V2 (fuel_ok _)) as (l3 & B1 & B2 & B3 & B4 & B5 & B6).
        rewrite Hcut in B3, B4. rewrite P2 in B3. cbn [append] in B3.
        destruct (span is_word (String c r)) as [w r1] eqn:Esp. simpl fst in B3. simpl snd in B4.
        pose proof (span_length _ _ _ _ Esp) as Lsp.
        assert (Wne : is_empty w = false).
        { simpl in Esp. unfold is_word in Esp at 1. rewrite Ec, Ec2 in Esp. simpl in Esp.
          destruct (span is_word r). injection Esp as <- <-. reflexivity. }
        change (a_word w :: ?x) with ([a_word w] ++ x)%list.
        replace [a_word w] with (map strip_tok [word_token l3]) by (simpl; rewrite strip_word, B3; reflexivity).
        eapply scans_step.
        { cbn [scan_step]. unfold scan_func_args. rewrite A1. cbv zeta. fold l2. rewrite Ne.
          change r_comma with (code ","). change r_rparen with (code ")"). change r_squote with (code "'").
          rewrite !ascii_rune_not by (exact V2 || reflexivity). rewrite Hcut, Ec, Ec2, Ec3.
          rewrite B1. unfold advanced. rewrite B3, Wne. reflexivity. }
        assert (Wpos : 1 <= String.length w) by (destruct w; [discriminate|simpl; lia]).
        rewrite <- B4. simpl in Lsp. apply (IH l3 MArgs); auto; rewrite B4; lia.
Qed.

Lemma new_lexer_ok : forall s, valid (new_lexer s) /\ l_rest (new_lexer s) = s.
Proof.
  intros [|a s].
  - unfold new_lexer, lex_next, valid. simpl. auto.
  - unfold new_lexer, lex_next. cbn [l_rest l_width str_drop].
    destruct (decode_rune (String a s)) as [r w] eqn:D. unfold valid. cbn [l_rest l_rune l_width]. auto.
Qed.

Theorem scan_all_spec : forall s, exists toks,
  scan_all s = Some toks /\ map strip_tok toks = btokens (cut_nul s).
Proof.
  intro s. destruct (new_lexer_ok s) as [V R].
  pose proof (good_all _ (new_lexer s) MPlain (le_n _) V) as G. unfold good_scan in G. rewrite R in G.
  pose proof (length_cut s).
  destruct (G (scan_fuel s) (S (String.length (cut_nul s)))) as (toks & H1 & H2);
    [unfold scan_fuel; lia|lia|].
  exists toks. split; assumption.
Qed.

(* ------------------------------------------------------------------ *)
(** * The parser *)

Definition tok_ok (t : atok) : Prop :=
  (a_typ t = TkRef -> a_lit t = "$" \/ a_lit t = "?") /\
  (a_typ t = TkLiteral -> a_bad t = false -> a_kind t = KString -> 2 <= String.length (a_lit t)).

Fixpoint ends (ts : list atok) : Prop :=
  match ts with
  | [] => False
  | [t] => a_typ t = TkEOF
  | _ :: ts' => ends ts'
  end.

Lemma ends_app : forall a b, ends b -> ends (a ++ b).
Proof.
  induction a as [|x a IH]; simpl; intros b H; [exact H|].
  destruct (a ++ b)%list eqn:E; [|rewrite <- E; auto].
  apply app_eq_nil in E. destruct E; subst. destruct H.
Qed.
Lemma ends_cons : forall t b, ends b -> ends (t :: b).
Proof. intros t b H. apply (ends_app [t] b H). Qed.
Lemma ends_tail : forall t b, ends (t :: b) -> a_typ t <> TkEOF -> ends b.
Proof. intros t b H N. simpl in H. destruct b; [congruence|exact H]. Qed.

Lemma bquote_closed : forall q s t r, bquote q s = (t, r, true) -> 1 <= String.length t.
Proof.
  intros q s t r H. destruct s as [|a s]; simpl in H; [discriminate|].
  destruct (Ascii.eqb a q).
  - destruct s as [|b s]; [inversion H; subst; simpl; lia|].
    destruct (Ascii.eqb q "'" && Ascii.eqb b "'"); [destruct (bquote q s) as [[? ?] ?]|];
      inversion H; subst; simpl; lia.
  - destruct (bquote q s) as [[? ?] ?]. inversion H; subst. simpl. lia.
Qed.

Lemma mark_lit : forall c, is_mark c = true -> String c "" = "$" \/ String c "" = "?".
Proof.
  intros c H. unfold is_mark in H. apply orb_true_iff in H. destruct H as [H|H]; apply Ascii.eqb_eq in H; subst c; auto.
Qed.

Lemma btoks_ok : forall k m s, String.length s < k ->
  Forall tok_ok (btoks k m s) /\ ends (btoks k m s).
Proof.
  assert (T0 : forall t l b kd, t <> TkRef -> t <> TkLiteral -> tok_ok (mkA t l b kd)).
  { intros. split; simpl; intros; congruence. }
  assert (Tn : forall s, tok_ok (a_num s)) by (intro; split; simpl; intros; congruence).
  assert (Tw : forall s, tok_ok (a_word s)).
  { intro s. unfold a_word.
    destruct (String.eqb s "true" || String.eqb s "false"); [split; simpl; intros; congruence|].
    destruct (String.eqb s "null" || String.eqb s "nil"); [split; simpl; intros; congruence|].
    destruct (parse_float s); split; simpl; intros; congruence. }
  assert (Tp : forall s ts, Forall tok_ok ts /\ ends ts -> Forall tok_ok (a_plain s ++ ts) /\ ends (a_plain s ++ ts)).
  { intros s ts [A B]. unfold a_plain. destruct (is_empty s); [auto|]. split.
    - constructor; [apply T0; congruence|exact A].
    - apply ends_app, B. }
  assert (Tc : forall t ts, tok_ok t -> Forall tok_ok ts /\ ends ts -> Forall tok_ok (t :: ts) /\ ends (t :: ts)).
  { intros t ts H [A B]. split; [constructor; assumption|apply ends_cons, B]. }
  assert (Te : Forall tok_ok [a_eof] /\ ends [a_eof]).
  { split; [|reflexivity]. constructor; [|constructor]. apply T0; congruence. }
  induction k as [|k IH]; intros m s Hk; [lia|]. cbn [btoks]. destruct m.
  - destruct (bplain s) as [t r] eqn:Eb. pose proof (bplain_length _ _ _ Eb) as Lb.
    destruct r as [|c r].
    + apply Tp, Te.
    + simpl in Lb. destruct (Ascii.eqb c "#").
      * apply Tp. apply Tc; [apply T0; congruence|].
        destruct (span is_letter r) as [nm r1] eqn:E1. apply span_length in E1.
        destruct (is_empty nm); [apply IH; lia|]. apply Tc; [apply T0; congruence|].
        destruct (span is_digit r1) as [ds r2] eqn:E2. apply span_length in E2.
        destruct (is_empty ds).
        -- destruct r2 as [|p r3]; [apply IH; simpl in *; lia|].
           destruct (Ascii.eqb p "("); [|apply IH; lia]. simpl in E2.
           apply Tc; [apply T0; congruence|]. apply IH. lia.
        -- apply Tc; [apply Tn|]. apply IH. lia.
      * destruct (is_mark c) eqn:Em.
        -- apply Tp. apply Tc.
           { split; simpl; intros; [apply mark_lit; assumption|congruence]. }
           destruct r as [|d r0]; [apply IH; simpl; lia|].
           destruct (is_digit19 d); [|apply IH; lia].
           destruct (span is_digit (String d r0)) as [ds r1] eqn:E1. apply span_length in E1.
           apply Tc; [apply Tn|]. apply IH. lia.
        -- destruct (bquote c r) as [[b r1] cl] eqn:Eq. apply bquote_length in Eq.
           apply Tc; [apply T0; congruence|]. apply IH. lia.
  - pose proof (trim_left_length s) as Lt.
    destruct (trim_left s) as [|c r] eqn:Et; [apply Te|]. simpl in Lt.
    destruct (Ascii.eqb c ",") eqn:Ec; [apply Tc; [apply T0; congruence|apply IH; lia]|].
    destruct (Ascii.eqb c ")") eqn:Ec2; [apply Tc; [apply T0; congruence|apply IH; lia]|].
    destruct (Ascii.eqb c "'").
    + destruct (bquote c r) as [[b r1] cl] eqn:Eq. pose proof (bquote_length _ _ _ _ _ Eq) as Lq.
      apply Tc; [|apply IH; lia]. split; simpl; intros; [congruence|].
      destruct cl; [|discriminate]. apply bquote_closed in Eq. lia.
    + destruct (span is_word (String c r)) as [w r1] eqn:E1.
      apply Tc; [apply Tw|]. assert (E2 := E1). simpl in E2. unfold is_word in E2 at 1. rewrite Ec, Ec2 in E2. simpl in E2.
      destruct (span is_word r) as [w2 r2]. injection E2 as <- <-.
      apply span_length in E1. simpl in E1. apply IH. lia.
Qed.
