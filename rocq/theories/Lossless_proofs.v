(** Every accepted template is the concatenation of texts of its expressions. *)
From Coq Require Import Strings.String Strings.Ascii NArith ZArith List Bool Lia.
From Verif Require Import GoStr GoNum Syntax Spec_syntax ByteLex Lex_proofs Parse_proofs Num_proofs Grammar_proofs.
Import ListNotations.
Open Scope string_scope.

Lemma bplain_split : forall s t r, bplain s = (t, r) -> s = t ++ r.
Proof.
  intro s. remember (String.length s) as k eqn:Hk. revert s Hk.
  induction k as [k IH] using lt_wf_ind. intros s Hk t r H. subst k.
  destruct s as [|a s]; simpl in H; [injection H as <- <-; reflexivity|].
  destruct (is_mark a).
  - destruct s as [|b s]; [injection H as <- <-; reflexivity|].
    destruct (Ascii.eqb b a); [|injection H as <- <-; reflexivity].
    destruct (bplain s) as [t0 r0] eqn:E. injection H as <- <-.
    rewrite (IH (String.length s) ltac:(simpl; lia) s eq_refl t0 r0 E) at 1. reflexivity.
  - destruct (Ascii.eqb a "#" || is_quote a); [injection H as <- <-; reflexivity|].
    destruct (bplain s) as [t0 r0] eqn:E. injection H as <- <-.
    rewrite (IH (String.length s) ltac:(simpl; lia) s eq_refl t0 r0 E) at 1. reflexivity.
Qed.

Lemma bquote_split : forall q s t r c, bquote q s = (t, r, c) -> s = t ++ r.
Proof.
  intros q s. remember (String.length s) as k eqn:Hk. revert s Hk.
  induction k as [k IH] using lt_wf_ind. intros s Hk t r c H. subst k.
  destruct s as [|a s]; simpl in H; [injection H as <- <- <-; reflexivity|].
  destruct (Ascii.eqb a q).
  - destruct s as [|b s]; [injection H as <- <- <-; reflexivity|].
    destruct (Ascii.eqb q "'" && Ascii.eqb b "'"); [|injection H as <- <- <-; reflexivity].
    destruct (bquote q s) as [[t0 r0] c0] eqn:E. injection H as <- <- <-.
    rewrite (IH (String.length s) ltac:(simpl; lia) s eq_refl t0 r0 c0 E) at 1. reflexivity.
  - destruct (bquote q s) as [[t0 r0] c0] eqn:E. injection H as <- <- <-.
    rewrite (IH (String.length s) ltac:(simpl; lia) s eq_refl t0 r0 c0 E) at 1. reflexivity.
Qed.

Lemma bquote_closed_body : forall s t r, bquote "'" s = (t, r, true) -> no_nul s = true ->
  exists b, t = b ++ "'" /\ body_ok "'" b = true.
Proof.
  intro s. remember (String.length s) as k eqn:Hk. revert s Hk.
  induction k as [k IH] using lt_wf_ind. intros s Hk t r H Hn. subst k.
  destruct s as [|a s]; [discriminate|]. unfold no_nul in Hn. cbn [all] in Hn.
  apply andb_true_iff in Hn. destruct Hn as [Ha Hn]. cbn [bquote] in H.
  destruct (Ascii.eqb a "'") eqn:Ea.
  - apply Ascii.eqb_eq in Ea. subst a. destruct s as [|b s]; [injection H as <- <-; exists ""; auto|].
    change (Ascii.eqb "'" "'") with true in H. cbn [andb] in H.
    destruct (Ascii.eqb b "'") eqn:Eb; [|injection H as <- <-; exists ""; auto].
    apply Ascii.eqb_eq in Eb. subst b.
    destruct (bquote "'" s) as [[t0 r0] c0] eqn:E. inversion H; subst.
    cbn [all] in Hn. apply andb_true_iff in Hn. destruct Hn as [_ Hn].
    destruct (IH (String.length s) ltac:(simpl; lia) s eq_refl t0 r E Hn) as (b & -> & B).
    exists (String "'" (String "'" b)). split; [reflexivity|exact B].
  - destruct (bquote "'" s) as [[t0 r0] c0] eqn:E. inversion H; subst.
    destruct (IH (String.length s) ltac:(simpl; lia) s eq_refl t0 r E Hn) as (b & -> & B).
    exists (String a b). split; [reflexivity|]. cbn [body_ok]. rewrite Ea, Ha. exact B.
Qed.

Lemma span_split : forall p s t r, span p s = (t, r) -> s = t ++ r /\ all p t = true.
Proof.
  induction s as [|a s IH]; intros t r H; simpl in H; [injection H as <- <-; auto|].
  destruct (p a) eqn:P; [|injection H as <- <-; auto].
  destruct (span p s) as [t0 r0] eqn:E. injection H as <- <-. destruct (IH _ _ eq_refl) as [-> A].
  split; [reflexivity|]. cbn [all]. rewrite P, A. reflexivity.
Qed.

(** White space in front. *)
Lemma decode_prefix : forall a s r w x, decode_rune (String a s) = (r, w) -> is_space r = true ->
  decode_rune (str_take w (String a s) ++ x) = (r, w) /\ String.length (str_take w (String a s)) = w.
Proof.
  intros a s r w x H Hs.
  assert (E : forall w', (rune_error, 1) = (r, w') -> False).
  { intros w' E. injection E as <- <-. discriminate Hs. }
  unfold decode_rune in H. fold (code a) in H.
  destruct (code a <? 128)%N eqn:L1.
  { injection H as <- <-. cbn [str_take append]. rewrite decode_ascii by exact L1. auto. }
  destruct (in_range (code a) 194 223) eqn:R2.
  { destruct s as [|a1 s]; [exfalso; eapply E; exact H|].
    destruct (in_range (code a1) 128 191) eqn:R21; [|exfalso; eapply E; exact H].
    injection H as <- <-. cbn [str_take append]. unfold decode_rune. rewrite L1, R2, R21. auto. }
  destruct (in_range (code a) 224 239) eqn:R3.
  { destruct s as [|a1 [|a2 s]]; try (exfalso; eapply E; exact H).
    destruct (in_range (code a1) (if (code a =? 224)%N then 160%N else 128%N)
                (if (code a =? 237)%N then 159%N else 191%N) && in_range (code a2) 128 191) eqn:R;
      [|exfalso; eapply E; exact H].
    injection H as <- <-. cbn [str_take append]. unfold decode_rune. rewrite L1, R2, R3, R. auto. }
  destruct (in_range (code a) 240 244) eqn:R4; [|exfalso; eapply E; exact H].
  destruct s as [|a1 [|a2 [|a3 s]]]; try (exfalso; eapply E; exact H).
  destruct (in_range (code a1) (if (code a =? 240)%N then 144%N else 128%N)
              (if (code a =? 244)%N then 143%N else 191%N) && in_range (code a2) 128 191
            && in_range (code a3) 128 191) eqn:R; [|exfalso; eapply E; exact H].
  injection H as <- <-. cbn [str_take append]. unfold decode_rune. rewrite L1, R2, R3, R4, R. auto.
Qed.

Lemma trim_left_unfold : forall a s, trim_left (String a s) =
  let (r, w) := decode_rune (String a s) in
  if is_space r then trim_left (str_drop w (String a s)) else String a s.
Proof.
  intros a s. unfold trim_left at 1. cbn [String.length trim_left_f].
  destruct (decode_rune (String a s)) as [r w] eqn:D. cbn [is_empty negb andb].
  destruct (is_space r); [|reflexivity]. unfold trim_left.
  pose proof (decode_width_pos _ _ _ _ D). apply trim_left_fuel; [|lia].
  rewrite length_drop. cbn [String.length]. lia.
Qed.

Lemma drop_take : forall w s x, String.length (str_take w s) = w -> str_drop w (str_take w s ++ x) = x.
Proof. intros w s x H. rewrite <- H at 1. apply drop_append. Qed.

Lemma trim_left_split : forall s, exists w, s = w ++ trim_left s /\ white w.
Proof.
  intro s. remember (String.length s) as k eqn:Hk. revert s Hk.
  induction k as [k IH] using lt_wf_ind. intros s Hk. subst k.
  destruct s as [|a s]; [exists ""; split; reflexivity|].
  rewrite trim_left_unfold. destruct (decode_rune (String a s)) as [r w] eqn:D.
  destruct (is_space r) eqn:Sp; [|exists ""; split; reflexivity].
  pose proof (decode_width_pos _ _ _ _ D) as Wp.
  destruct (IH (String.length (str_drop w (String a s))) ltac:(rewrite length_drop; cbn [String.length]; lia) _ eq_refl)
    as (u & Eu & Wu).
  exists (str_take w (String a s) ++ u). split.
  - rewrite append_assoc, <- Eu. symmetry. apply take_drop.
  - unfold white. destruct (decode_prefix a s r w u D Sp) as [Dp Lp].
    destruct w as [|w]; [lia|]. cbn [str_take append] in *.
    rewrite trim_left_unfold, Dp, Sp. rewrite <- Wu. f_equal.
    apply (drop_take (S w) (String a s) u Lp).
Qed.

(* ------------------------------------------------------------------ *)

Lemma word_source : forall w v, a_typ (a_word w) = TkLiteral -> a_value (a_word w) = Some v -> arg_source v w.
Proof.
  intros w v. unfold a_word.
  destruct (String.eqb w "true") eqn:E1.
  { apply String.eqb_eq in E1. subst w. intros _ H. injection H as <-. constructor. }
  destruct (String.eqb w "false") eqn:E2.
  { apply String.eqb_eq in E2. subst w. intros _ H. injection H as <-. constructor. }
  cbn [orb]. destruct (String.eqb w "null") eqn:E3.
  { apply String.eqb_eq in E3. subst w. intros _ H. injection H as <-. constructor. }
  destruct (String.eqb w "nil") eqn:E4.
  { apply String.eqb_eq in E4. subst w. intros _ H. injection H as <-. constructor. }
  cbn [orb]. destruct (parse_float w) as [f|] eqn:P; [|discriminate].
  intros _ H. unfold a_value in H. cbn [a_bad a_kind a_lit] in H. rewrite P in H. injection H as <-.
  constructor. exact P.
Qed.

Lemma args_lossless : forall s nm acc idx st es,
  ap (PArg nm acc) idx st (tk MArgs s) = Some es -> no_nul s = true ->
  exists args t es' s', es = ACall nm (acc ++ args) :: es' /\ args_source args t /\ s = t ++ s' /\
    ap PTop idx st (tk MPlain s') = Some es' /\ String.length s' < String.length s.
Proof.
  intro s. remember (String.length s) as k eqn:Hk. revert s Hk.
  induction k as [k IH] using lt_wf_ind. intros s Hk nm acc idx st es H Hn. subst k.
  rewrite tk_args in H. destruct (trim_left_split s) as (w & Es & Ww).
  assert (Ln : no_nul (trim_left s) = true).
  { rewrite Es, no_nul_app in Hn. apply andb_true_iff in Hn. apply Hn. }
  assert (Lw : String.length s = String.length w + String.length (trim_left s)).
  { rewrite Es at 1. apply length_append. }
  destruct (trim_left s) as [|c r] eqn:Et; [discriminate|]. cbn [String.length] in Lw.
  destruct (Ascii.eqb c ",") eqn:Ec; [discriminate|].
  destruct (Ascii.eqb c ")") eqn:Ec2.
  { cbn [ap a_typ] in H. destruct (ap PTop idx st (tk MPlain r)) as [es'|] eqn:A; [|discriminate].
    injection H as <-. apply Ascii.eqb_eq in Ec2. subst c.
    exists [], (w ++ ")"), es', r. rewrite app_nil_r. repeat split; auto.
    - constructor. exact Ww.
    - rewrite append_assoc. exact Es.
    - lia. }
  (* an argument [a], then [r1] *)
  assert (Arg : forall v a r1, arg_source v a -> String c r = a ++ r1 -> String.length r1 <= String.length r ->
    ap (PSep nm (acc ++ [v])) idx st (tk MArgs r1) = Some es ->
    exists args t es' s', es = ACall nm (acc ++ args) :: es' /\ args_source args t /\ s = t ++ s' /\
      ap PTop idx st (tk MPlain s') = Some es' /\ String.length s' < String.length s).
  { intros v a r1 Sv Er Lr A. rewrite tk_args in A. destruct (trim_left_split r1) as (w2 & E2 & W2).
    assert (L2 : String.length r1 = String.length w2 + String.length (trim_left r1)).
    { rewrite E2 at 1. apply length_append. }
    assert (N1 : no_nul r1 = true).
    { rewrite Er, no_nul_app in Ln. apply andb_true_iff in Ln. apply Ln. }
    assert (N2 : no_nul (trim_left r1) = true).
    { rewrite E2, no_nul_app in N1. apply andb_true_iff in N1. apply N1. }
    destruct (trim_left r1) as [|c2 r2]; [discriminate|]. cbn [String.length] in L2.
    destruct (Ascii.eqb c2 ",") eqn:Q1.
    - apply Ascii.eqb_eq in Q1. subst c2. cbn [ap a_typ] in A.
      unfold no_nul in N2. cbn [all] in N2. apply andb_true_iff in N2. destruct N2 as [_ N2].
      destruct (IH (String.length r2) ltac:(lia) r2 eq_refl nm _ idx st es A N2) as (args & t & es' & s' & X1 & X2 & X3 & X4 & X5).
      exists (v :: args), (w ++ a ++ w2 ++ "," ++ t), es', s'. rewrite <- app_assoc in X1. split; [exact X1|]. split; [constructor; assumption|].
      split; [|split; [exact X4|lia]].
      rewrite !append_assoc. rewrite Es, Er. f_equal. f_equal. rewrite E2. f_equal. cbn [append]. rewrite X3. reflexivity.
    - destruct (Ascii.eqb c2 ")") eqn:Q2.
      + apply Ascii.eqb_eq in Q2. subst c2. cbn [ap a_typ] in A.
        destruct (ap PTop idx st (tk MPlain r2)) as [es'|] eqn:A2; [|discriminate].
        injection A as <-. exists [v], (w ++ a ++ w2 ++ ")"), es', r2. split; [reflexivity|]. split; [constructor; assumption|].
        split; [|split; [exact A2|lia]].
        rewrite !append_assoc. rewrite Es, Er. f_equal. f_equal. exact E2.
      + destruct (Ascii.eqb c2 "'").
        * destruct (bquote c2 r2) as [[? ?] ?]. discriminate.
        * destruct (span is_word (String c2 r2)) as [w3 ?]. cbn [ap] in A. unfold a_word in A.
          destruct (_ || _); [discriminate|]. destruct (_ || _); [discriminate|]. destruct (parse_float w3); discriminate. }
  destruct (Ascii.eqb c "'") eqn:Ec3.
  - apply Ascii.eqb_eq in Ec3. subst c. destruct (bquote "'" r) as [[b r1] cl] eqn:Eq. cbn [ap a_typ] in H.
    destruct cl; [|discriminate H]. unfold a_value in H. cbn [a_bad negb a_kind a_lit] in H.
    unfold no_nul in Ln. cbn [all] in Ln. apply andb_true_iff in Ln. destruct Ln as [_ Ln'].
    destruct (bquote_closed_body r b r1 Eq Ln') as (body & -> & B).
    rewrite strip_quotes_ok in H. cbn [option_map] in H.
    pose proof (bquote_split _ _ _ _ _ Eq) as Sq. pose proof (bquote_length _ _ _ _ _ Eq) as Lq.
    apply (Arg (LStr (undouble_quotes body)) ("'" ++ body ++ "'") r1); [constructor; exact B| |lia|exact H].
    rewrite Sq. reflexivity.
  - destruct (span is_word (String c r)) as [a r1] eqn:Ew. destruct (span_split _ _ _ _ Ew) as [Sw _].
    assert (Lr : String.length r1 <= String.length r).
    { simpl in Ew. unfold is_word in Ew at 1. rewrite Ec, Ec2 in Ew. simpl in Ew.
      destruct (span is_word r) as [w2 r2] eqn:E2. injection Ew as <- <-. apply span_length in E2. lia. }
    cbn [ap] in H. destruct (a_typ (a_word a)) eqn:Ta; try discriminate H.
    + destruct (a_value (a_word a)) as [v|] eqn:Va; [|discriminate].
      apply (Arg v a r1); [apply word_source; assumption|exact Sw|exact Lr|exact H].
    + unfold a_word in Ta. destruct (_ || _); [discriminate|]. destruct (_ || _); [discriminate|]. destruct (parse_float a); discriminate.
Qed.

Definition covered (es : list aexpr) (s : string) : Prop :=
  exists srcs, Forall2 source es srcs /\ concat_all srcs = s.

Lemma covered_cons : forall e t es s, source e t -> covered es s -> covered (e :: es) (t ++ s).
Proof.
  intros e t es s H (srcs & F & E). exists (t :: srcs). split; [constructor; assumption|]. simpl. rewrite E. reflexivity.
Qed.

Lemma top_lossless : forall s idx st es,
  ap PTop idx st (tk MPlain s) = Some es -> no_nul s = true -> covered es s.
Proof.
  intro s. remember (String.length s) as k eqn:Hk. revert s Hk.
  induction k as [k IH] using lt_wf_ind. intros s Hk idx st es H Hn. subst k.
  rewrite tk_plain in H. destruct (bplain s) as [t r] eqn:Eb. cbn [fst snd] in H.
  pose proof (bplain_split _ _ _ Eb) as Es. pose proof (bplain_length _ _ _ Eb) as Lb.
  assert (Nr : no_nul r = true) by (rewrite Es, no_nul_app in Hn; apply andb_true_iff in Hn; apply Hn).
  (* plain text in front *)
  assert (Pre : forall ts es0, ap PTop idx st (a_plain t ++ ts) = Some es0 ->
    (forall es1, ap PTop idx st ts = Some es1 -> covered es1 r) -> covered es0 s).
  { intros ts es0 A K. rewrite Es. unfold a_plain in A. destruct t as [|a t].
    - apply K. exact A.
    - cbn [is_empty app ap a_typ a_lit] in A. destruct (ap PTop idx st ts) as [es1|]; [|discriminate].
      injection A as <-. apply covered_cons; [constructor|]. apply K. reflexivity. }
  unfold tk_rest in H. destruct r as [|c r].
  { apply (Pre [a_eof] es H). intros es1 A. injection A as <-. exists []. split; [constructor|reflexivity]. }
  cbn [String.length] in Lb.
  assert (Nr' : no_nul r = true) by (unfold no_nul in Nr; cbn [all] in Nr; apply andb_true_iff in Nr; apply Nr).
  destruct (Ascii.eqb c "#") eqn:Ec.
  { apply Ascii.eqb_eq in Ec. subst c. apply (Pre _ es H). clear H Pre. intros es1 A. cbn [ap a_typ] in A.
    destruct (span is_letter r) as [nm r1] eqn:E1. destruct (span_split _ _ _ _ E1) as [S1 A1]. apply span_length in E1.
    assert (N1 : no_nul r1 = true) by (rewrite S1, no_nul_app in Nr'; apply andb_true_iff in Nr'; apply Nr').
    destruct (is_empty nm) eqn:En.
    { destruct (tk_plain_first r1) as (x & xs & Ex & _ & X2). rewrite Ex in A. cbn [ap] in A.
      destruct (a_typ x); congruence. }
    assert (Wn : wf_name nm = true) by (unfold wf_name; rewrite En, A1; reflexivity).
    cbn [ap a_typ a_lit] in A.
    destruct (span is_digit r1) as [ds r2] eqn:E2. destruct (span_split _ _ _ _ E2) as [S2 A2]. apply span_length in E2.
    assert (N2 : no_nul r2 = true) by (rewrite S2, no_nul_app in N1; apply andb_true_iff in N1; apply N1).
    destruct (is_empty ds) eqn:Ed.
    2:{ cbn [ap a_typ a_num a_kind a_lit] in A. unfold a_num in A. cbn [a_typ a_kind a_lit] in A.
        destruct (parse_float ds) as [f|] eqn:P; [|discriminate].
        destruct (ap PTop idx st (tk MPlain r2)) as [es2|] eqn:A3; [|discriminate]. injection A as <-.
        replace (String "#" r) with (("#" ++ nm ++ ds) ++ r2) by (rewrite S1, S2; cbn [append]; rewrite append_assoc; reflexivity).
        apply covered_cons; [constructor; assumption|].
        eapply (IH (String.length r2)); [lia|reflexivity|exact A3|exact N2]. }
    apply is_empty_true in Ed. subst ds. simpl in S2. subst r2. clear E2 A2 N2.
    (* a function value, and whatever follows *)
    assert (Fn : ap (PName nm) idx st (tk MPlain r1) = Some es1 -> covered es1 (String "#" r)).
    { clear A. intro A. replace (String "#" r) with (("#" ++ nm) ++ r1) by (rewrite S1; reflexivity).
      rewrite tk_plain in A. destruct (bplain r1) as [t1 r2] eqn:Eb1. cbn [fst snd] in A.
      pose proof (bplain_split _ _ _ Eb1) as Es1. pose proof (bplain_length _ _ _ Eb1) as Lb1.
      assert (Plain : forall lit xs, tk_rest t1 r2 = mkA TkPlain lit false KString :: xs \/ tk_rest t1 r2 = mkA TkPlain lit true KString :: xs ->
         covered es1 (("#" ++ nm) ++ r1)).
      { intros lit xs Ex. assert (A' : exists es2, es1 = AFunc nm :: es2 /\ ap PTop idx st (tk MPlain r1) = Some es2).
        { rewrite (tk_plain r1), Eb1. cbn [fst snd]. destruct Ex as [Ex|Ex]; rewrite Ex in A |- *; cbn [ap a_typ a_lit] in A |- *;
          (destruct (ap PTop idx st xs) as [es2|]; [|discriminate]; injection A as <-; eauto). }
        destruct A' as (es2 & -> & A'). apply covered_cons; [constructor; exact Wn|].
        eapply (IH (String.length r1)); [lia|reflexivity|exact A'|exact N1]. }
      destruct t1 as [|a t1].
      2:{ unfold tk_rest in Plain. unfold a_plain in Plain. cbn [is_empty app] in Plain.
          destruct r2 as [|c2 r2]; [eapply Plain; left; reflexivity|].
          destruct (Ascii.eqb c2 "#"); [eapply Plain; left; reflexivity|].
          destruct (is_mark c2); [eapply Plain; left; reflexivity|].
          destruct (bquote c2 r2) as [[b r3] [|]]; eapply Plain; [left|right]; reflexivity. }
      simpl in Es1. subst r2. simpl in Lb1. unfold tk_rest in A. cbn [a_plain is_empty app] in A.
      destruct r1 as [|c2 r2].
      { cbn [ap a_typ a_lit a_eof] in A. unfold a_eof in A. cbn [a_typ a_lit] in A. injection A as <-.
        apply covered_cons; [constructor; exact Wn|]. rewrite <- (append_nil_r ""). apply covered_cons; [constructor|].
        exists []. split; [constructor|reflexivity]. }
      assert (N2 : no_nul r2 = true) by (unfold no_nul in N1; cbn [all] in N1; apply andb_true_iff in N1; apply N1).
      destruct (Ascii.eqb c2 "#") eqn:Q1.
      { apply Ascii.eqb_eq in Q1. subst c2. cbn [ap a_typ a_lit] in A.
        destruct (span is_letter r2) as [nm2 r3] eqn:E3. destruct (span_split _ _ _ _ E3) as [S3 _].
        destruct (is_empty nm2) eqn:En2.
        - apply is_empty_true in En2. subst nm2. simpl in S3. subst r3.
          destruct (ap PTop idx st (tk MPlain r2)) as [es2|] eqn:A3; [|discriminate]. injection A as <-.
          apply covered_cons; [constructor; exact Wn|].
          change (String "#" r2) with ("#" ++ r2). apply covered_cons; [constructor|].
          eapply (IH (String.length r2)); [simpl in *; lia|reflexivity|exact A3|exact N2].
        - discriminate A. }
      destruct (is_mark c2) eqn:Q2.
      { cbn [ap a_typ a_lit] in A.
        assert (A' : exists es2, es1 = AFunc nm :: APlain (String c2 "") :: es2 /\ ap PTop idx st (tk MPlain r2) = Some es2).
        { destruct r2 as [|d r3].
          - destruct (ap PTop idx st (tk MPlain "")) as [es2|]; [|discriminate]. injection A as <-. eauto.
          - destruct (is_digit19 d).
            + destruct (span is_digit (String d r3)). discriminate A.
            + destruct (ap PTop idx st (tk MPlain (String d r3))) as [es2|]; [|discriminate]. injection A as <-. eauto. }
        destruct A' as (es2 & -> & A3). apply covered_cons; [constructor; exact Wn|].
        change (String c2 r2) with (String c2 "" ++ r2). apply covered_cons; [constructor|].
        eapply (IH (String.length r2)); [simpl in *; lia|reflexivity|exact A3|exact N2]. }
      unfold tk_rest in Plain. rewrite Q1, Q2 in Plain.
      destruct (bquote c2 r2) as [[b r3] [|]]; eapply Plain; [left|right]; reflexivity. }
    destruct r1 as [|p r3]; [apply Fn; exact A|].
    destruct (Ascii.eqb p "(") eqn:Ep; [|apply Fn; exact A].
    apply Ascii.eqb_eq in Ep. subst p. cbn [ap a_typ] in A.
    assert (N3 : no_nul r3 = true) by (unfold no_nul in N1; cbn [all] in N1; apply andb_true_iff in N1; apply N1).
    destruct (args_lossless r3 nm [] idx st es1 A N3) as (args & tx & es' & s' & X1 & X2 & X3 & X4 & X5).
    subst es1. cbn [app].
    replace (String "#" r) with (("#" ++ nm ++ "(" ++ tx) ++ s')
      by (rewrite S1, X3; cbn [append]; rewrite append_assoc; reflexivity).
    apply covered_cons; [constructor; assumption|].
    eapply (IH (String.length s')); [simpl in *; lia|reflexivity|exact X4|].
    rewrite X3, no_nul_app in N3. apply andb_true_iff in N3. apply N3. }
  destruct (is_mark c) eqn:Em.
  { apply (Pre _ es H). clear H Pre. intros es1 A. cbn [ap a_typ a_lit] in A.
    destruct (mark_lit c Em) as [Ml|Ml]; injection Ml as ->.
    - change ("$" =? "?")%string with false in A. cbv iota in A.
      destruct ((if (st =? 0)%Z then style_dollar else st) =? style_dollar)%Z; [|discriminate].
      change (style_dollar =? style_question)%Z with false in A. cbv iota in A.
      assert (Bad : forall ts, ap PDollar (idx + 1) (if (st =? 0)%Z then style_dollar else st) ts = Some es1 ->
         match ts with x :: _ => a_typ x <> TkLiteral | [] => False end -> covered es1 (String "$" r)).
      { intros [|x xs] A3 K; [destruct K|]. cbn [ap] in A3. destruct (a_typ x); congruence. }
      destruct (tk_plain_first r) as (x & xs & Ex & X1 & _).
      destruct r as [|d r0]; [apply (Bad _ A); rewrite Ex; exact X1|].
      destruct (is_digit19 d) eqn:Dd; [|apply (Bad _ A); rewrite Ex; exact X1].
      destruct (span is_digit (String d r0)) as [ds r1] eqn:E1. destruct (span_split _ _ _ _ E1) as [S1 A1].
      apply span_length in E1. cbn [ap a_num] in A. unfold a_num in A. cbn [a_typ a_kind a_lit] in A.
      destruct (parse_uint64 ds) as [n|] eqn:P; [|discriminate].
      destruct (ap PTop (idx + 1) _ (tk MPlain r1)) as [es2|] eqn:A3; [|discriminate]. injection A as <-.
      change (String "$" (String d r0)) with ("$" ++ String d r0).
      assert (Hd : starts is_digit19 ds = true).
      { destruct ds as [|d' ds]; [discriminate P|]. simpl in S1. injection S1 as <- _. exact Dd. }
      rewrite S1. rewrite <- append_assoc. apply covered_cons; [constructor; assumption|].
      eapply (IH (String.length r1)); [simpl in *; destruct ds; [discriminate P|]; simpl in *; lia|reflexivity|exact A3|].
      rewrite S1, no_nul_app in Nr'. apply andb_true_iff in Nr'. apply Nr'.
    - change ("?" =? "?")%string with true in A. cbv iota in A.
      destruct ((if (st =? 0)%Z then style_question else st) =? style_question)%Z; [|discriminate].
      change (style_question =? style_question)%Z with true in A. cbv iota in A.
      assert (A' : exists es2, es1 = ABind style_question (idx + 1) :: es2 /\
         exists st', ap PTop (idx + 1) st' (tk MPlain r) = Some es2).
      { destruct r as [|d r0].
        - destruct (ap PTop _ _ (tk MPlain "")) as [es2|] eqn:A3; [|discriminate]. injection A as <-. eauto.
        - destruct (is_digit19 d).
          + destruct (span is_digit (String d r0)). discriminate A.
          + destruct (ap PTop _ _ (tk MPlain (String d r0))) as [es2|] eqn:A3; [|discriminate]. injection A as <-. eauto. }
      destruct A' as (es2 & -> & st' & A3). change (String "?" r) with ("?" ++ r).
      apply covered_cons; [constructor|].
      eapply (IH (String.length r)); [lia|reflexivity|exact A3|exact Nr']. }
  destruct (bquote c r) as [[b r1] cl] eqn:Eq. pose proof (bquote_split _ _ _ _ _ Eq) as Sq. pose proof (bquote_length _ _ _ _ _ Eq) as Lq.
  cbn [ap a_typ a_lit] in H. destruct (ap PTop idx st (tk MPlain r1)) as [es2|] eqn:A3; [|discriminate]. injection H as <-.
  replace s with ((t ++ String c b) ++ r1) by (rewrite Es, Sq, append_assoc; reflexivity).
  apply covered_cons; [constructor|].
  eapply (IH (String.length r1)); [lia|reflexivity|exact A3|].
  rewrite Sq, no_nul_app in Nr'. apply andb_true_iff in Nr'. apply Nr'.
Qed.

Lemma parse_lossless : forall s es, no_nul s = true -> parse s = POk es -> 
  exists srcs, Forall2 source (map strip es) srcs /\ concat_all srcs = s.
Proof.
  intros s es Hn H. pose proof (parse_spec s) as P. unfold bparse, btokens in P. rewrite (cut_nul_id s Hn) in P.
  fold (tk MPlain s) in P. destruct (ap PTop 0 0 (tk MPlain s)) as [as_|] eqn:A.
  - destruct P as (es' & E & M). rewrite E in H. injection H as ->. rewrite M. eapply top_lossless; eassumption.
  - destruct P as (o & m & E). congruence.
Qed.
