(** Positions of tokens and expressions. *)
From Coq Require Import Strings.String Strings.Ascii NArith ZArith List Bool Lia.
From Verif Require Import GoStr GoNum Syntax Spec_syntax ByteLex Lex_proofs Parse_proofs Grammar_proofs Lossless_proofs Spec_pos.
Import ListNotations.
Open Scope string_scope.

(* ------------------------------------------------------------------ *)
(** * Characters *)

(** Reading the same character when the text is cut after it. *)
Lemma decode_stable : forall u y z r, decode_rune (u ++ y ++ z) = (r, String.length u) -> u <> "" ->
  decode_rune (u ++ y) = (r, String.length u).
Proof.
  intros u y z r H Hu. destruct u as [|a u]; [congruence|]. cbn [append String.length] in *.
  unfold decode_rune in *. fold (code a) in *.
  destruct (code a <? 128)%N; [exact H|].
  destruct (in_range (code a) 194 223).
  { destruct u as [|a1 u]; cbn [append String.length] in *.
    - destruct y as [|b1 y]; cbn [append] in *; [|exact H].
      destruct z as [|b1 z]; [exact H|]. destruct (in_range (code b1) 128 191); [discriminate H|exact H].
    - exact H. }
  destruct (in_range (code a) 224 239).
  { destruct u as [|a1 [|a2 u]]; cbn [append String.length] in *; try exact H.
    - destruct y as [|b1 [|b2 y]]; cbn [append] in *; try exact H.
      + destruct z as [|c1 [|c2 z]]; try exact H. destruct (_ && _) in H; [discriminate H|exact H].
      + destruct z as [|c1 z]; try exact H. destruct (_ && _) in H; [discriminate H|exact H].
    - destruct y as [|b1 y]; cbn [append] in *; try exact H.
      destruct z as [|c1 z]; try exact H. destruct (_ && _) in H; discriminate H. }
  destruct (in_range (code a) 240 244); [|exact H].
  destruct u as [|a1 [|a2 [|a3 u]]]; cbn [append String.length] in *; try exact H.
  - destruct y as [|b1 [|b2 [|b3 y]]]; cbn [append] in *; try exact H;
    [destruct z as [|c1 [|c2 [|c3 z]]]|destruct z as [|c1 [|c2 z]]|destruct z as [|c1 z]]; try exact H;
    (destruct (_ && _ && _) in H; [discriminate H|exact H]).
  - destruct y as [|b1 [|b2 y]]; cbn [append] in *; try exact H;
    [destruct z as [|c1 [|c2 z]]|destruct z as [|c1 z]]; try exact H;
    (destruct (_ && _ && _) in H; discriminate H).
  - destruct y as [|b1 y]; cbn [append] in *; try exact H.
    destruct z as [|c1 z]; try exact H. destruct (_ && _ && _) in H; discriminate H.
Qed.

(** A text read as the chunks [us] in front of [rest]. *)
Fixpoint cat (us : list (string * N)) : string :=
  match us with [] => "" | (u, _) :: l => u ++ cat l end.
Fixpoint prs (us : list (string * N)) (rest : string) : Prop :=
  match us with
  | [] => True
  | (u, r) :: l => u <> "" /\ decode_rune (u ++ cat l ++ rest) = (r, String.length u) /\ prs l rest
  end.
Lemma cat_snoc : forall us u r, cat (us ++ [(u, r)]) = cat us ++ u.
Proof.
  induction us as [|[v q] us IH]; intros u r; cbn [cat app].
  - rewrite append_nil_r. reflexivity.
  - rewrite IH, append_assoc. reflexivity.
Qed.
Lemma prs_snoc : forall us u r rest, prs us (u ++ rest) -> u <> "" ->
  decode_rune (u ++ rest) = (r, String.length u) -> prs (us ++ [(u, r)]) rest.
Proof.
  induction us as [|[v q] us IH]; intros u r rest P Hu D; cbn [prs app cat] in *.
  - repeat split; auto.
  - destruct P as (Hv & Dv & P). repeat split; auto. rewrite cat_snoc, append_assoc. exact Dv.
Qed.
Lemma chars_skip : forall u s, chars_from (String.length u) (u ++ s) = chars_from 0 s.
Proof. induction u as [|a u IH]; intro s; [reflexivity|]. exact (IH s). Qed.
Lemma chars_cat : forall us rest, prs us rest -> chars (cat us) = map snd us.
Proof.
  induction us as [|[u r] us IH]; intros rest P; [reflexivity|]. cbn [prs cat map snd] in *.
  destruct P as (Hu & D & P). apply decode_stable in D; [|exact Hu]. destruct u as [|a u]; [congruence|].
  unfold chars. cbn [append chars_from]. cbn [append] in D. rewrite D. cbn [String.length].
  rewrite Nat.sub_succ, Nat.sub_0_r. rewrite chars_skip. f_equal. exact (IH rest P).
Qed.
Lemma place_snoc : forall us u r rest, prs us (u ++ rest) -> u <> "" ->
  decode_rune (u ++ rest) = (r, String.length u) -> place (cat us ++ u) = move (place (cat us)) r.
Proof.
  intros us u r rest P Hu D. unfold place. rewrite <- (cat_snoc us u r).
  rewrite (chars_cat _ _ (prs_snoc _ _ _ _ P Hu D)), (chars_cat _ _ P), map_app, fold_left_app. reflexivity.
Qed.

(* ------------------------------------------------------------------ *)
(** * The lexer *)

Definition LI (s : string) (l : lexer) : Prop := exists us b,
  s = cat us ++ l_rest l /\ prs us (l_rest l) /\ l_off l = String.length (cat us) /\
  (s <> "" -> l_pos l = reported (cat us) (l_rest l)) /\
  cat us = b ++ l_pre l /\ l_soff l = String.length b /\
  (s <> "" -> l_spos l = reported b (l_pre l ++ l_rest l)).

Lemma opens_decode : forall s r w, decode_rune s = (r, w) -> (r =? 10)%N = opens_line s.
Proof.
  intros [|a s] r w H; [injection H as <- <-; reflexivity|]. cbn [opens_line]. unfold line_break.
  destruct (hi a) eqn:Ha.
  - destruct (decode_hi _ _ _ _ Ha H) as (Hr & _). unfold hi in Ha. apply negb_true_iff, N.ltb_ge in Ha.
    rewrite !(proj2 (N.eqb_neq _ _)) by lia. reflexivity.
  - unfold hi in Ha. apply negb_false_iff in Ha. rewrite decode_ascii in H by exact Ha.
    injection H as <- <-. reflexivity.
Qed.

Lemma move_reported : forall p r u rest r' w', 
  decode_rune (u ++ rest) = (r, String.length u) -> u <> "" -> decode_rune rest = (r', w') ->
  (if (r' =? 10)%N
   then mkPos (p_line (if opens_line (u ++ rest) then mkPos (p_line p + 1) 0 else p) + 1) 0
   else mkPos (p_line (if opens_line (u ++ rest) then mkPos (p_line p + 1) 0 else p))
              (p_col (if opens_line (u ++ rest) then mkPos (p_line p + 1) 0 else p) + 1))
  = (if opens_line rest then mkPos (p_line (move p r) + 1) 0 else move p r).
Proof.
  intros p r u rest r' w' D Hu D'. rewrite (opens_decode _ _ _ D').
  pose proof (opens_decode _ _ _ D) as O. unfold move, line_break. rewrite O.
  destruct (opens_line (u ++ rest)), (opens_line rest); reflexivity.
Qed.

Lemma valid_next : forall l, valid l -> valid (lex_next l).
Proof.
  intros l V. destruct (l_rest l) as [|a s] eqn:E; [apply (next_end l E)|].
  destruct (hi a) eqn:Ha.
  - destruct (next_hi l a s V E Ha) as (_ & u & v & H). apply H.
  - apply (next_ascii l a s V E Ha).
Qed.

(** The bytes of the current character. *)
Lemma current_char : forall l, valid l -> l_rest l <> "" ->
  exists u, l_rest l = u ++ l_rest (lex_next l) /\ u <> "" /\ String.length u = l_width l /\
    l_pre (lex_next l) = l_pre l ++ u /\ decode_rune (l_rest l) = (l_rune l, String.length u).
Proof.
  intros l V Hr. destruct (l_rest l) as [|a s] eqn:E; [congruence|].
  unfold valid in V. rewrite E in V. 
  assert (L : str_take (l_width l) (String a s) ++ str_drop (l_width l) (String a s) = String a s) by apply take_drop.
  exists (str_take (l_width l) (String a s)).
  assert (Lw : String.length (str_take (l_width l) (String a s)) = l_width l).
  { destruct (hi a) eqn:Ha.
    - destruct (decode_hi _ _ _ _ Ha V) as (_ & _ & u & v & _ & Lu & _ & Tu & _). rewrite Tu. exact Lu.
    - unfold hi in Ha. apply negb_false_iff in Ha. rewrite decode_ascii in V by exact Ha.
      injection V as _ <-. reflexivity. }
  unfold lex_next. rewrite E. destruct (decode_rune (str_drop (l_width l) (String a s))) as [r' w'] eqn:D.
  cbn [l_rest l_pre]. rewrite L, Lw. repeat split; auto.
  intro Z. rewrite Z in Lw. cbn in Lw. pose proof (decode_width_pos _ _ _ _ V). lia.
Qed.

Lemma LI_next : forall s l, valid l -> LI s l -> LI s (lex_next l).
Proof.
  intros s l V (us & b & H1 & H2 & H3 & H4 & H5 & H6 & H7).
  destruct (l_rest l) as [|a s'] eqn:E.
  - exists us, b. unfold lex_next. rewrite E. cbn [l_rest l_off l_pos l_pre l_soff l_spos]. auto 10.
  - destruct (current_char l V) as (u & Eu & Hu & Lw & Ep & D); [congruence|].
    rewrite E in Eu, D. rewrite Eu in H1, H2, H4, D.
    exists (us ++ [(u, l_rune l)])%list, b. rewrite cat_snoc.
    assert (Eo : l_off (lex_next l) = l_off l + l_width l).
    { unfold lex_next. rewrite E. destruct (decode_rune (str_drop (l_width l) (String a s'))). reflexivity. }
    assert (Es : l_soff (lex_next l) = l_soff l /\ l_spos (lex_next l) = l_spos l).
    { unfold lex_next. rewrite E. destruct (decode_rune (str_drop (l_width l) (String a s'))). split; reflexivity. }
    destruct Es as [Es1 Es2].
    split; [rewrite append_assoc; exact H1|].
    split; [apply prs_snoc; assumption|].
    split; [rewrite Eo, length_append, H3, Lw; reflexivity|].
    split.
    { intro Hs. specialize (H4 Hs).
      destruct (decode_rune (l_rest (lex_next l))) as [r' w'] eqn:D'.
      assert (Epos : l_pos (lex_next l) = if (r' =? 10)%N then mkPos (p_line (l_pos l) + 1) 0
                                          else mkPos (p_line (l_pos l)) (p_col (l_pos l) + 1)).
      { assert (R : l_rest (lex_next l) = str_drop (l_width l) (String a s')).
        { unfold lex_next. rewrite E. destruct (decode_rune (str_drop (l_width l) (String a s'))). reflexivity. }
        rewrite R in D'. unfold lex_next. rewrite E, D'. reflexivity. }
      rewrite Epos, H4. unfold reported. rewrite (place_snoc us u (l_rune l) _ H2 Hu D).
      apply (move_reported (place (cat us)) (l_rune l) u _ r' w' D Hu D'). }
    split; [rewrite Ep, H5, append_assoc; reflexivity|].
    split; [rewrite Es1; exact H6|].
    intro Hs. rewrite Es2, (H7 Hs), Ep, append_assoc, Eu. reflexivity.
Qed.

(** Without a token under way. *)
Definition LC (s : string) (l : lexer) : Prop := exists us,
  s = cat us ++ l_rest l /\ prs us (l_rest l) /\ l_off l = String.length (cat us) /\
  (s <> "" -> l_pos l = reported (cat us) (l_rest l)).
Lemma LI_LC : forall s l, LI s l -> LC s l.
Proof. intros s l (us & b & H1 & H2 & H3 & H4 & _). exists us. auto. Qed.
Lemma LI_start : forall s l, LC s l -> LI s (start_token l).
Proof.
  intros s l (us & H1 & H2 & H3 & H4). exists us, (cat us).
  cbn [start_token l_rest l_off l_pos l_pre l_soff l_spos]. rewrite append_nil_r. auto 10.
Qed.
Lemma LC_new : forall s, LC s (new_lexer s).
Proof.
  intro s. exists []. cbn [cat prs]. destruct s as [|a s].
  - cbn. repeat split; auto; congruence.
  - unfold new_lexer, lex_next. cbn [l_rest l_width str_drop str_take l_pre append l_off l_pos l_soff l_spos p_line p_col].
    destruct (decode_rune (String a s)) as [r w] eqn:D.
    cbn [l_rest l_width str_drop str_take l_pre append l_off l_pos l_soff l_spos p_line p_col].
    repeat split; auto.
    intros _. unfold reported. rewrite <- (opens_decode _ _ _ D). reflexivity.
Qed.

(* ------------------------------------------------------------------ *)
(** * The scanner *)

Inductive reach : lexer -> lexer -> Prop :=
| reach_here l : reach l l
| reach_next l l' : reach (lex_next l) l' -> reach l l'.
Lemma reach_trans : forall a b c, reach a b -> reach b c -> reach a c.
Proof. induction 1; intro H2; [exact H2|]. apply reach_next. auto. Qed.
Lemma reach_one : forall l, reach l (lex_next l).
Proof. intro l. apply reach_next, reach_here. Qed.
Lemma reach_text : forall l l', reach l l' -> valid l ->
  exists x, l_pre l' = l_pre l ++ x /\ l_rest l = x ++ l_rest l'.
Proof.
  induction 1 as [l|l l' H IH]; intro V; [exists ""; rewrite append_nil_r; auto|].
  destruct (IH (valid_next l V)) as (x & X1 & X2).
  destruct (l_rest l) as [|a s] eqn:E.
  - exists x. destruct (next_end l E) as (_ & N2 & N3 & _). rewrite N3 in X1. rewrite N2 in X2. auto.
  - destruct (current_char l V) as (u & U1 & _ & _ & U2 & _); [congruence|].
    exists (u ++ x). rewrite X1, U2, append_assoc. split; [reflexivity|].
    rewrite append_assoc, <- X2, <- U1. symmetry. exact E.
Qed.
Lemma reach_ok : forall s l l', reach l l' -> valid l -> LI s l -> valid l' /\ LI s l'.
Proof.
  induction 1 as [l|l l' H IH]; intros V L; [auto|]. apply IH; [apply valid_next, V|apply LI_next; assumption].
Qed.

Lemma while_reach : forall p n l l', while_loop n p l = Some l' -> reach l l'.
Proof.
  induction n as [|n IH]; intros l l' H; [discriminate H|]. unfold while_loop in H; fold while_loop in H.
  destruct (p (l_rune l)); [apply reach_next, IH, H|injection H as <-; constructor].
Qed.
Lemma skip_reach : forall n l l', skip_ws n l = Some l' -> reach l l'.
Proof.
  induction n as [|n IH]; intros l l' H; [discriminate H|]. unfold skip_ws in H; fold skip_ws in H.
  destruct (is_space (l_rune l)); cbn [negb] in H; [|injection H as <-; constructor].
  destruct (l_rune (lex_next l) =? eof)%N; [injection H as <-; apply reach_one|]. apply reach_next, IH, H.
Qed.
Lemma quoted_reach : forall q n l l' c, quoted_loop n q l = Some (l', c) -> reach l l'.
Proof.
  induction n as [|n IH]; intros l l' c H; [discriminate H|]. unfold quoted_loop in H; fold quoted_loop in H.
  destruct (l_rune l =? eof)%N; [injection H as <- <-; constructor|].
  destruct (l_rune l =? q)%N.
  - destruct (_ && _); [apply reach_next, reach_next, (IH _ _ _ H)|]. injection H as <- <-. apply reach_one.
  - apply reach_next, (IH _ _ _ H).
Qed.
Lemma plain_reach : forall n l l' ts st, scan_plain_loop n l = Some (l', ts, st) -> reach l l'.
Proof.
  induction n as [|n IH]; intros l l' ts st H; [discriminate H|]. unfold scan_plain_loop in H; fold scan_plain_loop in H.
  destruct (l_rune l =? eof)%N; [destruct (advanced l); injection H as <- _ _; constructor|].
  destruct (_ || _).
  { destruct (lex_peek l =? l_rune l)%N; [apply reach_next, reach_next, (IH _ _ _ _ H)|].
    injection H as <- _ _. constructor. }
  destruct (l_rune l =? r_hash)%N; [injection H as <- _ _; constructor|].
  destruct (_ || _); [injection H as <- _ _; constructor|]. apply reach_next, (IH _ _ _ _ H).
Qed.


(** A token at the start of [r]. *)
Definition tok_at (s r : string) (t : token) : Prop := exists b,
  s = b ++ r /\ t_start t = String.length b /\ (s <> "" -> t_pos t = reported b r).
Lemma tok_emit : forall s l ty k bad, LI s l -> tok_at s (l_pre l ++ l_rest l) (emit l ty k bad).
Proof.
  intros s l ty k bad (us & b & H1 & H2 & H3 & H4 & H5 & H6 & H7). exists b.
  cbn [emit t_start t_pos]. rewrite H5, append_assoc in H1. auto.
Qed.
Lemma tok_emit_from : forall s l0 l x ty k bad, LC s l0 -> valid l0 -> reach (start_token l0) l -> l_pre l = x ->
  l_rest l0 = x ++ l_rest l /\ tok_at s (x ++ l_rest l) (emit l ty k bad) /\ valid l /\ LI s l.
Proof.
  intros s l0 l x ty k bad C V R <-.
  destruct (reach_text _ _ R (valid_start _ V)) as (y & Y1 & Y2). cbn [start_token l_pre l_rest append] in Y1, Y2.
  destruct (reach_ok s _ _ R (valid_start _ V) (LI_start _ _ C)) as [V' L'].
  rewrite Y1 at 1. repeat split; auto. apply tok_emit. exact L'.
Qed.

Inductive smode := STop | SIdx | SName | SAft | SArg.
Inductive stream (s : string) : smode -> string -> list token -> Prop :=
| st_nil : stream s STop "" []
| st_eof m t : m <> SArg -> t_typ t = TkEOF -> t_lit t = "" -> tok_at s "" t -> stream s m "" [t]
| st_eof_args r t : t_typ t = TkEOF -> stream s SArg r [t]
| st_plain m t r ts : m <> SArg -> t_typ t = TkPlain -> tok_at s (t_lit t ++ r) t -> stream s STop r ts ->
    stream s m (t_lit t ++ r) (t :: ts)
| st_ref m t r ts : m <> SArg -> t_typ t = TkRef -> t_lit t = "$" \/ t_lit t = "?" ->
    tok_at s (t_lit t ++ r) t -> stream s SIdx r ts -> stream s m (t_lit t ++ r) (t :: ts)
| st_hash m t r ts : m <> SArg -> t_typ t = TkHash -> t_lit t = "#" -> tok_at s (t_lit t ++ r) t ->
    stream s SName r ts -> stream s m (t_lit t ++ r) (t :: ts)
| st_idx m t r ts : m = SIdx \/ m = SAft -> t_typ t = TkLiteral -> t_kind t = KNumber ->
    all is_digit (t_lit t) = true -> (m = SIdx -> starts is_digit19 (t_lit t) = true) ->
    stream s STop r ts -> stream s m (t_lit t ++ r) (t :: ts)
| st_name t r ts : t_typ t = TkName -> wf_name (t_lit t) = true -> stream s SAft r ts ->
    stream s SName (t_lit t ++ r) (t :: ts)
| st_lparen t r ts : t_typ t = TkLparen -> stream s SArg r ts -> stream s SAft ("(" ++ r) (t :: ts)
| st_comma w t r ts : white w -> t_typ t = TkComma -> stream s SArg r ts -> stream s SArg (w ++ "," ++ r) (t :: ts)
| st_rparen w t r ts : white w -> t_typ t = TkRparen -> stream s STop r ts -> stream s SArg (w ++ ")" ++ r) (t :: ts)
| st_word w t r ts : white w -> strip_tok t = a_word (t_lit t) -> stream s SArg r ts ->
    stream s SArg (w ++ t_lit t ++ r) (t :: ts)
| st_quoted w b t r ts : white w -> t_typ t = TkLiteral -> t_kind t = KString -> t_bad t = false ->
    body_ok "'" b = true -> t_lit t = "'" ++ b ++ "'" -> stream s SArg r ts ->
    stream s SArg (w ++ t_lit t ++ r) (t :: ts)
| st_unclosed r t ts : t_typ t = TkLiteral -> t_bad t = true -> stream s SArg r (t :: ts).

Section Scan.
Variable s : string.
Hypothesis Hs : no_nul s = true.

Lemma rest_no_nul : forall l, LC s l -> no_nul (l_rest l) = true.
Proof.
  intros l (us & E & _). rewrite E, no_nul_app in Hs. apply andb_true_iff in Hs. apply Hs.
Qed.
Lemma rest_cut : forall l, LC s l -> cut_nul (l_rest l) = l_rest l.
Proof. intros l C. apply cut_nul_id, rest_no_nul, C. Qed.
Lemma eof_rest : forall l, LC s l -> valid l -> (l_rune l =? eof)%N = true -> l_rest l = "".
Proof. intros l C V H. rewrite <- (rest_cut l C). apply rune_eof; assumption. Qed.
Lemma rune_rest : forall l c, LC s l -> valid l -> (code c <? 128)%N = true -> Ascii.eqb c nul = false ->
  (l_rune l =? code c)%N = true -> exists r, l_rest l = String c r /\ l_rest (lex_next l) = r /\
    l_pre (lex_next l) = l_pre l ++ String c "".
Proof.
  intros l c C V Hc Hn H. rewrite (ascii_rune_not l c V Hc Hn), (rest_cut l C) in H.
  destruct (l_rest l) as [|b r] eqn:E; [discriminate H|]. apply Ascii.eqb_eq in H. subst b. exists r.
  destruct (next_ascii l c r V E) as (_ & H1 & H2 & _); [unfold hi; rewrite Hc; reflexivity|]. auto.
Qed.

(** At the end of the template only the EOF token follows. *)
Lemma at_end : forall n st l toks, st = ScPlain \/ st = ScFuncArgs -> scan_loop n st l = Some toks ->
  valid l -> LC s l -> l_rest l = "" -> exists t, toks = [t] /\ t_typ t = TkEOF /\ t_lit t = "" /\ tok_at s "" t.
Proof.
  induction n as [|n IH]; intros st l toks St H V C E; [discriminate H|].
  assert (Plain : forall l, valid l -> LC s l -> l_rest l = "" ->
    exists l', scan_plain l = Some (l', [emit l' TkEOF KString false], None) /\ l_pre l' = "" /\
      tok_at s "" (emit l' TkEOF KString false)).
  { clear. intros l V C E. 
    destruct (plain_spec (lex_fuel (start_token l)) (start_token l) (valid_start l V) (fuel_ok _))
      as (l' & W1 & W2 & W3 & W4 & W5 & W6).
    rewrite start_rest, E in W1, W3, W4. cbn in W3, W4. cbn [cut_nul bplain fst snd plain_result] in W1.
    unfold advanced in W1. rewrite W3 in W1. cbn [is_empty negb fst snd] in W1.
    exists l'. split; [exact W1|]. split; [exact W3|].
    pose proof (plain_reach _ _ _ _ _ W1) as R.
    destruct (tok_emit_from s l l' "" TkEOF KString false C V R W3) as (T1 & T2 & _).
    rewrite E in T1. cbn [append] in T1, T2. rewrite <- T1 in T2. exact T2. }
  destruct St as [->| ->].
  - cbn [scan_loop scan_step] in H. destruct (Plain l V C E) as (l' & P1 & P2 & P3). rewrite P1 in H.
    injection H as <-. exists (emit l' TkEOF KString false). repeat split; auto.
  - cbn [scan_loop scan_step] in H.
    assert (K : exists l', scan_func_args l = Some (l', [], Some ScPlain) /\ valid l' /\ LC s l' /\ l_rest l' = ""
      \/ scan_func_args l = Some (l', [], Some ScFuncArgs) /\ valid l' /\ LC s l' /\ l_rest l' = "").
    { unfold scan_func_args.
      assert (Sk : skip_ws (lex_fuel l) l = Some l).
      { unfold lex_fuel. unfold skip_ws. destruct (rune_end l V E) as [R|R]; rewrite R; reflexivity. }
      rewrite Sk. destruct (rune_end l V E) as [R|R].
      - cbn [start_token l_rune]. rewrite R.
        change (rune_error =? eof)%N with false. change (rune_error =? r_comma)%N with false.
        change (rune_error =? r_rparen)%N with false. change (rune_error =? r_squote)%N with false. cbv iota.
        destruct (while_spec _ _ _ agrees_word (lex_fuel (start_token l)) (start_token l)
                    (valid_start _ V) (fuel_ok _)) as (l2 & A1 & A2 & A3 & A4 & A5 & _).
        change (mkLex "" (l_rest l) (l_off l) (l_pos l) (l_off l) (l_pos l) (l_rune l) (l_width l)) with (start_token l).
        rewrite A1. rewrite start_rest, E in A3. cbn in A3. unfold advanced. rewrite A3.
        exists l2. right. cbn [is_empty negb]. split; [reflexivity|]. split; [exact A2|].
        destruct (reach_ok s _ _ (while_reach _ _ _ _ A1) (valid_start _ V) (LI_start _ _ C)) as [_ L2].
        split; [apply LI_LC, L2|]. rewrite start_rest, E in A5. destruct (l_rest l2); [reflexivity|cbn in A5; lia].
      - cbn [start_token l_rune]. rewrite R. change (eof =? eof)%N with true. cbv iota.
        exists (start_token l). left. split; [unfold start_token; rewrite ?R; reflexivity|]. split; [exact V|]. split; [|exact E].
        apply LI_LC, LI_start, C. }
    destruct K as (l' & [(K1 & K2 & K3 & K4)|(K1 & K2 & K3 & K4)]); rewrite K1 in H;
      (destruct (scan_loop n _ l') as [more|] eqn:M; [|discriminate H]); injection H as <-; cbn [app];
      (eapply IH; [|exact M|exact K2|exact K3|exact K4]; auto).
Qed.

Definition entry (st : scanstate) (m : smode) (r : string) (l : lexer) : Prop :=
  match st with
  | ScPlain => m <> SArg /\ l_rest l = r \/ m = SArg /\ l_rest l = ""
  | ScRef => m <> SArg /\ l_rest l = r /\ ((l_rune l =? r_dollar)%N || (l_rune l =? r_quest)%N) = true
  | ScIndex => m = SIdx /\ l_rest l = r
  | ScQuotedPlain => m <> SArg /\ LI s l /\ l_pre l ++ l_rest l = r /\
      ((l_rune l =? r_squote)%N || (l_rune l =? r_dquote)%N || (l_rune l =? r_bquote)%N) = true
  | ScFunc => m <> SArg /\ l_rest l = r /\ (l_rune l =? r_hash)%N = true
  | ScFuncName => m = SName /\ l_rest l = r
  | ScFuncArgs => m = SArg /\ (l_rest l = r \/ l_rest l = "")
  | ScFuncArgQuoted => m = SArg /\ LI s l /\ l_pre l = "" /\ (exists w, white w /\ r = w ++ l_rest l) /\
      (l_rune l =? r_squote)%N = true
  end.

(** The ways the loop of scanPlain ends. *)
Lemma plain_cases : forall n l l' ts st, scan_plain_loop n l = Some (l', ts, st) ->
  (ts = [emit l' TkEOF KString false] /\ st = None /\ advanced l' = false /\ (l_rune l' =? eof)%N = true) \/
  (ts = (if advanced l' then [emit l' TkPlain KString false] else []) /\
     (st = Some ScPlain /\ advanced l' = true \/
      st = Some ScRef /\ ((l_rune l' =? r_dollar)%N || (l_rune l' =? r_quest)%N) = true \/
      st = Some ScFunc /\ (l_rune l' =? r_hash)%N = true)) \/
  (ts = [] /\ st = Some ScQuotedPlain /\
     ((l_rune l' =? r_squote)%N || (l_rune l' =? r_dquote)%N || (l_rune l' =? r_bquote)%N) = true).
Proof.
  induction n as [|n IH]; intros l l' ts st H; [discriminate H|].
  unfold scan_plain_loop in H; fold scan_plain_loop in H.
  destruct (l_rune l =? eof)%N eqn:E0.
  { destruct (advanced l) eqn:A; injection H as <- <- <-; rewrite A; auto 8. }
  destruct ((l_rune l =? r_dollar)%N || (l_rune l =? r_quest)%N) eqn:E1.
  { destruct (lex_peek l =? l_rune l)%N; [exact (IH _ _ _ _ H)|]. injection H as <- <- <-. auto 8. }
  destruct (l_rune l =? r_hash)%N eqn:E2; [injection H as <- <- <-; auto 8|].
  destruct (_ || _ || _) eqn:E3 in H; [injection H as <- <- <-; auto 8|]. exact (IH _ _ _ _ H).
Qed.

Lemma not_advanced : forall l, advanced l = false -> l_pre l = "".
Proof. intros l H. unfold advanced in H. apply negb_false_iff in H. apply is_empty_true, H. Qed.

Lemma quote_char : forall l, LC s l -> valid l ->
  ((l_rune l =? r_squote)%N || (l_rune l =? r_dquote)%N || (l_rune l =? r_bquote)%N) = true ->
  exists q r, is_quote q = true /\ l_rune l = code q /\ l_rest l = String q r /\ l_rest (lex_next l) = r /\
    l_pre (lex_next l) = l_pre l ++ String q "".
Proof.
  intros l C V H. apply orb_true_iff in H. destruct H as [H|H]; [apply orb_true_iff in H; destruct H as [H|H]|].
  - destruct (rune_rest l "'" C V eq_refl eq_refl H) as (r & R). exists "'"%char, r. apply N.eqb_eq in H. auto.
  - destruct (rune_rest l """" C V eq_refl eq_refl H) as (r & R). exists """"%char, r. apply N.eqb_eq in H. auto.
  - destruct (rune_rest l "`" C V eq_refl eq_refl H) as (r & R). exists "`"%char, r. apply N.eqb_eq in H. auto.
Qed.

Lemma scan_stream : forall n st l toks m r, scan_loop n st l = Some toks -> valid l -> LC s l ->
  entry st m r l -> stream s m r toks.
Proof.
  induction n as [|n IH]; intros st l toks m r H V C En; [discriminate H|].
  assert (H0 := H). cbn [scan_loop] in H. destruct (scan_step st l) as [[[l' ts] st']|] eqn:Es; [|discriminate H].
  destruct st; cbn [entry] in En; cbn [scan_step] in Es.
  - (* scanPlain *)
    destruct En as [[Hm Hr]|[-> Hr]].
    2: { destruct (at_end (S n) ScPlain l toks (or_introl eq_refl) H0 V C Hr) as (t & -> & T & _).
         apply st_eof_args, T. }
    unfold scan_plain in Es. pose proof (plain_reach _ _ _ _ _ Es) as R.
    destruct (tok_emit_from s l l' (l_pre l') TkPlain KString false C V R eq_refl) as (T1 & T2 & V' & L').
    pose proof (LI_LC _ _ L') as C'.
    destruct (plain_cases _ _ _ _ _ Es) as [(-> & -> & Ad & Re)|[(-> & St)|(-> & -> & Q)]].
    + injection H as <-. apply not_advanced in Ad. rewrite Ad in T1. cbn [append] in T1.
      pose proof (eof_rest l' C' V' Re) as Z. rewrite Hr, Z in T1. subst r. rewrite T1.
      apply st_eof; auto.
      destruct (tok_emit_from s l l' "" TkEOF KString false C V R Ad) as (_ & U & _). rewrite Z in U. exact U.
    + assert (Go : forall st1, st' = Some st1 ->
         (entry st1 (if advanced l' then STop else m) (l_rest l') l') -> stream s m r toks).
      { intros st1 -> E1. destruct (scan_loop n st1 l') as [more|] eqn:M; [|discriminate H]. injection H as <-.
        destruct (advanced l') eqn:Ad.
        - rewrite <- Hr, T1. cbn [app].
          apply (st_plain s m (emit l' TkPlain KString false) (l_rest l') more Hm eq_refl T2).
          apply (IH _ _ _ _ _ M V' C' E1).
        - apply not_advanced in Ad. rewrite Ad in T1. rewrite <- Hr, T1. cbn [append app].
          apply (IH _ _ _ _ _ M V' C' E1). }
      assert (Hm1 : (if advanced l' then STop else m) <> SArg) by (destruct (advanced l'); [discriminate|exact Hm]).
      destruct St as [[-> Ad]|[[-> Q]|[-> Q]]]; apply (Go _ eq_refl); cbn [entry]; auto.
    + destruct (scan_loop n ScQuotedPlain l') as [more|] eqn:M; [|discriminate H]. injection H as <-. cbn [app].
      apply (IH _ _ _ _ _ M V' C'). cbn [entry]. rewrite <- Hr. auto.
  - (* scanRef *)
    destruct En as (Hm & Hr & Q). unfold scan_ref in Es. injection Es as El Ets Est. 
    pose proof (reach_one (start_token l)) as R. rewrite El in R.
    destruct (tok_emit_from s l l' (l_pre l') TkRef KString false C V R eq_refl) as (T1 & T2 & V' & L').
    rewrite <- Est in H. destruct (scan_loop n ScIndex l') as [more|] eqn:M; [|discriminate H].
    injection H as <-. rewrite <- Ets, El. cbn [app].
    assert (Lit : (l_pre l' = "$" \/ l_pre l' = "?")).
    { apply orb_true_iff in Q. destruct Q as [Q|Q].
      - destruct (rune_rest (start_token l) "$" (LI_LC _ _ (LI_start _ _ C)) (valid_start _ V) eq_refl eq_refl Q) as (r' & _ & _ & P).
        rewrite El in P. left. exact P.
      - destruct (rune_rest (start_token l) "?" (LI_LC _ _ (LI_start _ _ C)) (valid_start _ V) eq_refl eq_refl Q) as (r' & _ & _ & P).
        rewrite El in P. right. exact P. }
    rewrite <- Hr, T1. apply (st_ref s m (emit l' TkRef KString false) (l_rest l') more Hm eq_refl Lit T2).
    apply (IH _ _ _ _ _ M V' (LI_LC _ _ L')). cbn [entry]. auto.
  - (* scanIndex *)
    destruct En as (-> & Hr). unfold scan_index in Es. pose proof (digit19_rune l V) as D. rewrite (rest_cut l C), Hr in D.
    destruct (in_range (l_rune l) 49 57).
    + rewrite digits_loop_while in Es.
      destruct (while_spec _ _ _ agrees_digit (lex_fuel (start_token l)) (start_token l)
                  (valid_start _ V) (fuel_ok _)) as (l3 & B1 & B2 & B3 & B4 & B5 & _).
      rewrite B1 in Es. injection Es as <- <- <-.
      destruct (tok_emit_from s l l3 (l_pre l3) TkLiteral KNumber false C V (while_reach _ _ _ _ B1) eq_refl) as (T1 & T2 & V' & L').
      destruct (scan_loop n ScPlain l3) as [more|] eqn:M; [|discriminate H]. injection H as <-. cbn [app].
      rewrite start_rest, (rest_cut l C), Hr in B3. cbn [start_token l_pre append] in B3.
      destruct (span is_digit r) as [ds r1] eqn:Sp. cbn [fst] in B3. destruct (span_split _ _ _ _ Sp) as [_ Al].
      assert (S19 : starts is_digit19 ds = true).
      { destruct r as [|d r]; [discriminate D|]. cbn [span] in Sp.
        assert (Dg : is_digit d = true).
        { unfold is_digit19 in D. unfold is_digit, in_range in *. symmetry in D. apply andb_true_iff in D. destruct D as [D1 D2].
          rewrite D2, andb_true_r. apply N.leb_le in D1. apply N.leb_le. lia. }
        rewrite Dg in Sp. destruct (span is_digit r) as [t0 r0]. injection Sp as <- <-. cbn [starts]. symmetry. exact D. }
      rewrite <- Hr, T1.
      apply (st_idx s SIdx (emit l3 TkLiteral KNumber false) (l_rest l3) more (or_introl eq_refl) eq_refl eq_refl).
      * cbn [emit t_lit]. rewrite B3. exact Al.
      * intros _. cbn [emit t_lit]. rewrite B3. exact S19.
      * apply (IH _ _ _ _ _ M V' (LI_LC _ _ L')). cbn [entry]. left. split; [discriminate|reflexivity].
    + injection Es as <- <- <-. destruct (scan_loop n ScPlain l) as [more|] eqn:M; [|discriminate H]. injection H as <-. cbn [app].
      apply (IH _ _ _ _ _ M V C). cbn [entry]. left. split; [discriminate|exact Hr].
  - (* scanQuotedPlain *)
    destruct En as (Hm & L & Hr & Q). destruct (quote_char l C V Q) as (q & r0 & Hq & Rq & E0 & E1 & E2).
    unfold scan_quoted_plain in Es.
    destruct (quoted_loop (lex_fuel (lex_next l)) (l_rune l) (lex_next l)) as [[l2 cl]|] eqn:QL; [|discriminate Es].
    injection Es as <- <- <-. pose proof (reach_trans _ _ _ (reach_one l) (quoted_reach _ _ _ _ _ QL)) as R.
    destruct (reach_ok s _ _ R V L) as [V' L']. destruct (reach_text _ _ R V) as (x & X1 & X2).
    destruct (scan_loop n ScPlain l2) as [more|] eqn:M; [|discriminate H]. injection H as <-. cbn [app].
    pose proof (tok_emit s l2 TkPlain KString (negb cl) L') as T.
    replace r with (l_pre l2 ++ l_rest l2) by (rewrite X1, append_assoc, <- X2; exact Hr).
    apply (st_plain s m (emit l2 TkPlain KString (negb cl)) (l_rest l2) more Hm eq_refl T).
    apply (IH _ _ _ _ _ M V' (LI_LC _ _ L')). cbn [entry]. left. split; [discriminate|reflexivity].
  - (* scanFunc *)
    destruct En as (Hm & Hr & Q). unfold scan_func in Es. injection Es as El Ets Est.
    pose proof (reach_one (start_token l)) as R. rewrite El in R.
    destruct (tok_emit_from s l l' (l_pre l') TkHash KString false C V R eq_refl) as (T1 & T2 & V' & L').
    rewrite <- Est in H. destruct (scan_loop n ScFuncName l') as [more|] eqn:M; [|discriminate H].
    injection H as <-. rewrite <- Ets, El. cbn [app].
    destruct (rune_rest (start_token l) "#" (LI_LC _ _ (LI_start _ _ C)) (valid_start _ V) eq_refl eq_refl Q) as (r' & _ & _ & P).
    rewrite El in P. cbn [start_token l_pre append] in P.
    rewrite <- Hr, T1. apply (st_hash s m (emit l' TkHash KString false) (l_rest l') more Hm eq_refl P T2).
    apply (IH _ _ _ _ _ M V' (LI_LC _ _ L')). cbn [entry]. auto.
  - (* scanFuncName *)
    destruct En as (-> & Hr). unfold scan_func_name in Es.
    destruct (while_spec _ _ _ agrees_letter (lex_fuel (start_token l)) (start_token l)
                (valid_start _ V) (fuel_ok _)) as (l2 & A1 & A2 & A3 & A4 & A5 & _).
    rewrite A1 in Es.
    destruct (tok_emit_from s l l2 (l_pre l2) TkName KString false C V (while_reach _ _ _ _ A1) eq_refl) as (T1 & T2 & V2 & L2).
    pose proof (LI_LC _ _ L2) as C2.
    rewrite start_rest, (rest_cut l C), Hr in A3. cbn [start_token l_pre append] in A3.
    destruct (span is_letter r) as [nm r1] eqn:Sp. cbn [fst] in A3. destruct (span_split _ _ _ _ Sp) as [_ Al].
    destruct (advanced l2) eqn:Ad2; cbn [negb] in Es.
    2: { injection Es as <- <- <-. destruct (scan_loop n ScPlain l2) as [more|] eqn:M; [|discriminate H]. injection H as <-. cbn [app].
         apply not_advanced in Ad2. rewrite Ad2 in T1. cbn [append] in T1.
         apply (IH _ _ _ _ _ M V2 C2). cbn [entry]. left. split; [discriminate|]. congruence. }
    assert (Wf : wf_name (l_pre l2) = true).
    { unfold wf_name. unfold advanced in Ad2. rewrite Ad2, A3, Al. reflexivity. }
    destruct (while_spec _ _ _ agrees_digit (lex_fuel (start_token l2)) (start_token l2)
                (valid_start _ V2) (fuel_ok _)) as (l3 & B1 & B2 & B3 & B4 & B5 & _).
    rewrite B1 in Es.
    destruct (tok_emit_from s l2 l3 (l_pre l3) TkLiteral KNumber false C2 V2 (while_reach _ _ _ _ B1) eq_refl) as (U1 & U2 & V3 & L3).
    pose proof (LI_LC _ _ L3) as C3.
    rewrite start_rest, (rest_cut l2 C2) in B3. cbn [start_token l_pre append] in B3.
    destruct (span is_digit (l_rest l2)) as [ds r2] eqn:Sp2. cbn [fst] in B3. destruct (span_split _ _ _ _ Sp2) as [_ Al2].
    assert (Name : forall more, stream s SAft (l_rest l2) more -> stream s SName r (emit l2 TkName KString false :: more)).
    { intros more Sm. rewrite <- Hr, T1. apply (st_name s (emit l2 TkName KString false) (l_rest l2) more eq_refl Wf Sm). }
    destruct (advanced l3) eqn:Ad3.
    + injection Es as <- <- <-. destruct (scan_loop n ScPlain l3) as [more|] eqn:M; [|discriminate H]. injection H as <-. cbn [app].
      apply Name. rewrite U1.
      apply (st_idx s SAft (emit l3 TkLiteral KNumber false) (l_rest l3) more (or_intror eq_refl) eq_refl eq_refl).
      * cbn [emit t_lit]. rewrite B3. exact Al2.
      * discriminate.
      * apply (IH _ _ _ _ _ M V3 C3). cbn [entry]. left. split; [discriminate|reflexivity].
    + apply not_advanced in Ad3. rewrite Ad3 in U1. cbn [append] in U1.
      destruct (l_rune l3 =? r_lparen)%N eqn:Lp.
      * destruct (rune_rest l3 "(" C3 V3 eq_refl eq_refl Lp) as (r3 & P1 & P2 & P3).
        injection Es as <- <- <-. destruct (scan_loop n ScFuncArgs (lex_next l3)) as [more|] eqn:M; [|discriminate H]. injection H as <-. cbn [app].
        apply Name. rewrite U1, P1. apply (st_lparen s (emit (lex_next l3) TkLparen KString false) r3 more eq_refl).
        apply (IH _ _ _ _ _ M (valid_next _ V3) (LI_LC _ _ (LI_next _ _ V3 L3))). cbn [entry]. auto.
      * injection Es as <- <- <-. destruct (scan_loop n ScPlain l3) as [more|] eqn:M; [|discriminate H]. injection H as <-. cbn [app].
        apply Name. apply (IH _ _ _ _ _ M V3 C3). cbn [entry]. left. split; [discriminate|]. congruence.
  - (* scanFuncArgs *)
    destruct En as (-> & En).
    destruct (string_dec (l_rest l) "") as [Z|Z].
    { destruct (at_end (S n) ScFuncArgs l toks (or_intror eq_refl) H0 V C Z) as (t & -> & T & _). apply st_eof_args, T. }
    destruct En as [Hr|Hr]; [|contradiction].
    unfold scan_func_args in Es.
    destruct (skip_spec (lex_fuel l) l V (fuel_ok _)) as (l1 & S1 & S2 & S3 & S4). rewrite S1 in Es.
    assert (C1 : LC s l1).
    { pose proof (skip_reach _ _ _ S1) as R. clear - C V R. revert C V. induction R as [l|l l' R IHR]; intros C V; [exact C|].
      apply IHR; [|apply valid_next, V].
      pose proof (LI_next s (start_token l) (valid_start _ V) (LI_start _ _ C)) as L.
      apply LI_LC in L. destruct L as (us & E1 & E2 & E3 & E4). exists us.
      assert (Eq : l_rest (lex_next l) = l_rest (lex_next (start_token l)) /\ l_off (lex_next l) = l_off (lex_next (start_token l))
                   /\ l_pos (lex_next l) = l_pos (lex_next (start_token l))).
      { unfold lex_next, start_token. cbn [l_rest l_width l_pre l_off l_pos l_soff l_spos].
        destruct (l_rest l); [auto|]. destruct (decode_rune _); auto. }
      destruct Eq as (Q1 & Q2 & Q3). rewrite Q1, Q2, Q3. auto. }
    rewrite (rest_cut l C), (rest_cut l1 C1), Hr in S3.
    destruct (trim_left_split r) as (w & Ew & Ww). rewrite <- S3 in Ew.
    pose proof (LI_start _ _ C1) as L1s. pose proof (LI_LC _ _ L1s) as C1s.
    change (l_rune (start_token l1)) with (l_rune l1) in Es.
    destruct (l_rune l1 =? eof)%N eqn:E0.
    { injection Es as <- <- <-. destruct (scan_loop n ScPlain (start_token l1)) as [more|] eqn:M; [|discriminate H]. injection H as <-. cbn [app].
      apply (IH _ _ _ _ _ M (valid_start _ S2) C1s). cbn [entry]. right. split; [reflexivity|]. apply (eof_rest l1 C1 S2 E0). }
    destruct (l_rune l1 =? r_comma)%N eqn:Ec.
    { destruct (rune_rest (start_token l1) "," C1s (valid_start _ S2) eq_refl eq_refl Ec) as (r3 & P1 & P2 & P3).
      injection Es as <- <- <-. destruct (scan_loop n ScFuncArgs _) as [more|] eqn:M in H; [|discriminate H]. injection H as <-. cbn [app].
      rewrite Ew. change (l_rest l1) with (l_rest (start_token l1)). rewrite P1.
      apply (st_comma s w (emit (lex_next (start_token l1)) TkComma KString false) r3 more Ww eq_refl).
      apply (IH _ _ _ _ _ M (valid_next _ (valid_start _ S2)) (LI_LC _ _ (LI_next _ _ (valid_start _ S2) L1s))). cbn [entry]. auto. }
    destruct (l_rune l1 =? r_rparen)%N eqn:Ep.
    { destruct (rune_rest (start_token l1) ")" C1s (valid_start _ S2) eq_refl eq_refl Ep) as (r3 & P1 & P2 & P3).
      injection Es as <- <- <-. destruct (scan_loop n ScPlain _) as [more|] eqn:M in H; [|discriminate H]. injection H as <-. cbn [app].
      rewrite Ew. change (l_rest l1) with (l_rest (start_token l1)). rewrite P1.
      apply (st_rparen s w (emit (lex_next (start_token l1)) TkRparen KString false) r3 more Ww eq_refl).
      apply (IH _ _ _ _ _ M (valid_next _ (valid_start _ S2)) (LI_LC _ _ (LI_next _ _ (valid_start _ S2) L1s))). cbn [entry]. left. split; [discriminate|exact P2]. }
    destruct (l_rune l1 =? r_squote)%N eqn:Eq.
    { injection Es as <- <- <-. destruct (scan_loop n ScFuncArgQuoted _) as [more|] eqn:M in H; [|discriminate H]. injection H as <-. cbn [app].
      apply (IH _ _ _ _ _ M (valid_start _ S2) C1s). cbn [entry]. repeat split; auto. exists w. split; [exact Ww|exact Ew]. }
    destruct (while_loop (lex_fuel (start_token l1)) word_rune (start_token l1)) as [l3|] eqn:W; [|discriminate Es].
    injection Es as <- <- <-.
    destruct (tok_emit_from s l1 l3 (l_pre l3) TkName KString false C1 S2 (while_reach _ _ _ _ W) eq_refl) as (T1 & T2 & V3 & L3).
    pose proof (LI_LC _ _ L3) as C3.
    destruct (scan_loop n ScFuncArgs l3) as [more|] eqn:M; [|discriminate H]. injection H as <-.
    destruct (advanced l3) eqn:Ad.
    + cbn [app]. rewrite Ew, T1. replace (l_pre l3) with (t_lit (word_token l3)).
      2: { unfold word_token. destruct (_ || _); [reflexivity|]. destruct (_ || _); [reflexivity|]. destruct (parse_float _); reflexivity. }
      apply (st_word s w (word_token l3) (l_rest l3) more Ww).
      * rewrite strip_word. f_equal. unfold word_token. destruct (_ || _); [reflexivity|]. destruct (_ || _); [reflexivity|]. destruct (parse_float _); reflexivity.
      * apply (IH _ _ _ _ _ M V3 C3). cbn [entry]. auto.
    + cbn [app]. apply (IH _ _ _ _ _ M V3 C3). cbn [entry]. split; [reflexivity|]. right.
      (* nothing consumed: the rune is not a character of the template *)
      destruct (while_spec _ _ _ agrees_word (lex_fuel (start_token l1)) (start_token l1)
                  (valid_start _ S2) (fuel_ok _)) as (l3' & A1 & A2 & A3 & A4 & _).
      rewrite W in A1. injection A1 as <-. apply not_advanced in Ad.
      rewrite start_rest, (rest_cut l1 C1) in A3, A4. cbn [start_token l_pre append] in A3. rewrite Ad in A3.
      rewrite (rest_cut l3 C3) in A4. rewrite A4.
      destruct (l_rest l1) as [|c r3] eqn:E1; [reflexivity|]. exfalso.
      cbn [span] in A3. destruct (is_word c) eqn:Wc.
      { destruct (span is_word r3). discriminate A3. }
      pose proof (ascii_rune_not l1 "," S2 eq_refl eq_refl) as K1. pose proof (ascii_rune_not l1 ")" S2 eq_refl eq_refl) as K2.
      rewrite (rest_cut l1 C1), E1 in K1, K2. change (code ",") with r_comma in K1. change (code ")") with r_rparen in K2.
      rewrite Ec in K1. rewrite Ep in K2. unfold is_word in Wc. rewrite <- K1, <- K2 in Wc. discriminate Wc.
  - (* scanFuncArgQuoted *)
    destruct En as (-> & L & Pre & (w & Ww & Er) & Q). 
    destruct (rune_rest l "'" C V eq_refl eq_refl Q) as (r0 & P1 & P2 & P3).
    assert (Rq : l_rune l = code "'") by (apply N.eqb_eq in Q; exact Q).
    unfold scan_func_arg_quoted in Es. rewrite Rq in Es.
    pose proof (valid_next _ V) as V1. pose proof (LI_next _ _ V L) as L1.
    destruct (quoted_spec "'" eq_refl (lex_fuel (lex_next l)) (lex_next l) V1 (fuel_ok _)) as (l2 & W1 & W2 & W3 & W4 & W5).
    rewrite W1 in Es. rewrite (rest_cut _ (LI_LC _ _ L1)), P2 in *.
    destruct (reach_ok s _ _ (quoted_reach _ _ _ _ _ W1) V1 L1) as [V2 L2]. pose proof (LI_LC _ _ L2) as C2.
    destruct (bquote "'" r0) as [[b r1] cl] eqn:Bq. cbn [fst snd] in *.
    injection Es as <- <- <-. destruct cl.
    + destruct (scan_loop n ScFuncArgs l2) as [more|] eqn:M; [|discriminate H]. injection H as <-. cbn [app].
      destruct (bquote_closed_body r0 b r1 Bq) as (body & Eb & Bo).
      { pose proof (rest_no_nul _ (LI_LC _ _ L1)) as N. rewrite P2 in N. exact N. }
      assert (Lit : l_pre l2 = "'" ++ body ++ "'").
      { rewrite W3, P3, Pre, Eb. reflexivity. }
      rewrite (rest_cut l2 C2) in W4. pose proof (bquote_split _ _ _ _ _ Bq) as Sq.
      rewrite Er, P1.
      replace (String "'" r0) with (t_lit (emit l2 TkLiteral KString (negb true)) ++ l_rest l2).
      2: { cbn [emit t_lit]. rewrite Lit, W4, Sq, Eb. cbn [append]. rewrite append_assoc. reflexivity. }
      apply (st_quoted s w body (emit l2 TkLiteral KString (negb true)) (l_rest l2) more Ww eq_refl eq_refl eq_refl Bo Lit).
      apply (IH _ _ _ _ _ M V2 C2). cbn [entry]. auto.
    + destruct (scan_loop n ScPlain l2) as [more|] eqn:M; [|discriminate H]. injection H as <-. cbn [app].
      apply st_unclosed; reflexivity.
Qed.

Lemma scan_all_stream : forall toks, scan_all s = Some toks -> stream s STop s toks.
Proof.
  intros toks H. destruct (new_lexer_ok s) as [V R].
  apply (scan_stream _ _ _ _ _ _ H V (LC_new s)). cbn [entry]. left. split; [discriminate|exact R].
Qed.
End Scan.

(* ------------------------------------------------------------------ *)
(** * The parser *)

Lemma append_inj_l : forall a b x : string, String.length a = String.length b -> forall y, a ++ x = b ++ y -> a = b /\ x = y.
Proof.
  induction a as [|c a IH]; intros [|d b] x L y E; cbn in L; try discriminate L; [auto|].
  cbn [append] in E. injection E as -> E. injection L as L. destruct (IH b x L y E) as [-> ->]. auto.
Qed.
Lemma append_inj_r : forall a b x : string, a ++ x = b ++ x -> a = b.
Proof.
  intros a b x E. assert (L : String.length (a ++ x) = String.length (b ++ x)) by (rewrite E; reflexivity).
  rewrite !length_append in L. apply (append_inj_l a b x) with (y := x); [lia|exact E].
Qed.

Lemma word_typ : forall w, a_typ (a_word w) = TkLiteral \/ a_typ (a_word w) = TkName.
Proof. intro w. unfold a_word. destruct (_ || _); [auto|]. destruct (_ || _); [auto|]. destruct (parse_float w); auto. Qed.
Ltac no_arg := match goal with
  | X : SArg <> SArg |- _ => apply X; reflexivity
  | X : SArg = _ \/ SArg = _ |- _ => destruct X as [X|X]; discriminate X
  end.
Lemma args_stream : forall s n p args0 args p' r, args_loop n p args0 = POk (args, p') ->
  stream s SArg r (pr_toks p) ->
  exists new t r', args = (args0 ++ new)%list /\ r = t ++ r' /\ args_source new t /\ stream s STop r' (pr_toks p').
Proof.
  intro s. induction n as [|n IH]; intros p args0 args p' r H St; [discriminate H|].
  cbn [args_loop] in H. unfold got, next_token in H.
  destruct (pr_toks p) as [|t ts] eqn:Et; [inversion St|]. cbn [snd pr_tok] in H.
  (* after an argument [v] written as [w ++ x] *)
  assert (Arg : forall w x v r1, r = w ++ x ++ r1 -> white w -> arg_source v x -> stream s SArg r1 ts ->
    t_typ t = TkLiteral -> arg_value (mkParser ts t (pr_index p) (pr_style p)) = POk v ->
    exists new t0 r', args = (args0 ++ new)%list /\ r = t0 ++ r' /\ args_source new t0 /\ stream s STop r' (pr_toks p')).
  { intros w x v r1 Er Ww Sv S1 Ty Av. rewrite Ty in H. cbn [toktype_eqb negb] in H. rewrite Av in H. cbv iota in H.
    cbn [pr_toks] in H. destruct ts as [|u us]; [inversion S1|]. cbn [snd pr_tok] in H.
    inversion S1; subst; try (exfalso; no_arg);
      repeat match goal with E : t_typ u = _ |- _ => rewrite E in H; clear E end;
      cbn [toktype_eqb] in H; try discriminate H.
    - (* comma *)
      destruct (IH _ _ _ _ r0 H ltac:(assumption)) as (new & t0 & r' & E1 & E2 & E3 & E4).
      exists (v :: new), (w ++ x ++ w0 ++ "," ++ t0), r'. rewrite <- app_assoc in E1. split; [exact E1|].
      split; [rewrite !append_assoc; rewrite E2; reflexivity|]. split; [constructor; assumption|exact E4].
    - injection H as <- <-. exists [v], (w ++ x ++ w0 ++ ")"), r0. split; [reflexivity|].
      split; [rewrite !append_assoc; reflexivity|]. split; [constructor; assumption|assumption].
    - (* a word: neither comma nor parenthesis *)
      exfalso. assert (T : t_typ u = TkLiteral \/ t_typ u = TkName).
      { change (t_typ u) with (a_typ (strip_tok u)). match goal with E : strip_tok u = _ |- _ => rewrite E end.
        unfold a_word. destruct (_ || _); [auto|]. destruct (_ || _); [auto|]. destruct (parse_float _); auto. }
      destruct T as [T|T]; rewrite T in H; discriminate H. }
  inversion St; subst; try (exfalso; no_arg).
  - match goal with E : t_typ t = _ |- _ => rewrite E in H end. discriminate H.
  - match goal with E : t_typ t = _ |- _ => rewrite E in H end. discriminate H.
  - match goal with E : t_typ t = _ |- _ => rewrite E in H end. cbn [toktype_eqb negb] in H.
    injection H as <- <-. exists [], (w ++ ")"), r0. rewrite app_nil_r, append_assoc. split; [reflexivity|].
    split; [reflexivity|]. split; [constructor; assumption|assumption].
  - (* word *)
    match goal with E : strip_tok t = _ |- _ => rename E into Ew end.
    destruct (word_typ (t_lit t)) as [Ta|Ta].
    + pose proof (arg_value_spec (mkParser ts t (pr_index p) (pr_style p))) as A. cbn [pr_tok] in A.
      assert (Ok : tok_ok (strip_tok t)).
      { rewrite Ew. split; [rewrite Ta; discriminate|]. intros _ B. unfold a_word in B |- *.
        destruct (_ || _); [discriminate|]. destruct (_ || _); [discriminate|].
        destruct (parse_float _); [discriminate|discriminate B]. }
      assert (Ty : t_typ t = TkLiteral) by (rewrite <- Ew in Ta; exact Ta).
      specialize (A Ok Ty). rewrite Ew in A. destruct (a_value (a_word (t_lit t))) as [v|] eqn:Va.
      * eapply Arg; eauto. apply word_source; assumption.
      * destruct A as (o & m & A). rewrite Ty in H. cbn [toktype_eqb negb] in H. rewrite A in H. discriminate H.
    + exfalso. rewrite <- Ew in Ta. cbn [strip_tok a_typ] in Ta. rewrite Ta in H. discriminate H.
  - (* quoted *)
    eapply Arg with (v := LStr (undouble_quotes b)); eauto.
    + match goal with E : t_lit t = _ |- _ => rewrite E end. constructor. assumption.
    + unfold arg_value. cbn [pr_tok].
      repeat match goal with E : t_bad t = _ |- _ => rewrite E | E : t_kind t = _ |- _ => rewrite E | E : t_lit t = _ |- _ => rewrite E end.
      cbn [append]. rewrite strip_quotes_ok. reflexivity.
  - match goal with E : t_typ t = _ |- _ => rewrite E in H end. cbn [toktype_eqb negb] in H.
    unfold arg_value in H. cbn [pr_tok] in H. match goal with E : t_bad t = _ |- _ => rewrite E in H end. discriminate H.
Qed.

Section Parse.
Variable s : string.
Hypothesis Hne : s <> "".

Definition laid (b : string) (es : list expr) (r : string) : Prop := exists srcs,
  Forall2 source (map strip es) srcs /\ concat_all srcs = r /\ map expr_pos es = reported_all b srcs.

Lemma laid_cons : forall b t e es r, source (strip e) t -> expr_pos e = reported b (t ++ r) -> laid (b ++ t) es r ->
  laid b (e :: es) (t ++ r).
Proof.
  intros b t e es r Sr Ps (srcs & F & E & P). exists (t :: srcs). cbn [map]. split; [constructor; assumption|].
  split; [cbn [concat_all fold_right]; f_equal; exact E|].
  cbn [reported_all concat_all fold_right]. rewrite Ps, P. f_equal. 
  change (fold_right append "" srcs) with (concat_all srcs). rewrite E. reflexivity.
Qed.
Definition cut_at (b r : string) : Prop := s = b ++ r.
Lemma tok_pos : forall b r t, cut_at b r -> tok_at s r t -> t_pos t = reported b r.
Proof.
  intros b r t E (b' & E' & _ & P). unfold cut_at in E. rewrite (P Hne). rewrite E in E'. apply append_inj_r in E'. subst b'. reflexivity.
Qed.

Lemma parse_stream : forall n p acc es m r b, parse_loop n p acc = POk es -> stream s m r (pr_toks p) ->
  m <> SArg -> cut_at b r -> exists new, es = (acc ++ new)%list /\ laid b new r.
Proof.
  induction n as [|n IH]; intros p acc es m r b H St Hm Es; [discriminate H|].
  cbn [parse_loop] in H. unfold next_token in H.
  destruct (pr_toks p) as [|t ts] eqn:Et.
  { cbn [negb] in H. injection H as <-. exists []. rewrite app_nil_r. split; [reflexivity|].
    inversion St; subst. exists []. split; [constructor|split; reflexivity]. }
  cbn [negb pr_tok] in H.
  assert (Step : forall p1 acc1 x t1 r1 m1, parse_loop n p1 (acc ++ acc1) = POk es -> acc1 = [x] ->
    stream s m1 r1 (pr_toks p1) -> m1 <> SArg -> r = t1 ++ r1 -> source (strip x) t1 -> expr_pos x = reported b (t1 ++ r1) ->
    exists new, es = (acc ++ new)%list /\ laid b new r).
  { intros p1 acc1 x t1 r1 m1 H1 -> S1 M1 Er So Ps. 
    destruct (IH p1 _ es m1 r1 (b ++ t1) H1 S1 M1) as (new & E1 & L1).
    { unfold cut_at. rewrite append_assoc, <- Er. exact Es. }
    exists (x :: new). split; [rewrite E1, <- app_assoc; reflexivity|]. rewrite Er. apply laid_cons; assumption. }
  inversion St as [|m0 t0 M0 Ty Lt At|r0 t0 Ty|m0 t0 r0 ts0 M0 Ty At S1|m0 t0 r0 ts0 M0 Ty Lt At S1
    |m0 t0 r0 ts0 M0 Ty Lt At S1|m0 t0 r0 ts0 M0 Ty K Al S19 S1|t0 r0 ts0 Ty Wf S1|t0 r0 ts0 Ty S1
    |w t0 r0 ts0 Ww Ty S1|w t0 r0 ts0 Ww Ty S1|w t0 r0 ts0 Ww Wd S1|w bd t0 r0 ts0 Ww Ty K Bd Bo Lt S1|r0 t0 ts0 Ty Bd];
    subst; try contradiction.
  - (* EOF *)
    rewrite Ty in H. destruct (IH _ _ _ STop "" b H (st_nil s) ltac:(discriminate) Es) as (new & E & L). exists new. auto.
  - rewrite Ty in H. eapply Step; [exact H|reflexivity|exact S1|discriminate|reflexivity|constructor|].
    cbn [expr_pos]. apply tok_pos; assumption.
  - (* bind variable *)
    rewrite Ty in H. unfold bind_var_expr in H. cbn [pr_tok pr_style pr_index pr_toks] in H.
    pose proof (tok_pos b _ t Es At) as Ps.
    destruct Lt as [Lt|Lt]; rewrite Lt in H; cbn [String.eqb Ascii.eqb Bool.eqb] in H.
    + destruct ((if pr_style p =? 0 then style_dollar else pr_style p) =? style_dollar)%Z; [|discriminate H].
      change (style_dollar =? style_question)%Z with false in H. cbv iota in H.
      unfold got, next_token in H. cbn [pr_toks] in H.
      destruct ts as [|u us]; cbn [snd pr_tok pr_index pr_style] in H.
      { inversion S1. }
      destruct (toktype_eqb (t_typ u) TkLiteral) eqn:Tu; cbn [negb] in H; [|discriminate H].
      assert (Tu' : t_typ u = TkLiteral) by (destruct (t_typ u); try discriminate Tu; reflexivity).
      destruct (litkind_eqb (t_kind u) KNumber) eqn:Ku; cbn [negb] in H; [|discriminate H].
      destruct (parse_uint64 (t_lit u)) as [v|] eqn:Pu; [|discriminate H].
      inversion S1 as [|m1 t1 M1 Ty1 Lt1 At1|r1 t1 Ty1|m1 t1 r1 ts1 M1 Ty1 At1 S2|m1 t1 r1 ts1 M1 Ty1 Lt1 At1 S2
        |m1 t1 r1 ts1 M1 Ty1 Lt1 At1 S2|m1 t1 r1 ts1 M1 Ty1 K1 Al1 S191 S2|t1 r1 ts1 Ty1 Wf1 S2|t1 r1 ts1 Ty1 S2
        |w1 t1 r1 ts1 Ww1 Ty1 S2|w1 t1 r1 ts1 Ww1 Ty1 S2|w1 t1 r1 ts1 Ww1 Wd1 S2|w1 bd1 t1 r1 ts1 Ww1 Ty1 K1 Bd1 Bo1 Lt1 S2|r1 t1 ts1 Ty1 Bd1];
        subst; try (rewrite Tu' in Ty1; discriminate Ty1).
      eapply (Step _ _ _ ("$" ++ t_lit u) r1 STop); [exact H|reflexivity|exact S2|discriminate| | |].
      * rewrite Lt. cbn [append]. reflexivity.
      * cbn [strip]. constructor; auto.
      * cbn [expr_pos]. rewrite Ps, Lt. reflexivity.
    + destruct ((if pr_style p =? 0 then style_question else pr_style p) =? style_question)%Z; [|discriminate H].
      change (style_question =? style_question)%Z with true in H. cbv iota in H. cbn [pr_index] in H.
      eapply (Step _ _ _ "?" r0 SIdx); [exact H|reflexivity|exact S1|discriminate| | |].
      * rewrite Lt. reflexivity.
      * constructor.
      * cbn [expr_pos]. rewrite Ps, Lt. reflexivity.
  - (* function *)
    rewrite Ty in H. unfold func_expr in H. cbn [pr_tok] in H. pose proof (tok_pos b _ t Es At) as Ps.
    unfold got, next_token in H. cbn [pr_toks pr_index pr_style] in H.
    destruct ts as [|u us]; cbn [snd pr_tok] in H.
    { inversion S1. }
    destruct (toktype_eqb (t_typ u) TkName) eqn:Tu; cbn [negb] in H; [|discriminate H].
    assert (Tu' : t_typ u = TkName) by (destruct (t_typ u); try discriminate Tu; reflexivity).
    inversion S1 as [|m1 t1 M1 Ty1 Lt1 At1|r1 t1 Ty1|m1 t1 r1 ts1 M1 Ty1 At1 S2|m1 t1 r1 ts1 M1 Ty1 Lt1 At1 S2
      |m1 t1 r1 ts1 M1 Ty1 Lt1 At1 S2|m1 t1 r1 ts1 M1 Ty1 K1 Al1 S191 S2|t1 r1 ts1 Ty1 Wf1 S2|t1 r1 ts1 Ty1 S2
      |w1 t1 r1 ts1 Ww1 Ty1 S2|w1 t1 r1 ts1 Ww1 Ty1 S2|w1 t1 r1 ts1 Ww1 Wd1 S2|w1 bd1 t1 r1 ts1 Ww1 Ty1 K1 Bd1 Bo1 Lt1 S2|r1 t1 ts1 Ty1 Bd1];
      subst; try (rewrite Tu' in Ty1; discriminate Ty1).
    destruct us as [|v vs]; [inversion S2|]. cbn [snd pr_tok pr_toks pr_index pr_style] in H.
    rewrite Lt in Es, Ps.
    assert (Two : forall m3 lit ps r3, stream s m3 r3 vs -> parse_loop n (mkParser vs v (pr_index p) (pr_style p))
        (acc ++ [EFunc (t_lit u) (t_pos t); EPlain lit ps]) = POk es -> m3 <> SArg -> r1 = lit ++ r3 ->
        lit = t_lit v /\ ps = t_pos v /\ tok_at s r1 v ->
        exists new, es = (acc ++ new)%list /\ laid b new ("#" ++ t_lit u ++ r1)).
    { intros m3 lit ps r3 S3 H3 M3 E3 (-> & -> & At3).
      assert (Eb : cut_at (b ++ "#" ++ t_lit u) (t_lit v ++ r3)) by (unfold cut_at; rewrite Es, E3, !append_assoc; reflexivity).
      assert (Eb2 : cut_at ((b ++ "#" ++ t_lit u) ++ t_lit v) r3) by (unfold cut_at; rewrite Eb, !append_assoc; reflexivity).
      destruct (IH (mkParser vs v (pr_index p) (pr_style p)) _ es m3 r3 _ H3 S3 M3 Eb2) as (new & E1 & L1).
      exists (EFunc (t_lit u) (t_pos t) :: EPlain (t_lit v) (t_pos v) :: new).
      split; [rewrite E1, <- app_assoc; reflexivity|].
      replace ("#" ++ t_lit u ++ r1) with (("#" ++ t_lit u) ++ r1) by (rewrite append_assoc; reflexivity).
      apply laid_cons; [constructor; assumption|cbn [expr_pos]; rewrite Ps, !append_assoc; reflexivity|].
      rewrite E3. apply laid_cons; [constructor| |exact L1].
      cbn [expr_pos]. apply tok_pos; [exact Eb|rewrite <- E3; exact At3]. }
    inversion S2 as [|m2 t2 M2 Ty2 Lt2 At2|r2 t2 Ty2|m2 t2 r2 ts2 M2 Ty2 At2 S3|m2 t2 r2 ts2 M2 Ty2 Lt2 At2 S3
      |m2 t2 r2 ts2 M2 Ty2 Lt2 At2 S3|m2 t2 r2 ts2 M2 Ty2 K2 Al2 S192 S3|t2 r2 ts2 Ty2 Wf2 S3|t2 r2 ts2 Ty2 S3
      |w2 t2 r2 ts2 Ww2 Ty2 S3|w2 t2 r2 ts2 Ww2 Ty2 S3|w2 t2 r2 ts2 Ww2 Wd2 S3|w2 bd2 t2 r2 ts2 Ww2 Ty2 K2 Bd2 Bo2 Lt2 S3|r2 t2 ts2 Ty2 Bd2];
      subst.
    (* a function without arguments and the token after it *)
    + rewrite Ty2 in H. rewrite Lt; apply (Two _ _ _ "" (st_nil s) H); [discriminate|rewrite Lt2; reflexivity|split; [reflexivity|split; [reflexivity|exact At2]]].
    + rewrite Ty2 in H. rewrite Lt; apply (Two _ _ _ r2 S3 H); [discriminate|reflexivity|split; [reflexivity|split; [reflexivity|exact At2]]].
    + rewrite Ty2 in H. rewrite Lt; apply (Two _ _ _ r2 S3 H); [discriminate|reflexivity|split; [reflexivity|split; [reflexivity|exact At2]]].
    + rewrite Ty2 in H. rewrite Lt; apply (Two _ _ _ r2 S3 H); [discriminate|reflexivity|split; [reflexivity|split; [reflexivity|exact At2]]].
    + (* an index *)
      rewrite Ty2 in H. rewrite K2 in H. cbn [litkind_eqb negb] in H.
      destruct (parse_float (t_lit v)) as [f|] eqn:Pf; [|discriminate H].
      eapply (Step _ _ _ ("#" ++ t_lit u ++ t_lit v) r2 STop); [exact H|reflexivity|exact S3|discriminate| | |].
      * rewrite Lt, !append_assoc. reflexivity.
      * constructor; assumption.
      * cbn [expr_pos]. rewrite Ps, !append_assoc. reflexivity.
    + (* arguments *)
      rewrite Ty2 in H. destruct (args_loop _ _ _) as [[args p1]|? ?| |] eqn:Ea; try discriminate H.
      destruct (args_stream s _ _ _ _ _ r2 Ea S3) as (new & t0 & r' & E1 & E2 & E3 & E4).
      cbn [app] in E1. subst new.
      eapply (Step _ _ _ ("#" ++ t_lit u ++ "(" ++ t0) r' STop); [exact H|reflexivity|exact E4|discriminate| | |].
      * rewrite Lt, E2, !append_assoc. reflexivity.
      * constructor; assumption.
      * cbn [expr_pos]. rewrite Ps, E2, !append_assoc. reflexivity.
  - exfalso. rewrite Ty in H. discriminate H.
  - exfalso. rewrite Ty in H. discriminate H.
  - exfalso. rewrite Ty in H. discriminate H.
Qed.
End Parse.

Lemma positions : forall s es, no_nul s = true -> parse s = POk es ->
  exists srcs, Forall2 source (map strip es) srcs /\ concat_all srcs = s /\ map expr_pos es = reported_all "" srcs.
Proof.
  intros s es Hs H. destruct (String.eqb_spec s "") as [->|Hne].
  { vm_compute in H. injection H as <-. exists []. split; [constructor|split; reflexivity]. }
  unfold parse in H. destruct (scan_all s) as [toks|] eqn:Sc; [|discriminate H]. unfold parse_tokens in H.
  destruct (parse_stream s Hne _ _ _ _ STop s "" H (scan_all_stream s Hs toks Sc) ltac:(discriminate) eq_refl)
    as (new & E & L). cbn [app] in E. subst new. exact L.
Qed.

(* ------------------------------------------------------------------ *)
(** * Offsets of syntax errors *)

Section Offsets.
Variable n0 : nat.
Definition inside (l : lexer) : Prop :=
  valid l /\ l_off l = l_soff l + String.length (l_pre l) /\ l_off l + String.length (l_rest l) = n0.
Definition tok_in (t : token) : Prop := t_start t <= n0.

Lemma inside_next : forall l, inside l -> inside (lex_next l).
Proof.
  intros l (V & E1 & E2). split; [apply valid_next, V|]. destruct (l_rest l) as [|a s] eqn:E.
  - unfold lex_next. rewrite E. cbn [l_off l_soff l_pre l_rest]. auto.
  - destruct (current_char l V) as (u & U1 & _ & U3 & U4 & _); [congruence|].
    assert (Eo : l_off (lex_next l) = l_off l + l_width l /\ l_soff (lex_next l) = l_soff l).
    { unfold lex_next. rewrite E. destruct (decode_rune (str_drop (l_width l) (String a s))). split; reflexivity. }
    destruct Eo as [Eo Eso]. rewrite E in U1. rewrite Eo, Eso, U4, length_append.
    rewrite U1, length_append in E2. lia.
Qed.
Lemma inside_start : forall l, inside l -> inside (start_token l).
Proof. intros l (V & E1 & E2). split; [apply valid_start, V|]. cbn. split; [lia|exact E2]. Qed.
Lemma inside_reach : forall l l', reach l l' -> inside l -> inside l'.
Proof. induction 1 as [l|l l' H IH]; intro I; [exact I|]. apply IH, inside_next, I. Qed.
Lemma emit_in : forall l ty k b, inside l -> tok_in (emit l ty k b).
Proof. intros l ty k b (_ & E1 & E2). unfold tok_in. cbn [emit t_start]. lia. Qed.
Lemma word_in : forall l, inside l -> tok_in (word_token l).
Proof.
  intros l I. unfold word_token. destruct (_ || _); [apply emit_in, I|]. destruct (_ || _); [apply emit_in, I|].
  destruct (parse_float _); apply emit_in, I.
Qed.
Lemma digits_reach : forall n l l', digits_loop n l = Some l' -> reach l l'.
Proof.
  induction n as [|n IH]; intros l l' H; [discriminate H|]. cbn [digits_loop] in H.
  destruct (_ || _); [injection H as <-; constructor|]. apply reach_next, IH, H.
Qed.
Lemma plain_in : forall n l l' ts st, scan_plain_loop n l = Some (l', ts, st) -> inside l -> Forall tok_in ts.
Proof.
  induction n as [|n IH]; intros l l' ts st H I; [discriminate H|]. unfold scan_plain_loop in H; fold scan_plain_loop in H.
  assert (F : forall ty k b, Forall tok_in [emit l ty k b]) by (intros; constructor; [apply emit_in, I|constructor]).
  destruct (l_rune l =? eof)%N; [destruct (advanced l); injection H as _ <- _; apply F|].
  destruct (_ || _).
  { destruct (lex_peek l =? l_rune l)%N; [apply (IH _ _ _ _ H), inside_next, inside_next, I|].
    injection H as _ <- _. destruct (advanced l); [apply F|constructor]. }
  destruct (l_rune l =? r_hash)%N; [injection H as _ <- _; destruct (advanced l); [apply F|constructor]|].
  destruct (_ || _); [injection H as _ <- _; constructor|]. apply (IH _ _ _ _ H), inside_next, I.
Qed.

Lemma step_in : forall st l l' ts nx, scan_step st l = Some (l', ts, nx) -> inside l -> inside l' /\ Forall tok_in ts.
Proof.
  intros st l l' ts nx H I.
  assert (Q : forall q l1 c, quoted_loop (lex_fuel (lex_next l)) q (lex_next l) = Some (l1, c) -> inside l1).
  { intros q l1 c Hq. apply (inside_reach _ _ (quoted_reach _ _ _ _ _ Hq)), inside_next, I. }
  destruct st; cbn [scan_step] in H.
  - unfold scan_plain in H. split; [apply (inside_reach _ _ (plain_reach _ _ _ _ _ H)), inside_start, I|].
    apply (plain_in _ _ _ _ _ H), inside_start, I.
  - injection H as <- <- _. split; [apply inside_next, inside_start, I|].
    constructor; [apply emit_in, inside_next, inside_start, I|constructor].
  - unfold scan_index in H. destruct (in_range _ _ _).
    + destruct (digits_loop _ _) as [l1|] eqn:D; [|discriminate H]. injection H as <- <- _.
      assert (I1 : inside l1) by (apply (inside_reach _ _ (digits_reach _ _ _ D)), inside_start, I).
      split; [exact I1|]. constructor; [apply emit_in, I1|constructor].
    + injection H as <- <- _. auto using Forall_nil.
  - unfold scan_quoted_plain in H. destruct (quoted_loop _ _ _) as [[l1 c]|] eqn:D; [|discriminate H].
    injection H as <- <- _. pose proof (Q _ _ _ D) as I1. split; [exact I1|]. constructor; [apply emit_in, I1|constructor].
  - injection H as <- <- _. split; [apply inside_next, inside_start, I|].
    constructor; [apply emit_in, inside_next, inside_start, I|constructor].
  - unfold scan_func_name in H. destruct (while_loop _ _ _) as [l1|] eqn:D; [|discriminate H].
    assert (I1 : inside l1) by (apply (inside_reach _ _ (while_reach _ _ _ _ D)), inside_start, I).
    destruct (negb (advanced l1)); [injection H as <- <- _; auto using Forall_nil|].
    destruct (while_loop _ is_decimal_rune _) as [l2|] eqn:D2; [|discriminate H].
    assert (I2 : inside l2) by (apply (inside_reach _ _ (while_reach _ _ _ _ D2)), inside_start, I1).
    destruct (advanced l2); [|destruct (l_rune l2 =? r_lparen)%N]; injection H as <- <- _;
      (split; [first [exact I2 | apply inside_next, I2]|]);
      repeat (constructor; [apply emit_in; first [exact I1 | exact I2 | apply inside_next, I2]|]); constructor.
  - unfold scan_func_args in H. destruct (skip_ws _ _) as [l1|] eqn:D; [|discriminate H].
    assert (I1 : inside (start_token l1)) by (apply inside_start, (inside_reach _ _ (skip_reach _ _ _ D)), I).
    destruct (_ =? eof)%N; [injection H as <- <- _; auto using Forall_nil|].
    destruct (_ =? r_comma)%N; [injection H as <- <- _; split; [apply inside_next, I1|];
      constructor; [apply emit_in, inside_next, I1|constructor]|].
    destruct (_ =? r_rparen)%N; [injection H as <- <- _; split; [apply inside_next, I1|];
      constructor; [apply emit_in, inside_next, I1|constructor]|].
    destruct (_ =? r_squote)%N; [injection H as <- <- _; auto using Forall_nil|].
    destruct (while_loop _ _ _) as [l2|] eqn:D2; [|discriminate H]. injection H as <- <- _.
    assert (I2 : inside l2) by (apply (inside_reach _ _ (while_reach _ _ _ _ D2)), I1).
    split; [exact I2|]. destruct (advanced l2); [constructor; [apply word_in, I2|constructor]|constructor].
  - unfold scan_func_arg_quoted in H. destruct (quoted_loop _ _ _) as [[l1 c]|] eqn:D; [|discriminate H].
    injection H as <- <- _. pose proof (Q _ _ _ D) as I1. split; [exact I1|]. constructor; [apply emit_in, I1|constructor].
Qed.
Lemma scan_in : forall n st l toks, scan_loop n st l = Some toks -> inside l -> Forall tok_in toks.
Proof.
  induction n as [|n IH]; intros st l toks H I; [discriminate H|]. cbn [scan_loop] in H.
  destruct (scan_step st l) as [[[l' ts] nx]|] eqn:D; [|discriminate H].
  destruct (step_in _ _ _ _ _ D I) as [I' F]. destruct nx as [st'|]; [|injection H as <-; exact F].
  destruct (scan_loop n st' l') as [more|] eqn:D2; [|discriminate H]. injection H as <-.
  apply Forall_app. split; [exact F|apply (IH _ _ _ D2 I')].
Qed.

Definition pin (p : parser) : Prop := tok_in (pr_tok p) /\ Forall tok_in (pr_toks p).
Definition pgood {A} (q : A -> parser) (x : pres A) : Prop :=
  match x with POk a => pin (q a) | PErr o _ => o <= n0 | _ => True end.
Lemma next_pin : forall p, pin p -> pin (snd (next_token p)).
Proof.
  intros p [H1 H2]. unfold next_token. destruct (pr_toks p) as [|t ts] eqn:E; cbn [snd].
  - split; [exact H1|rewrite E; constructor].
  - inversion H2; subst. split; assumption.
Qed.
Lemma error_pin : forall A (q : A -> parser) p m, pin p -> pgood q (syntax_error p m).
Proof. intros A q p m [H _]. exact H. Qed.
Lemma bind_pin : forall p, pin p -> pgood snd (bind_var_expr p).
Proof.
  intros p Hp. unfold bind_var_expr. cbv zeta beta.
  assert (F : forall t p0 e, pin p0 -> pgood (A := expr * parser) snd (let (ok, p1) := got p0 TkLiteral in
    if negb ok then syntax_error p1 (want_text p1 TkLiteral)
    else if negb (litkind_eqb (t_kind (pr_tok p1)) KNumber) then syntax_error p1 ("unexpected '" ++ t_lit (pr_tok p1) ++ "', want bindvar index")
    else match parse_uint64 (t_lit (pr_tok p1)) with
         | None => syntax_error p1 (range_text "ParseUint" (t_lit (pr_tok p1)))
         | Some v => POk (EBind t (int_of_uint64 v) e, p1)
         end)).
  { intros t p0 e H0. unfold got.
    pose proof (next_pin p0 H0) as H1. destruct (negb (toktype_eqb _ _)); [apply error_pin, H1|].
    destruct (negb (litkind_eqb _ _)); [apply error_pin, H1|].
    destruct (parse_uint64 _); [exact H1|apply error_pin, H1]. }
  destruct (String.eqb _ "$").
  { destruct (_ =? style_dollar)%Z; [|exact (proj1 Hp)]. cbv iota.
    change (style_dollar =? style_question)%Z with false. cbv iota. apply F. exact Hp. }
  destruct (String.eqb _ "?").
  { destruct (_ =? style_question)%Z; [|exact (proj1 Hp)]. cbv iota.
    change (style_question =? style_question)%Z with true. cbv iota. exact Hp. }
  change (style_dollar =? style_question)%Z with false. cbv iota. apply F. exact Hp.
Qed.
Lemma args_pin : forall n p args, pin p -> pgood snd (args_loop n p args).
Proof.
  induction n as [|n IH]; intros p args Hp; [exact I|]. cbn [args_loop]. unfold got.
  pose proof (next_pin p Hp) as H1. set (p1 := snd (next_token p)) in *.
  destruct (negb (toktype_eqb _ TkLiteral)).
  - destruct (toktype_eqb _ TkRparen); cbn [negb]; [exact H1|apply error_pin, H1].
  - unfold arg_value.
    assert (G : forall v, pgood snd (let (comma, p0) := (toktype_eqb (t_typ (pr_tok (snd (next_token p1)))) TkComma, snd (next_token p1)) in
      if comma then args_loop n p0 (args ++ [v]) else if toktype_eqb (t_typ (pr_tok p0)) TkRparen then POk ((args ++ [v])%list, p0)
      else syntax_error p0 ("unexpected token " ++ tok_text (t_typ (pr_tok p0)) ++ ", want )"))).
    { intro v. pose proof (next_pin p1 H1) as H2. destruct (toktype_eqb _ TkComma); [apply IH, H2|].
      destruct (toktype_eqb _ TkRparen); [exact H2|apply error_pin, H2]. }
    destruct (t_bad _); [apply error_pin, H1|]. destruct (t_kind _); cbv iota.
    all: try apply G.
    + destruct (parse_float _); [apply G|apply error_pin, H1].
    + destruct (strip_quotes _); [apply G|exact I].
Qed.
Lemma func_pin : forall p, pin p -> pgood snd (func_expr p).
Proof.
  intros p Hp. unfold func_expr, got. pose proof (next_pin p Hp) as H1. set (p1 := snd (next_token p)) in *.
  destruct (negb _); [apply error_pin, H1|]. pose proof (next_pin p1 H1) as H2. set (p2 := snd (next_token p1)) in *.
  destruct (t_typ (pr_tok p2)); try exact H2.
  - destruct (negb _); [apply error_pin, H2|]. destruct (parse_float _); [exact H2|apply error_pin, H2].
  - pose proof (args_pin (S (List.length (pr_toks p2))) p2 [] H2) as G.
    destruct (args_loop _ _ _) as [[args p3]|o m| |]; exact G.
Qed.
Lemma loop_pin : forall n p acc o m, pin p -> parse_loop n p acc = PErr o m -> o <= n0.
Proof.
  induction n as [|n IH]; intros p acc o m Hp H; [discriminate H|]. cbn [parse_loop] in H.
  destruct (next_token p) as [more p1] eqn:E. pose proof (next_pin p Hp) as H1. rewrite E in H1. cbn [snd] in H1.
  destruct (negb more); [discriminate H|].
  destruct (t_typ (pr_tok p1)); try (apply (IH _ _ _ _ H1 H)); try (injection H as <- _; apply H1).
  - pose proof (bind_pin p1 H1) as G. destruct (bind_var_expr p1) as [[e p2]|o' m'| |]; try discriminate H.
    + apply (IH _ _ _ _ G H).
    + injection H as <- _. exact G.
  - pose proof (func_pin p1 H1) as G. destruct (func_expr p1) as [[es p2]|o' m'| |]; try discriminate H.
    + apply (IH _ _ _ _ G H).
    + injection H as <- _. exact G.
Qed.
End Offsets.

Lemma error_offset : forall s o m, parse s = PErr o m -> o <= String.length s.
Proof.
  intros s o m H. unfold parse in H. destruct (scan_all s) as [toks|] eqn:Sc; [|discriminate H].
  unfold parse_tokens in H. apply (loop_pin (String.length s) _ _ _ _ _) with (2 := H).
  split; [unfold tok_in; cbn; lia|]. cbn [pr_toks]. apply (scan_in _ _ _ _ _ Sc).
  unfold inside. split; [apply new_lexer_ok|]. destruct s as [|a s]; [cbn; auto|].
  unfold new_lexer, lex_next. cbn [l_rest l_width str_drop].
  destruct (decode_rune (String a s)). cbn. auto.
Qed.

(* ------------------------------------------------------------------ *)
(** * Texts without line breaks *)

Lemma opens_has : forall s, has_break s = false -> opens_line s = false.
Proof. intros [|a s] H; [reflexivity|]. cbn in *. apply orb_false_iff in H. apply H. Qed.
Lemma has_break_app : forall a b, has_break (a ++ b) = has_break a || has_break b.
Proof. induction a as [|c a IH]; intro b; [reflexivity|]. cbn. rewrite IH. apply orb_assoc. Qed.
Lemma reported_places_flat : forall srcs b, has_break (concat_all srcs) = false -> reported_all b srcs = places b srcs.
Proof.
  induction srcs as [|t l IH]; intros b H; [reflexivity|]. cbn [reported_all places].
  assert (H2 : has_break (concat_all l) = false).
  { cbn [concat_all fold_right] in H. rewrite has_break_app in H. apply orb_false_iff in H. apply H. }
  rewrite (IH _ H2). unfold reported. rewrite (opens_has _ H). reflexivity.
Qed.
Lemma place_col : forall b, p_col (place b) <> 0%N.
Proof.
  intro b. unfold place. assert (G : forall l p, (0 < p_col p)%N -> (0 < p_col (fold_left move l p))%N).
  { induction l as [|c l IH]; intros p H; [exact H|]. cbn [fold_left]. apply IH. unfold move.
    destruct (_ =? _)%N; cbn; lia. }
  specialize (G (chars b) (mkPos 1 1) ltac:(cbn; lia)). lia.
Qed.

Lemma positions_flat : forall s es, no_nul s = true -> has_break s = false -> parse s = POk es ->
  exists srcs, Forall2 source (map strip es) srcs /\ concat_all srcs = s /\ map expr_pos es = places "" srcs.
Proof.
  intros s es Hn Hb H. destruct (positions s es Hn H) as (srcs & F & E & P). exists srcs.
  rewrite P. rewrite <- E in Hb. rewrite (reported_places_flat srcs "" Hb). auto.
Qed.
Lemma positions_break : exists s es, no_nul s = true /\ parse s = POk es /\ forall srcs, map expr_pos es <> places "" srcs.
Proof.
  exists (String (ascii_of_nat 10) "SELECT 1"). eexists. split; [reflexivity|]. split; [vm_compute; reflexivity|].
  intros srcs H. destruct srcs as [|t l]; cbn [map places] in H; [discriminate H|].
  pose proof (f_equal (hd (mkPos 0 0)) H) as H1. cbn [hd] in H1. apply (place_col ""). rewrite <- H1. reflexivity.
Qed.
