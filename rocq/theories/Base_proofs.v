(** The primitives do what their specifications say. *)
From Coq Require Import Strings.String Strings.Ascii NArith ZArith List Bool Lia.
From Coq Require Import Floats.SpecFloat Numbers.DecimalString Numbers.DecimalN.
From Verif Require Import GoStr GoNum Syntax Value Util Model Sqlf Sqlb Spec_syntax ByteLex Lex_proofs Num_proofs RefSem Text_proofs Spec_build Spec_eval Build_proofs Eval_proofs Use_proofs Spec_base.
Import ListNotations.
Open Scope string_scope.

(* ------------------------------------------------------------------ *)
(** * White space *)

Lemma code_ascii : forall a n, code a = n -> a = ascii_of_N n.
Proof. intros a n <-. symmetry. apply ascii_N_embedding. Qed.
Lemma white_prefix : forall s, is_empty s = false -> is_space (fst (decode_rune s)) = true ->
  exists w, In w whites /\ s = w ++ str_drop (snd (decode_rune s)) s /\ String.length w = snd (decode_rune s).
Proof.
  intros [|a0 s] _ H; [discriminate H|]. cbn [decode_rune] in *.
  pose proof (code_ascii a0 _ eq_refl) as A0. set (b0 := code a0) in *.
  destruct (b0 <? 128)%N eqn:L0.
  { cbn [fst snd str_drop] in *. apply N.ltb_lt in L0. exists (String a0 ""). split; [|split; reflexivity].
    unfold is_space in H. replace (b0 <=? 255)%N with true in H by (symmetry; apply N.leb_le; lia). unfold in_range in H.
    assert (b0 = 9 \/ b0 = 10 \/ b0 = 11 \/ b0 = 12 \/ b0 = 13 \/ b0 = 32)%N as K.
    { rewrite !orb_true_iff, andb_true_iff, !N.leb_le, !N.eqb_eq in H. lia. }
    rewrite A0. clearbody b0. clear - K. decompose [or] K; subst b0; vm_compute; tauto. }
  apply N.ltb_ge in L0.
  assert (E : is_space rune_error = false) by reflexivity.
  destruct (in_range b0 194 223) eqn:R2.
  { destruct s as [|a1 s]; [cbn [fst] in H; rewrite E in H; discriminate|].
    pose proof (code_ascii a1 _ eq_refl) as A1. set (b1 := code a1) in *.
    destruct (in_range b1 128 191) eqn:C1; cbn [fst snd str_drop] in *; [|rewrite E in H; discriminate].
    exists (String a0 (String a1 "")). split; [|split; reflexivity].
    unfold in_range in R2, C1. rewrite andb_true_iff, !N.leb_le in R2, C1.
    assert (b0 = 194 /\ (b1 = 133 \/ b1 = 160))%N as [K0 K1].
    { unfold is_space, in_range in H. destruct (_ <=? 255)%N eqn:Le.
      - apply N.leb_le in Le. rewrite !orb_true_iff, andb_true_iff, !N.leb_le, !N.eqb_eq in H. lia.
      - apply N.leb_gt in Le. rewrite !orb_true_iff, andb_true_iff, !N.leb_le, !N.eqb_eq in H. lia. }
    rewrite A0, A1. clearbody b0 b1. clear - K0 K1. subst b0. decompose [or] K1; subst b1; vm_compute; tauto. }
  destruct (in_range b0 224 239) eqn:R3.
  { destruct s as [|a1 [|a2 s]]; try (cbn [fst] in H; rewrite E in H; discriminate).
    pose proof (code_ascii a1 _ eq_refl) as A1. set (b1 := code a1) in *.
    pose proof (code_ascii a2 _ eq_refl) as A2. set (b2 := code a2) in *.
    destruct (in_range b1 _ _ && in_range b2 128 191) eqn:C1; cbn [fst snd str_drop] in *; [|rewrite E in H; discriminate].
    exists (String a0 (String a1 (String a2 ""))). split; [|split; reflexivity].
    unfold in_range in R3, C1. rewrite andb_true_iff, !N.leb_le in R3. rewrite !andb_true_iff, !N.leb_le in C1. destruct C1 as [[C1 C1'] C2].
    assert (128 <= b1 <= 191)%N as C3 by (destruct (b0 =? 224)%N, (b0 =? 237)%N; lia). 
    assert (C4 : (b0 = 224 -> 160 <= b1)%N). { intros K. rewrite K in C1. exact C1. }
    assert ((b0 = 225 /\ b1 = 154 /\ b2 = 128) \/ (b0 = 226 /\ b1 = 128 /\ (128 <= b2 <= 138 \/ b2 = 168 \/ b2 = 169 \/ b2 = 175)) \/
      (b0 = 226 /\ b1 = 129 /\ b2 = 159) \/ (b0 = 227 /\ b1 = 128 /\ b2 = 128))%N as K.
    { clear C1 C1'. unfold is_space, in_range in H. destruct (_ <=? 255)%N eqn:Le.
      - apply N.leb_le in Le. lia.
      - apply N.leb_gt in Le. rewrite !orb_true_iff, andb_true_iff, !N.leb_le, !N.eqb_eq in H. lia. }
    rewrite A0, A1, A2. clearbody b0 b1 b2. clear - K. destruct K as [(-> & -> & ->)|[(-> & -> & K)|[(-> & -> & ->)|(-> & -> & ->)]]]; try (vm_compute; tauto).
    assert (b2 = 128 \/ b2 = 129 \/ b2 = 130 \/ b2 = 131 \/ b2 = 132 \/ b2 = 133 \/ b2 = 134 \/ b2 = 135 \/ b2 = 136 \/ b2 = 137 \/ b2 = 138 \/ b2 = 168 \/ b2 = 169 \/ b2 = 175)%N as J by lia.
    clear K. decompose [or] J; subst b2; vm_compute; tauto. }
  destruct (in_range b0 240 244) eqn:R4; [|cbn [fst] in H; rewrite E in H; discriminate].
  destruct s as [|a1 [|a2 [|a3 s]]]; try (cbn [fst] in H; rewrite E in H; discriminate).
  set (b1 := code a1) in *. set (b2 := code a2) in *. set (b3 := code a3) in *.
  destruct (in_range b1 _ _ && in_range b2 128 191 && in_range b3 128 191) eqn:C1; cbn [fst snd str_drop] in *; [|rewrite E in H; discriminate].
  exfalso. unfold in_range in R4, C1. rewrite andb_true_iff, !N.leb_le in R4. rewrite !andb_true_iff, !N.leb_le in C1. destruct C1 as [[[C1 C1'] C2] C3].
  assert (128 <= b1)%N as C4 by (destruct (b0 =? 240)%N; lia).
  assert (C5 : (b0 = 240 -> 144 <= b1)%N). { intros K. rewrite K in C1. exact C1. }
  clear C1 C1'. unfold is_space, in_range in H. destruct (_ <=? 255)%N eqn:Le.
  - apply N.leb_le in Le. lia.
  - apply N.leb_gt in Le. rewrite !orb_true_iff, andb_true_iff, !N.leb_le, !N.eqb_eq in H. lia.
Qed.
Lemma white_decodes : forall w u, In w whites -> is_space (fst (decode_rune (w ++ u))) = true /\ snd (decode_rune (w ++ u)) = String.length w /\ is_empty (w ++ u) = false.
Proof.
  intros w u H. unfold whites in H. cbn [map] in H. repeat (destruct H as [<-|H]; [repeat apply conj; reflexivity|]). destruct H.
Qed.
Lemma white_last : forall w u, In w whites -> is_space (fst (decode_last_rune (str_rev w ++ u))) = true /\ is_empty (str_rev w ++ u) = false.
Proof.
  intros w u H. unfold whites in H. cbn [map] in H. repeat (destruct H as [<-|H]; [repeat apply conj; reflexivity|]). destruct H.
Qed.
Lemma white_suffix : forall rs, is_empty rs = false -> is_space (fst (decode_last_rune rs)) = true ->
  exists w, In w whites /\ rs = str_rev w ++ str_drop (snd (decode_last_rune rs)) rs.
Proof.
  assert (E : is_space rune_error = false) by reflexivity.
  assert (G : forall k bs rest, String.length bs = k -> 0 < k ->
    is_space (fst (let (r, w) := decode_rune bs in if Nat.eqb w k then (r, k) else (rune_error, 1))) = true ->
    (let (r, w) := decode_rune bs in if Nat.eqb w k then (r, k) else (rune_error, 1)) = (fst (decode_rune bs), k) /\
    exists w, In w whites /\ str_rev bs ++ rest = str_rev w ++ rest).
  { intros k bs rest Hl Hk H. pose proof (white_prefix bs) as W. destruct (decode_rune bs) as [r w] eqn:D. cbn [fst snd] in *.
    destruct (Nat.eqb w k) eqn:Ew; [|cbn [fst] in H; rewrite E in H; discriminate]. apply Nat.eqb_eq in Ew. subst w. cbn [fst] in H.
    assert (is_empty bs = false) as Ne by (destruct bs; [cbn in Hl; lia|reflexivity]). 
    destruct (W Ne H) as (x & Hx & Eb & Lx). split; [reflexivity|]. exists x. split; [exact Hx|]. rewrite Eb at 1.
    rewrite rev_app. assert (Z : str_drop k bs = "").
    { rewrite <- Hl. clear. induction bs as [|a bs IH]; [reflexivity|exact IH]. }
    rewrite Z. change (str_rev "") with "". reflexivity. }
  intros [|a0 rs] _ H; [discriminate H|]. cbn [decode_last_rune] in *.
  destruct (code a0 <? 128)%N eqn:L0.
  { cbn [fst snd str_drop] in *. destruct (white_prefix (String a0 "")) as (w & Hw & Ew & Lw); [reflexivity|cbn [decode_rune]; rewrite L0; exact H|].
    cbn [decode_rune] in Lw. rewrite L0 in Lw. cbn [snd] in Lw. exists w. split; [exact Hw|]. rewrite (decode_ascii a0 "" L0) in Ew. cbn [snd str_drop] in Ew. rewrite append_nil_r in Ew. subst w. reflexivity. }
  destruct rs as [|a1 rs]; [cbn [fst] in H; rewrite E in H; discriminate|]. destruct (rune_start a1).
  { destruct (G 2 (String a1 (String a0 "")) rs eq_refl ltac:(lia) H) as [D (w & Hw & Ew)]. rewrite D. cbn [snd str_drop]. exists w. split; [exact Hw|]. exact Ew. }
  destruct rs as [|a2 rs]; [cbn [fst] in H; rewrite E in H; discriminate|]. destruct (rune_start a2).
  { destruct (G 3 (String a2 (String a1 (String a0 ""))) rs eq_refl ltac:(lia) H) as [D (w & Hw & Ew)]. rewrite D. cbn [snd str_drop]. exists w. split; [exact Hw|]. exact Ew. }
  destruct rs as [|a3 rs]; [cbn [fst] in H; rewrite E in H; discriminate|]. destruct (rune_start a3); [|cbn [fst] in H; rewrite E in H; discriminate].
  destruct (G 4 (String a3 (String a2 (String a1 (String a0 "")))) rs eq_refl ltac:(lia) H) as [D (w & Hw & Ew)]. rewrite D. cbn [snd str_drop]. exists w. split; [exact Hw|]. exact Ew.
Qed.

Lemma blank_app : forall a b, blank a -> blank b -> blank (a ++ b).
Proof. intros a b H. induction H as [|w s Hw H IH]; intros Hb; [exact Hb|]. rewrite append_assoc. constructor; auto. Qed.
Lemma blank_one : forall w, In w whites -> blank w.
Proof. intros w H. rewrite <- (append_nil_r w). constructor; [exact H|constructor]. Qed.

Lemma left_trimmed : forall n s, String.length s <= n ->
  (exists a, s = a ++ trim_left_f n s /\ blank a) /\ forall w u, In w whites -> trim_left_f n s <> w ++ u.
Proof.
  induction n as [|n IH]; intros s Hn.
  - destruct s; [|cbn in Hn; lia]. split; [exists ""; split; [reflexivity|constructor]|]. intros w u Hw E. destruct (white_decodes w u Hw) as (_ & _ & K).
    cbn [trim_left_f] in E. rewrite <- E in K. discriminate.
  - cbn [trim_left_f]. pose proof (white_prefix s) as W. destruct (decode_rune s) as [r w] eqn:D. cbn [fst snd] in W.
    destruct (is_empty s) eqn:Es; [destruct s; [|discriminate]|]; cbn [negb andb].
    { split; [exists ""; split; [reflexivity|constructor]|]. intros w' u Hw E. destruct (white_decodes w' u Hw) as (_ & _ & K). rewrite <- E in K. discriminate. }
    destruct (is_space r) eqn:Sp.
    + destruct (W eq_refl eq_refl) as (x & Hx & Ex & Lx). destruct (IH (str_drop w s)) as [(a & Ea & Ba) Hno].
      { rewrite length_drop. assert (0 < w); [|lia]. destruct s; [discriminate|]. pose proof (decode_width_pos _ _ _ _ D). lia. }
      split; [|exact Hno]. exists (x ++ a). split; [|apply blank_app; [apply blank_one; exact Hx|exact Ba]]. rewrite append_assoc, <- Ea. exact Ex.
    + split; [exists ""; split; [reflexivity|constructor]|]. intros x u Hx E. destruct (white_decodes x u Hx) as (K & _). rewrite <- E, D in K. cbn [fst] in K. congruence.
Qed.
Lemma right_trimmed : forall n rs, String.length rs <= n ->
  (exists b, rs = str_rev b ++ trim_rev_f n rs /\ blank b) /\ forall w u, In w whites -> trim_rev_f n rs <> str_rev w ++ u.
Proof.
  induction n as [|n IH]; intros s Hn.
  - destruct s; [|cbn in Hn; lia]. split; [exists ""; split; [reflexivity|constructor]|]. intros w u Hw E. destruct (white_last w u Hw) as (_ & K).
    cbn [trim_rev_f] in E. rewrite <- E in K. discriminate.
  - cbn [trim_rev_f]. pose proof (white_suffix s) as W. destruct (decode_last_rune s) as [r w] eqn:D. cbn [fst snd] in W.
    destruct (is_empty s) eqn:Es; [destruct s; [|discriminate]|]; cbn [negb andb].
    { split; [exists ""; split; [reflexivity|constructor]|]. intros w' u Hw E. destruct (white_last w' u Hw) as (_ & K). rewrite <- E in K. discriminate. }
    destruct (is_space r) eqn:Sp.
    + destruct (W eq_refl eq_refl) as (x & Hx & Ex). destruct (IH (str_drop w s)) as [(b & Eb & Bb) Hno].
      { rewrite length_drop. assert (0 < w); [|lia]. destruct s as [|a s]; [discriminate|]. pose proof (last_width a s) as L. rewrite D in L. cbn [snd] in L. lia. }
      split; [|exact Hno]. exists (b ++ x). split; [|apply blank_app; [exact Bb|apply blank_one; exact Hx]]. rewrite rev_app, append_assoc, <- Eb. exact Ex.
    + split; [exists ""; split; [reflexivity|constructor]|]. intros x u Hx E. destruct (white_last x u Hx) as (K & _). rewrite <- E, D in K. cbn [fst] in K. congruence.
Qed.
Theorem trim_space_trimmed : forall s, trimmed s (trim_space s).
Proof.
  intros s. unfold trim_space, trim_right. set (l := trim_left s).
  destruct (left_trimmed (String.length s) s (Nat.le_refl _)) as [(a & Ea & Ba) Hl]. fold (trim_left s) in Ea, Hl. fold l in Ea, Hl.
  destruct (right_trimmed (String.length l) (str_rev l)) as [(b & Eb & Bb) Hr]; [rewrite length_rev; apply Nat.le_refl|].
  set (t := trim_rev_f (String.length l) (str_rev l)) in *.
  assert (El : l = str_rev t ++ b) by (rewrite <- (rev_rev l), Eb, rev_app, rev_rev; reflexivity).
  split.
  - exists a, b. rewrite <- El. auto.
  - intros w u Hw. split; intros E.
    + apply (Hl w (u ++ b) Hw). rewrite El, E, append_assoc. reflexivity.
    + apply (Hr w (str_rev u) Hw). rewrite <- (rev_rev t), E, rev_app. reflexivity.
Qed.

(* ------------------------------------------------------------------ *)
(** * Joining, decimal notation, quotes *)

Theorem str_join_joined : forall sep l s, str_join sep l = s <-> joined sep l s.
Proof.
  intros sep l s. split.
  - intros <-. induction l as [|x l IH]; [constructor|]. destruct l as [|y l]; [constructor|].
    change (str_join sep (x :: y :: l)) with (x ++ sep ++ str_join sep (y :: l)). constructor. exact IH.
  - intros H. induction H as [|x|x y l t H IH]; [reflexivity|reflexivity|]. rewrite <- IH. reflexivity.
Qed.

Lemma digits_uint : forall s, all is_digit s = true -> exists d, NilEmpty.string_of_uint d = s.
Proof.
  induction s as [|a s IH]; intros H; [exists Decimal.Nil; reflexivity|]. cbn [all] in H. apply andb_prop in H as [Ha Hs].
  destruct (IH Hs) as [d <-]. destruct a as [[] [] [] [] [] [] [] []]; try discriminate Ha;
    first [exists (Decimal.D0 d); reflexivity|exists (Decimal.D1 d); reflexivity|exists (Decimal.D2 d); reflexivity|exists (Decimal.D3 d); reflexivity
      |exists (Decimal.D4 d); reflexivity|exists (Decimal.D5 d); reflexivity|exists (Decimal.D6 d); reflexivity|exists (Decimal.D7 d); reflexivity
      |exists (Decimal.D8 d); reflexivity|exists (Decimal.D9 d); reflexivity].
Qed.
Lemma dec_unique : forall s n, all is_digit s = true -> starts is_digit19 s = true -> digits_val 0 s = Some n -> dec n = s.
Proof.
  intros s n Hd Hs Hv. destruct (digits_uint s Hd) as [d Ed]. subst s. rewrite digits_val_uint, uval_of_uint in Hv. injection Hv as <-.
  rewrite dec_eq2, DecimalN.Unsigned.to_of. destruct d; try discriminate Hs; reflexivity.
Qed.
Lemma digits_val_app : forall s t acc n, digits_val acc s = Some n -> digits_val acc (s ++ t) = digits_val n t.
Proof.
  induction s as [|a s IH]; intros t acc n H; cbn [append digits_val] in *; [congruence|].
  destruct (is_digit a); [|discriminate]. apply IH. exact H.
Qed.
Lemma all_app : forall p s t, all p (s ++ t) = all p s && all p t.
Proof. induction s as [|a s IH]; intros t; [reflexivity|]. cbn [append all]. rewrite IH, andb_assoc. reflexivity. Qed.
Lemma digit_cases : forall d, (d < 10)%N -> (d = 0 \/ d = 1 \/ d = 2 \/ d = 3 \/ d = 4 \/ d = 5 \/ d = 6 \/ d = 7 \/ d = 8 \/ d = 9)%N.
Proof. intros d H. lia. Qed.
Lemma dec_more : forall n d, (0 < n)%N -> (d < 10)%N -> dec (10 * n + d) = dec n ++ digit d.
Proof.
  intros n d Hn Hd. apply dec_unique.
  - rewrite all_app, dec_digits. apply digit_cases in Hd. decompose [or] Hd; subst d; reflexivity.
  - pose proof (dec_head n ltac:(lia)) as H. destruct (dec n); [discriminate|exact H].
  - rewrite (digits_val_app _ _ _ _ (digits_val_dec n)). unfold digit. cbn [digits_val].
    assert (is_digit (ascii_of_N (48 + d)) = true /\ digit_val (ascii_of_N (48 + d)) = d) as [-> ->].
    { apply digit_cases in Hd. decompose [or] Hd; subst d; split; reflexivity. }
    f_equal. lia.
Qed.
Theorem dec_decimal : forall n s, dec n = s <-> decimal n s.
Proof.
  intros n s. split.
  - intros <-. induction n as [n IH] using (well_founded_induction N.lt_wf_0). destruct (n <? 10)%N eqn:L.
    + apply N.ltb_lt in L. assert (dec n = digit n) as ->; [|constructor; exact L]. apply digit_cases in L. decompose [or] L; subst n; reflexivity.
    + apply N.ltb_ge in L. pose proof (N.div_mod n 10 ltac:(lia)) as E. pose proof (N.mod_lt n 10 ltac:(lia)) as Lm.
      assert (0 < n / 10)%N as Lq by (apply N.div_str_pos; lia). rewrite E at 1 2. rewrite dec_more by assumption. constructor; try assumption. apply IH. apply N.div_lt; lia.
  - intros H. induction H as [d H|m s d Hm Hd H IH].
    + apply digit_cases in H. decompose [or] H; subst d; reflexivity.
    + rewrite dec_more, IH by assumption. reflexivity.
Qed.
Theorem itoa_decimal : forall n s, itoa (Z.of_N n) = s <-> decimal n s.
Proof. exact dec_decimal. Qed.
Theorem itoa_negative : forall p, itoa (Z.neg p) = "-" ++ itoa (Z.pos p).
Proof.
  intros p. unfold itoa. cbn [Z.to_int NilZero.string_of_int]. reflexivity.
Qed.
Lemma decimal_zeros : forall s n, all is_digit s = true -> s <> "" -> digits_val 0 s = Some n ->
  exists z t, s = z ++ t /\ all (fun a => Ascii.eqb a "0") z = true /\ decimal n t.
Proof.
  induction s as [|a s IH]; intros n Hd Hs Hv; [congruence|]. destruct (is_digit19 a) eqn:E19.
  - exists "", (String a s). split; [reflexivity|]. split; [reflexivity|]. apply dec_decimal. apply dec_unique; assumption.
  - cbn [all] in Hd. apply andb_prop in Hd as [Ha Hd]. assert (a = "0"%char) as -> by (destruct a as [[] [] [] [] [] [] [] []]; try discriminate Ha; try discriminate E19; reflexivity).
    destruct s as [|b s].
    + exists "", "0". split; [reflexivity|]. split; [reflexivity|]. injection Hv as <-. apply (de_digit 0). reflexivity.
    + destruct (IH n Hd ltac:(discriminate) Hv) as (z & t & E & Hz & Ht). exists (String "0" z), t. rewrite E. split; [reflexivity|]. split; [exact Hz|exact Ht].
Qed.
Lemma decimal_digits : forall n s, decimal n s -> all is_digit s = true /\ digits_val 0 s = Some n /\ s <> "".
Proof. intros n s H. apply dec_decimal in H. subst s. split; [apply dec_digits|]. split; [apply digits_val_dec|apply dec_nonempty]. Qed.
Lemma zeros_val : forall z t n, all (fun a => Ascii.eqb a "0") z = true -> digits_val 0 t = Some n -> digits_val 0 (z ++ t) = Some n.
Proof.
  induction z as [|a z IH]; intros t n H Ht; [exact Ht|]. cbn [all] in H. apply andb_prop in H as [Ha H]. apply Ascii.eqb_eq in Ha. subst a. cbn. apply IH; assumption.
Qed.
Lemma digits_val_digits : forall s acc n, digits_val acc s = Some n -> all is_digit s = true.
Proof. induction s as [|a s IH]; intros acc n H; [reflexivity|]. cbn [digits_val] in H. cbn [all]. destruct (is_digit a); [|discriminate]. eapply IH. exact H. Qed.
Theorem parse_uint64_decimal : forall s n, parse_uint64 s = Some n <->
  (n < 18446744073709551616)%N /\ exists z t, s = z ++ t /\ all (fun a => Ascii.eqb a "0") z = true /\ decimal n t.
Proof.
  intros s n. split.
  - intros H. unfold parse_uint64 in H. destruct s as [|a s]; [discriminate|]. destruct (digits_val 0 (String a s)) as [m|] eqn:E; [|discriminate].
    destruct (m <? 18446744073709551616)%N eqn:L; [|discriminate]. injection H as <-. apply N.ltb_lt in L. split; [exact L|].
    apply decimal_zeros; [eapply digits_val_digits; exact E|discriminate|exact E].
  - intros (L & z & t & -> & Hz & Ht). apply decimal_digits in Ht. destruct Ht as (Hd & Hv & Hne). unfold parse_uint64.
    rewrite (zeros_val z t n Hz Hv). apply N.ltb_lt in L. rewrite L. destruct z; [|reflexivity]. destruct t; [congruence|reflexivity].
Qed.

Lemma undouble_step : forall a s, undouble_quotes (String a s) =
  match s with
  | String b s' => if Ascii.eqb a quote_char && Ascii.eqb b quote_char then String quote_char (undouble_quotes s') else String a (undouble_quotes s)
  | "" => String a ""
  end.
Proof. reflexivity. Qed.
Lemma undouble_other : forall a s, a <> "'"%char -> undouble_quotes (String a s) = String a (undouble_quotes s).
Proof.
  intros a s H. rewrite undouble_step. destruct s as [|b s]; [reflexivity|]. destruct (Ascii.eqb a quote_char) eqn:E; [apply Ascii.eqb_eq in E; contradiction|reflexivity].
Qed.
Theorem undouble_halved : forall s t, undouble_quotes s = t <-> quotes_halved s t.
Proof.
  intros s t. split.
  - intros <-. remember (String.length s) as n eqn:En. assert (Hn : String.length s <= n) by lia. clear En. revert s Hn.
    induction n as [|n IH]; intros [|a s] Hn; cbn [String.length] in Hn; try lia; try constructor.
    destruct (Ascii.ascii_dec a "'") as [->|Na]; [|rewrite undouble_other by exact Na; constructor; [exact Na|apply IH; lia]].
    destruct s as [|b s]; [constructor|]. cbn [String.length] in Hn. destruct (Ascii.ascii_dec b "'") as [->|Nb].
    + change (undouble_quotes (String "'" (String "'" s))) with ("'" ++ undouble_quotes s). apply (qh_pair s). apply IH. lia.
    + rewrite undouble_step. destruct (Ascii.eqb b quote_char) eqn:E; [apply Ascii.eqb_eq in E; contradiction|]. rewrite andb_false_r.
      apply (qh_single b s (undouble_quotes (String b s))); [exact Nb|]. apply IH. cbn [String.length]. lia.
  - intros H. induction H as [|s t H IH| |a s t Na H IH|a s t Na H IH].
    + reflexivity.
    + subst t. reflexivity.
    + reflexivity.
    + subst t. cbn [append]. rewrite (undouble_step "'"). destruct (Ascii.eqb a quote_char) eqn:E; [apply Ascii.eqb_eq in E; contradiction|]. rewrite andb_false_r. reflexivity.
    + rewrite undouble_other, IH by exact Na. reflexivity.
Qed.
Theorem double_doubled : forall s t, double_quotes s = t <-> quotes_doubled s t.
Proof.
  intros s t. split.
  - intros <-. induction s as [|a s IH]; [constructor|]. cbn [double_quotes]. destruct (Ascii.eqb a quote_char) eqn:E.
    + apply Ascii.eqb_eq in E. subst a. apply (qd_quote s _ IH).
    + constructor; [|exact IH]. intros ->. discriminate E.
  - intros H. induction H as [|s t H IH|a s t Na H IH]; cbn [double_quotes append].
    + reflexivity.
    + subst t. reflexivity.
    + destruct (Ascii.eqb a quote_char) eqn:E; [apply Ascii.eqb_eq in E; contradiction|]. rewrite IH. reflexivity.
Qed.

(* ------------------------------------------------------------------ *)
(** * Values and errors *)

Lemma float_eq_same : forall a b, float_eq a b = true <-> same_float a b.
Proof.
  intros a b. unfold float_eq, SFeqb, same_float. split.
  - intros H. destruct a as [s|s| |s m e]; destruct b as [s'|s'| |s' m' e']; cbn [SFcompare] in H; try discriminate H;
      try (destruct s; discriminate H); try (destruct s'; discriminate H).
    + right. eauto.
    + left. destruct s, s'; try discriminate H; split; try reflexivity; discriminate.
    + left. assert (s = s' /\ e = e' /\ m = m') as (-> & -> & ->); [|split; [reflexivity|discriminate]].
      destruct s, s'; try discriminate H; destruct (Z.compare e e') eqn:Ez; cbn in H; try discriminate H; apply Z.compare_eq in Ez;
        (destruct (Pos.compare_cont Eq m m') eqn:Ep; cbn in H; try discriminate H); apply Pos.compare_eq in Ep; auto.
  - intros [[<- N]|(s & s' & -> & ->)]; [|reflexivity]. destruct a as [s|s| |s m e]; cbn [SFcompare]; try congruence.
    + destruct s; reflexivity.
    + rewrite Z.compare_refl, Pos.compare_cont_refl. destruct s; reflexivity.
Qed.
Section Values.
  Variable P : value -> Prop.
  Hypothesis H1 : P VNil.
  Hypothesis H2 : forall t b, P (VBool t b).
  Hypothesis H3 : forall t z, P (VInt t z).
  Hypothesis H4 : forall t f, P (VFloat t f).
  Hypothesis H5 : forall t s, P (VStr t s).
  Hypothesis H6 : forall t a x, P (VPtr t a x).
  Hypothesis H7 : forall t l, Forall P l -> P (VStruct t l).
  Hypothesis H8 : forall t l, Forall P l -> P (VArray t l).
  Hypothesis H9 : forall t l, P (VSlice t l).
  Hypothesis H10 : forall t h i, P (VOpaque t h i).
  Hypothesis H11 : forall t, P (VTime t).
  Hypothesis H12 : forall t r o, P r -> P (VValuer t r o).
  Hypothesis H13 : forall t r s, P r -> P (VStringer t r s).
  Fixpoint value_parts (v : value) : P v :=
    match v with
    | VNil => H1 | VBool t b => H2 t b | VInt t z => H3 t z | VFloat t f => H4 t f | VStr t s => H5 t s | VPtr t a x => H6 t a x
    | VStruct t l => H7 t l ((fix go l : Forall P l := match l with [] => Forall_nil P | x :: l' => Forall_cons x (value_parts x) (go l') end) l)
    | VArray t l => H8 t l ((fix go l : Forall P l := match l with [] => Forall_nil P | x :: l' => Forall_cons x (value_parts x) (go l') end) l)
    | VSlice t l => H9 t l | VOpaque t h i => H10 t h i | VTime t => H11 t
    | VValuer t r o => H12 t r o (value_parts r) | VStringer t r s => H13 t r s (value_parts r)
    end.
End Values.
Fixpoint all_eq (l m : list value) : bool :=
  match l, m with
  | [], [] => true
  | x :: l', y :: m' => go_eq x y && all_eq l' m'
  | _, _ => false
  end.
Lemma go_eq_struct : forall t l u m, go_eq (VStruct t l) (VStruct u m) = String.eqb t u && all_eq l m. Proof. reflexivity. Qed.
Lemma go_eq_array : forall t l u m, go_eq (VArray t l) (VArray u m) = String.eqb t u && all_eq l m. Proof. reflexivity. Qed.
Lemma all_eq_same : forall l, Forall (fun v => forall w, go_eq v w = true <-> same v w) l -> forall m, all_eq l m = true <-> Forall2 same l m.
Proof.
  intros l F. induction F as [|x l Hx F IH]; intros [|y m]; cbn [all_eq].
  - split; [constructor|reflexivity].
  - split; [discriminate|intros H; inversion H].
  - split; [discriminate|intros H; inversion H].
  - rewrite andb_true_iff, (Hx y), IH. split; [intros [A B]; constructor; assumption|intros H; inversion H; subst; auto].
Qed.
Theorem go_eq_same : forall v w, go_eq v w = true <-> same v w.
Proof.
  intros v. induction v using value_parts; intros w; destruct w as [|u c|u y|u g|u r|u c y|u m|u m|u m|u k j|y|u c y|u c y];
    try (split; [discriminate|intros K; inversion K]); cbn [go_eq].
  - split; [constructor|reflexivity].
  - rewrite andb_true_iff, String.eqb_eq, Bool.eqb_true_iff. split; [intros [-> ->]; constructor|intros K; inversion K; auto].
  - rewrite andb_true_iff, String.eqb_eq, Z.eqb_eq. split; [intros [-> ->]; constructor|intros K; inversion K; auto].
  - rewrite andb_true_iff, String.eqb_eq, float_eq_same. split; [intros [-> K]; constructor; exact K|intros K; inversion K; auto].
  - rewrite andb_true_iff, !String.eqb_eq. split; [intros [-> ->]; constructor|intros K; inversion K; auto].
  - rewrite andb_true_iff, String.eqb_eq, N.eqb_eq. split; [intros [-> ->]; constructor|intros K; inversion K; auto].
  - fold all_eq. rewrite andb_true_iff, String.eqb_eq, (all_eq_same l) by assumption. split; [intros [-> K]; constructor; exact K|intros K; inversion K; auto].
  - fold all_eq. rewrite andb_true_iff, String.eqb_eq, (all_eq_same l) by assumption. split; [intros [-> K]; constructor; exact K|intros K; inversion K; auto].
  - rewrite !andb_true_iff, String.eqb_eq, N.eqb_eq. split; [intros [[[-> ->] ->] ->]; constructor|intros K; inversion K; auto].
  - rewrite Store_proofs.time_eq_eq. split; [intros ->; constructor|intros K; inversion K; auto].
  - rewrite andb_true_iff, String.eqb_eq, IHv. split; [intros [-> K]; constructor; exact K|intros K; inversion K; auto].
  - rewrite andb_true_iff, String.eqb_eq, IHv. split; [intros [-> K]; constructor; exact K|intros K; inversion K; auto].
Qed.
Fixpoint all_hashable (l : list value) : bool := match l with [] => true | x :: l' => hashable x && all_hashable l' end.
Lemma all_hashable_iff : forall l, Forall (fun v => hashable v = false <-> unhashable v) l -> (all_hashable l = false <-> exists v, In v l /\ unhashable v).
Proof.
  intros l F. induction F as [|x l Hx F IH]; cbn [all_hashable].
  - split; [discriminate|intros (v & [] & _)].
  - rewrite andb_false_iff, Hx, IH. split.
    + intros [K|(v & K1 & K2)]; [exists x|exists v]; split; auto; [left; reflexivity|right; exact K1].
    + intros (v & [->|K1] & K2); [left; exact K2|right; eauto].
Qed.
Theorem hashable_iff : forall v, hashable v = false <-> unhashable v.
Proof.
  intros v. induction v using value_parts; cbn [hashable]; try (split; [discriminate|intros K; inversion K; fail]).
  - fold all_hashable. rewrite (all_hashable_iff l) by assumption. split; [intros (v & K1 & K2); econstructor; eassumption|intros K; inversion K; subst; eauto].
  - fold all_hashable. rewrite (all_hashable_iff l) by assumption. split; [intros (v & K1 & K2); econstructor; eassumption|intros K; inversion K; subst; eauto].
  - split; [constructor|reflexivity].
  - split; [intros ->; constructor|intros K; inversion K; reflexivity].
  - rewrite IHv. split; [constructor; assumption|intros K; inversion K; assumption].
  - rewrite IHv. split; [constructor; assumption|intros K; inversion K; assumption].
Qed.
Theorem invalid_index_iff : forall e, is_invalid_index e = true <-> by_index e.
Proof.
  induction e as [i|m|m e IH|e IH m]; cbn [is_invalid_index].
  - split; [constructor|reflexivity].
  - split; [discriminate|intros K; inversion K].
  - rewrite IH. split; [constructor; assumption|intros K; inversion K; assumption].
  - rewrite IH. split; [constructor; assumption|intros K; inversion K; assumption].
Qed.

(* ------------------------------------------------------------------ *)
(** * Arguments *)

Lemma user_ins_params : forall f, user_ins (sig_of f) = params f.
Proof.
  intros [| | |s b]; try reflexivity. unfold params, user_ins, ctx_first. cbn [sig_of].
  destruct (fs_ins s) as [|[] [|t l]]; try reflexivity. destruct (fs_variadic s); reflexivity.
Qed.
Lemma variadic_open : forall f, fs_variadic (sig_of f) = open_ended f.
Proof. intros [| | |s b]; reflexivity. Qed.
Theorem arity_takes : forall f n, arity_ok (sig_of f) n = true <-> takes f n.
Proof.
  intros f n. unfold arity_ok, takes. rewrite user_ins_params, variadic_open. destruct (open_ended f).
  - rewrite Nat.leb_le. lia.
  - rewrite Nat.eqb_eq. reflexivity.
Qed.
Lemma last_nth : forall A (l : list A) d, l <> [] -> nth_error l (List.length l - 1) = Some (last l d).
Proof.
  intros A l d. induction l as [|x l IH]; [congruence|]. intros _. destruct l as [|y l]; [reflexivity|].
  cbn [List.length] in *. replace (S (S (List.length l)) - 1)%nat with (S (S (List.length l) - 1))%nat by lia. cbn [nth_error]. rewrite IH by discriminate. reflexivity.
Qed.
Lemma nth_repeat : forall A (x : A) n i, i < n -> nth_error (repeat x n) i = Some x.
Proof. intros A x. induction n as [|n IH]; intros i H; [lia|]. destruct i; [reflexivity|]. cbn. apply IH. lia. Qed.
Lemma nth_removelast : forall A (l : list A) i, i < List.length l - 1 -> nth_error (removelast l) i = nth_error l i.
Proof.
  intros A. induction l as [|x l IH]; intros i H; [cbn in H; lia|]. destruct l as [|y l]; [cbn in H; lia|].
  change (removelast (x :: y :: l)) with (x :: removelast (y :: l)). destruct i; [reflexivity|]. cbn [nth_error]. apply IH. cbn in *. lia.
Qed.
Lemma removelast_len : forall A (l : list A), List.length (removelast l) = List.length l - 1.
Proof.
  intros A. induction l as [|x l IH]; [reflexivity|]. destruct l as [|y l]; [reflexivity|].
  change (removelast (x :: y :: l)) with (x :: removelast (y :: l)). cbn [List.length] in *. lia.
Qed.

Lemma arg_types_param : forall f n i, proper f -> takes f n -> i < n -> nth_error (arg_types (sig_of f) n) i = param f i.
Proof.
  intros f n i Hp Ht Hi. unfold arg_types, param, takes in *. rewrite user_ins_params, variadic_open. destruct (open_ended f) eqn:O; cbn [andb]; [|reflexivity].
  specialize (Hp O). assert (0 < List.length (params f)) as L by (destruct (params f); [congruence|cbn; lia]).
  destruct (Nat.ltb i (List.length (params f) - 1)) eqn:E.
  - apply Nat.ltb_lt in E. rewrite nth_error_app1 by (rewrite removelast_len; exact E). rewrite nth_removelast by exact E.
    replace (List.length (params f) <=? i)%nat with false by (symmetry; apply Nat.leb_gt; lia). reflexivity.
  - apply Nat.ltb_ge in E. rewrite nth_error_app2 by (rewrite removelast_len; exact E). rewrite nth_repeat by (rewrite removelast_len; lia).
    rewrite <- (last_nth _ (params f) GOther Hp). destruct (_ <=? i)%nat eqn:E2; [reflexivity|]. apply Nat.leb_gt in E2. f_equal. lia.
Qed.
Lemma arg_types_len : forall f n, takes f n -> List.length (arg_types (sig_of f) n) = n.
Proof.
  intros f n H. unfold arg_types, takes in *. rewrite user_ins_params, variadic_open. destruct (open_ended f); [|congruence].
  rewrite app_length, repeat_length, removelast_len. lia.
Qed.
Lemma eval_arg_fits : forall t a, (exists x, eval_arg t a = ROk x) <-> fits t a.
Proof. intros t a. split; [intros [x H]; destruct a, t; try discriminate H; constructor|intros H; inversion H; subst; eexists; reflexivity]. Qed.
Lemma fits_dec : forall t a, fits t a \/ ~ fits t a.
Proof. intros [] []; try (left; constructor); right; intros H; inversion H. Qed.
Lemma eval_arg_misfit : forall t a, ~ fits t a -> (number a -> exists er, eval_arg t a = RPanic er) /\ (~ number a -> exists er, eval_arg t a = RErr er).
Proof. intros t a H. destruct a, t; cbn; split; intros K; try contradiction; try (eexists; reflexivity); exfalso; first [apply H; constructor|apply K; exact I]. Qed.

Lemma eval_args_fit : forall ts args, List.length ts = List.length args ->
  (eval_args ts args = ROk tt /\ (forall i a, nth_error args i = Some a -> exists t, nth_error ts i = Some t /\ fits t a)) \/
  exists i a t, nth_error args i = Some a /\ nth_error ts i = Some t /\ ~ fits t a /\
    (forall j b, j < i -> nth_error args j = Some b -> exists u, nth_error ts j = Some u /\ fits u b) /\
    (number a -> exists er, eval_args ts args = RPanic er) /\ (~ number a -> exists er, eval_args ts args = RErr er).
Proof.
  induction ts as [|t ts IH]; intros [|a args] Hl; try discriminate Hl.
  - left. split; [reflexivity|]. intros [|i] b H; discriminate H.
  - injection Hl as Hl. cbn [eval_args]. destruct (fits_dec t a) as [F|F].
    + apply eval_arg_fits in F as F'. destruct F' as [x ->]. destruct (IH args Hl) as [[E H]|(i & b & u & H1 & H2 & H3 & H4 & H5)].
      * left. split; [exact E|]. intros [|i] b Hb; [injection Hb as <-; exists t; auto|apply H; exact Hb].
      * right. exists (S i), b, u. split; [exact H1|]. split; [exact H2|]. split; [exact H3|]. split; [|exact H5].
        intros [|j] c Lj Hc; [injection Hc as <-; exists t; auto|]. apply H4; [lia|exact Hc].
    + right. exists 0, a, t. split; [reflexivity|]. split; [reflexivity|]. split; [exact F|]. split; [intros j b Lj; lia|].
      destruct (eval_arg_misfit t a F) as [K1 K2]. split; intros K; [destruct (K1 K) as [er ->]|destruct (K2 K) as [er ->]]; eauto.
Qed.
Lemma rejected_iff : forall ts args, List.length ts = List.length args ->
  (forall i a, nth_error args i = Some a -> exists t, nth_error ts i = Some t /\ fits t a) ->
  (any_rejected ts args = true <-> exists i t, nth_error ts i = Some t /\ defined_type t).
Proof.
  induction ts as [|t ts IH]; intros [|a args] Hl H; try discriminate Hl; cbn [any_rejected].
  - split; [discriminate|intros (i & t & K & _); destruct i; discriminate K].
  - injection Hl as Hl. rewrite orb_true_iff, (IH args Hl) by (intros i b Hb; exact (H (S i) b Hb)).
    destruct (H 0 a eq_refl) as (u & Eu & Fu). injection Eu as <-. split.
    + intros [K|(i & u & K1 & K2)]; [|exists (S i), u; auto]. exists 0, t. split; [reflexivity|]. unfold defined_type. destruct a, t as [|[]|[]| | |]; try discriminate K; auto.
    + intros ([|i] & u & K1 & K2); [|right; eauto]. left. injection K1 as <-. destruct K2 as [->| ->]; inversion Fu; reflexivity.
Qed.
Theorem call_checked : forall rb rc jf e fc name f args S, proper f ->
  let r := eval_call rb rc jf e fc name f args S in
  (~ takes f (List.length args) -> exists er, r = (RErr er, S)) /\
  (takes f (List.length args) ->
    (all_fit f args \/ exists i, first_misfit f args i) /\
    (forall i a, first_misfit f args i -> nth_error args i = Some a ->
      (number a -> exists er, r = (RPanic er, S)) /\ (~ number a -> exists er, r = (RErr er, S))) /\
    (all_fit f args -> some_defined f (List.length args) -> exists er, r = (RErr er, S)) /\
    (all_fit f args -> ~ some_defined f (List.length args) -> r = caught name (call_fn rb rc jf e fc f args S))).
Proof.
  intros rb rc jf e fc name f args S Hp r. unfold r, eval_call. clear r. pose proof (arity_takes f (List.length args)) as At.
  destruct (arity_ok (sig_of f) (List.length args)); split; intros Ht.
  - destruct Ht. apply At. reflexivity.
  - pose proof (arg_types_len f _ Ht) as Hl. pose proof (fun i => arg_types_param f (List.length args) i Hp Ht) as Hty.
    set (ts := arg_types (sig_of f) (List.length args)) in *.
    assert (Hin : forall i a, nth_error args i = Some a -> i < List.length args) by (intros i a K; apply nth_error_Some; congruence).
    assert (Hfit : all_fit f args -> forall i a, nth_error args i = Some a -> exists t, nth_error ts i = Some t /\ fits t a).
    { intros K i a Ha. rewrite Hty by (eapply Hin; exact Ha). apply K. exact Ha. }
    destruct (eval_args_fit ts args Hl) as [[E H]|(i & a & t & Ha & Hti & Nf & Hbefore & Hn & Hnn)].
    + split; [|split; [|split]].
      * left. intros i a Ha. rewrite <- Hty by (eapply Hin; exact Ha). apply H. exact Ha.
      * intros i a [(a' & t & Ha' & Hpt & Nf) _] Ha. exfalso. destruct (H i a' Ha') as (u & Hu & Fu). rewrite Hty in Hu by (eapply Hin; exact Ha'). congruence.
      * intros K (i & t & Hi & Hpt & D). rewrite E. assert (any_rejected ts args = true) as ->.
        { apply rejected_iff; [exact Hl|exact H|]. exists i, t. split; [rewrite Hty by exact Hi; exact Hpt|exact D]. }
        eexists. reflexivity.
      * intros K ND. rewrite E. destruct (any_rejected ts args) eqn:R.
        { exfalso. apply rejected_iff in R; [|exact Hl|exact H]. destruct R as (i & t & Hi & D). apply ND. exists i, t.
          assert (i < List.length args) as L by (rewrite <- Hl; apply nth_error_Some; congruence). rewrite <- Hty by exact L. auto. }
        unfold safe, caught. destruct (call_fn rb rc jf e fc f args S) as [[] ?]; reflexivity.
    + assert (FM : first_misfit f args i).
      { split.
        - exists a, t. rewrite <- Hty by (eapply Hin; exact Ha). auto.
        - intros j b Lj Hb. destruct (Hbefore j b Lj Hb) as (u & Hu & Fu). exists u. rewrite <- Hty by (eapply Hin; exact Hb). auto. }
      assert (NF : ~ all_fit f args).
      { intros K. destruct (Hfit K i a Ha) as (u & Hu & Fu). congruence. }
      split; [right; exists i; exact FM|]. split; [|split; intros K; contradiction].
      intros j b [(b' & u & Hb' & Hu & Nu) Hbj] Hb. assert (b' = b) by congruence. subst b'.
      assert (j = i) as ->.
      { destruct (Nat.lt_trichotomy j i) as [L|[L|L]]; [|exact L|].
        - destruct (Hbefore j b L Hb) as (u' & Hu' & Fu'). rewrite Hty in Hu' by (eapply Hin; exact Hb). congruence.
        - destruct (Hbj i a L Ha) as (u' & Hu' & Fu'). rewrite <- Hty in Hu' by (eapply Hin; exact Ha). congruence. }
      assert (b = a) as -> by congruence. split; intros K; [destruct (Hn K) as [er ->]|destruct (Hnn K) as [er ->]]; eauto.
  - eexists. reflexivity.
  - exfalso. apply At in Ht. discriminate.
Qed.

(* ------------------------------------------------------------------ *)
(** * Registration *)

Lemma good_arg_plain : forall t, good_arg_type t = true <-> plain_param t.
Proof.
  intros t. unfold plain_param. split.
  - destruct t; try discriminate; intros _; eauto.
  - intros [->|[[d ->]|[d ->]]]; reflexivity.
Qed.
Lemma good_sig_ok : forall f, good_sig (sig_of f) = true <-> results_ok f /\ Forall plain_param (params f).
Proof.
  intros f. unfold good_sig. rewrite andb_true_iff, user_ins_params, forallb_forall, Forall_forall.
  assert (R : good_outs (fs_outs (sig_of f)) = true <-> results_ok f).
  { destruct f as [| | |s b]; try (split; [intros _; exact I|reflexivity]). cbn [sig_of results_ok].
    destruct (fs_outs s) as [|[|[]| | | |] [|[] [|]]]; cbn; split; try discriminate; try tauto; intros H; decompose [or] H; discriminate. }
  rewrite R. split; intros [A B]; (split; [exact A|]); intros t Ht; apply good_arg_plain, B, Ht.
Qed.
Lemma name_char_letter : forall a, is_letter a = true <-> name_char a.
Proof.
  intros a. unfold name_char. assert (K : a = "_"%char <-> code a = 95%N).
  { split; [intros ->; reflexivity|intros H; apply code_ascii in H; exact H]. }
  unfold is_letter, in_range. fold (code a). rewrite !orb_true_iff, !andb_true_iff, !N.leb_le, Ascii.eqb_eq. tauto.
Qed.
Lemma wf_name_chars : forall nm, wf_name nm = true <-> nm <> "" /\ Forall name_char (chars nm).
Proof.
  intros nm. unfold wf_name. rewrite andb_true_iff, negb_true_iff. 
  assert (A : all is_letter nm = true <-> Forall name_char (chars nm)).
  { induction nm as [|a nm IH]; cbn [all chars]; [split; [constructor|reflexivity]|]. rewrite andb_true_iff, IH, name_char_letter.
    split; [intros [X Y]; constructor; assumption|intros X; inversion X; auto]. }
  rewrite A. destruct nm; cbn [is_empty]; intuition congruence.
Qed.
Lemma check_forallb : forall fs, check_funcs fs = None <-> forallb (fun nf => good_name (fst nf) && good_sig (sig_of (snd nf))) fs = true.
Proof.
  induction fs as [|[nm f] fs IH]; cbn [check_funcs forallb fst snd]; [split; reflexivity|].
  destruct (good_name nm), (good_sig (sig_of f)); cbn [negb andb]; try exact IH; split; discriminate.
Qed.
Theorem check_registrable : forall fs, Forall (fun nf => ascii_only (fst nf) = true) fs -> (check_funcs fs = None <-> Forall registrable fs).
Proof.
  intros fs F.
  assert (G : forallb (fun nf => good_name (fst nf) && good_sig (sig_of (snd nf))) fs = true <-> Forall registrable fs).
  { induction F as [|[nm f] fs Ha F IH]; cbn [forallb fst snd]; [split; [constructor|reflexivity]|].
    rewrite andb_true_iff, IH, andb_true_iff, good_sig_ok, (good_name_ascii nm Ha), wf_name_chars.
    split.
    - intros [[[A B] [C D]] E]. constructor; [|exact E]. unfold registrable. cbn [fst snd]. auto.
    - intros H. inversion H as [|x y R T]; subst. unfold registrable in R. cbn [fst snd] in R. tauto. }
  rewrite check_forallb. exact G.
Qed.
Theorem register_refused : forall rb e fs b k st, check_funcs fs <> None -> exists er, run_prog rb e (PBuild fs b k) st = run_prog rb e (k (RErr er)) st.
Proof. intros rb e fs b k st H. cbn [run_prog]. destruct (check_funcs fs) as [er|]; [eauto|congruence]. Qed.

(* ------------------------------------------------------------------ *)
(** * Indexes *)

Theorem nth1_iff : forall A (l : list A) i x, nth1 l i = Some x <-> exists k, i = Z.of_nat (S k) /\ nth_error l k = Some x.
Proof.
  intros A l i x. unfold nth1. split.
  - destruct ((1 <=? i)%Z && (i <=? Z.of_nat (List.length l))%Z) eqn:E; [|discriminate]. apply andb_prop in E as [E1 E2].
    apply Z.leb_le in E1. intros H. exists (Z.to_nat (i - 1)). split; [lia|exact H].
  - intros (k & -> & H). assert (k < List.length l) by (apply nth_error_Some; congruence).
    replace (1 <=? Z.of_nat (S k))%Z with true by (symmetry; apply Z.leb_le; lia).
    replace (Z.of_nat (S k) <=? Z.of_nat (List.length l))%Z with true by (symmetry; apply Z.leb_le; lia). cbn [andb].
    replace (Z.to_nat (Z.of_nat (S k) - 1)) with k by lia. exact H.
Qed.
Theorem mark_iff : forall l i j, nth_error (mark i l) j = if Nat.eqb j i then option_map (fun _ => true) (nth_error l j) else nth_error l j.
Proof.
  induction l as [|b l IH]; intros [|i] [|j]; cbn; try reflexivity.
  - destruct (_ =? _)%nat; reflexivity.
  - apply IH.
Qed.
Theorem good_name_chars : forall nm, ascii_only nm = true -> (good_name nm = true <-> nm <> "" /\ Forall name_char (chars nm)).
Proof. intros nm H. rewrite (good_name_ascii nm H). apply wf_name_chars. Qed.
Theorem number_panics : forall n e raw nm f l rest i x args fs p s st,
  parsed raw = Some (ACall nm l :: rest) -> lookup_fn e nm = Some f -> proper f -> takes f (List.length l) ->
  first_misfit f l i -> nth_error l i = Some x -> number x ->
  exists er, build (S (S n)) e (BFrag (Frag raw args fs p s)) st = (RPanic er, st).
Proof.
  intros n e raw nm f l rest i x args fs p s st Hr Hl Hp Ht Hm Hx Hn. cbn [build].
  rewrite (build_parsed _ _ _ (Frag raw args fs p s) _ _ Hr).
  cbn [f_args f_frags f_prefix f_suffix map unstrip]. rewrite clause_n_S, clause_cons. cbn [eval_expr]. unfold eval_function. rewrite Hl.
  match goal with |- context [eval_call ?rb ?rc ?jf ?e ?fc ?name ?f ?args ?S] =>
    destruct (call_checked rb rc jf e fc name f args S Hp) as [_ C]; destruct (C Ht) as (_ & D & _); destruct (D i x Hm Hx) as [G _]; destruct (G Hn) as [er E]; rewrite E end.
  exists er. reflexivity.
Qed.
