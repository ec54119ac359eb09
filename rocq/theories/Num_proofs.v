(** Decimal notation: what itoa prints, ParseUint and ParseFloat read back. *)
From Coq Require Import Strings.String Strings.Ascii NArith ZArith List Bool Lia.
From Coq Require Import Numbers.DecimalString Numbers.DecimalN Numbers.DecimalPos Numbers.DecimalZ.
From Coq Require Import Floats.SpecFloat.
From Verif Require Import GoStr GoNum Syntax Spec_syntax.
Import ListNotations.
Open Scope string_scope.

Fixpoint uval (acc : N) (d : Decimal.uint) : N :=
  match d with
  | Decimal.Nil => acc
  | Decimal.D0 d => uval (acc * 10 + 0) d
  | Decimal.D1 d => uval (acc * 10 + 1) d
  | Decimal.D2 d => uval (acc * 10 + 2) d
  | Decimal.D3 d => uval (acc * 10 + 3) d
  | Decimal.D4 d => uval (acc * 10 + 4) d
  | Decimal.D5 d => uval (acc * 10 + 5) d
  | Decimal.D6 d => uval (acc * 10 + 6) d
  | Decimal.D7 d => uval (acc * 10 + 7) d
  | Decimal.D8 d => uval (acc * 10 + 8) d
  | Decimal.D9 d => uval (acc * 10 + 9) d
  end.

Lemma digits_val_uint : forall d acc, digits_val acc (NilEmpty.string_of_uint d) = Some (uval acc d).
Proof. induction d; intro acc; simpl; rewrite ?IHd; reflexivity. Qed.

Lemma uval_pos : forall d p, N.pos (Pos.of_uint_acc d p) = uval (N.pos p) d.
Proof.
  induction d; intro p; cbn [Pos.of_uint_acc uval]; try reflexivity; rewrite IHd; f_equal; lia.
Qed.

Lemma uval_of_uint : forall d, uval 0 d = N.of_uint d.
Proof.
  unfold N.of_uint. induction d; cbn [Pos.of_uint uval]; try reflexivity;
    try (rewrite uval_pos; reflexivity).
  exact IHd.
Qed.

Lemma all_digits_uint : forall d, all is_digit (NilEmpty.string_of_uint d) = true.
Proof. induction d; simpl; auto. Qed.

Lemma dec_eq : forall n, dec n = NilZero.string_of_uint (N.to_uint n).
Proof.
  intro n. unfold dec, itoa. destruct n as [|p]; reflexivity.
Qed.

Lemma to_uint_nonnil : forall n, N.to_uint n <> Decimal.Nil.
Proof.
  destruct n as [|p]; simpl; [discriminate|]. apply DecimalPos.Unsigned.to_uint_nonnil.
Qed.

Lemma nilzero_nonnil : forall d, d <> Decimal.Nil -> NilZero.string_of_uint d = NilEmpty.string_of_uint d.
Proof. destruct d; intro H; try reflexivity. congruence. Qed.

Lemma dec_eq2 : forall n, dec n = NilEmpty.string_of_uint (N.to_uint n).
Proof. intro n. rewrite dec_eq. apply nilzero_nonnil, to_uint_nonnil. Qed.

Lemma dec_digits : forall n, all is_digit (dec n) = true.
Proof. intro n. rewrite dec_eq2. apply all_digits_uint. Qed.

Lemma dec_nonempty : forall n, dec n <> "".
Proof.
  intro n. rewrite dec_eq2. pose proof (to_uint_nonnil n). destruct (N.to_uint n); simpl; congruence.
Qed.

Lemma digits_val_dec : forall n, digits_val 0 (dec n) = Some n.
Proof.
  intro n. rewrite dec_eq2, digits_val_uint, uval_of_uint. f_equal. apply DecimalN.Unsigned.of_to.
Qed.

Lemma dec_inj : forall n m, dec n = dec m -> n = m.
Proof. intros n m H. pose proof (digits_val_dec n) as A. rewrite H, digits_val_dec in A. congruence. Qed.

Lemma pos_to_uint_head : forall p d, Pos.to_uint p <> Decimal.D0 d.
Proof.
  intros p d H.
  pose proof (DecimalPos.Unsigned.to_of (Pos.to_uint p)) as A.
  rewrite DecimalPos.Unsigned.of_to in A. cbn [N.to_uint] in A. rewrite H in A at 2.
  unfold Decimal.unorm in A. cbn [Decimal.nzhead] in A.
  rewrite H in A.
  destruct (Decimal.nzhead d) eqn:E; try congruence.
  - injection A as A. subst d.
    pose proof (DecimalPos.Unsigned.of_to p) as B. rewrite H in B. simpl in B. discriminate.
  - exfalso. clear -E. revert u E. induction d; intros u E; simpl in E; try discriminate. eapply IHd; eauto.
Qed.

Lemma dec_head : forall n, (1 <= n)%N -> starts is_digit19 (dec n) = true.
Proof.
  intros [|p] H; [lia|]. rewrite dec_eq2. cbn [N.to_uint].
  pose proof (DecimalPos.Unsigned.to_uint_nonnil p) as A.
  pose proof (pos_to_uint_head p) as B.
  destruct (Pos.to_uint p); try reflexivity; [congruence|]. exfalso. eapply B. reflexivity.
Qed.

Lemma parse_uint64_dec : forall n, (n < 18446744073709551616)%N -> parse_uint64 (dec n) = Some n.
Proof.
  intros n H. unfold parse_uint64. pose proof (dec_nonempty n) as A. pose proof (digits_val_dec n) as B.
  destruct (dec n) as [|a s]; [congruence|]. rewrite B. apply N.ltb_lt in H. rewrite H. reflexivity.
Qed.
Lemma parse_uint64_dec_big : forall n, (18446744073709551616 <= n)%N -> parse_uint64 (dec n) = None.
Proof.
  intros n H. unfold parse_uint64. pose proof (dec_nonempty n) as A. pose proof (digits_val_dec n) as B.
  destruct (dec n) as [|a s]; [congruence|]. rewrite B. apply N.ltb_ge in H. rewrite H. reflexivity.
Qed.
Lemma int_of_uint64_small : forall n, (n < 9223372036854775808)%N -> int_of_uint64 n = Z.of_N n.
Proof. intros n H. unfold int_of_uint64. apply N.ltb_lt in H. rewrite H. reflexivity. Qed.

(* ------------------------------------------------------------------ *)
(** * ParseFloat on digits *)

Lemma digit_facts : forall a, is_digit a = true ->
  Ascii.eqb a "_" = false /\ Ascii.eqb a "." = false /\ Ascii.eqb a "+" = false /\ Ascii.eqb a "-" = false
  /\ lower_ascii a = a /\ Ascii.eqb a "i" = false /\ Ascii.eqb a "n" = false /\ Ascii.eqb a "x" = false.
Proof. intros [[] [] [] [] [] [] [] []] H; try discriminate H; repeat split; reflexivity. Qed.

Lemma read_mant_digits : forall s m d v, all is_digit s = true -> digits_val m s = Some v ->
  read_mant false s m 0 false d = (v, 0%Z, d || negb (is_empty s), "").
Proof.
  induction s as [|a s IH]; intros m d v H V.
  - simpl in *. injection V as <-. rewrite orb_false_r. reflexivity.
  - cbn [all] in H. apply andb_true_iff in H. destruct H as [Ha Hs].
    destruct (digit_facts a Ha) as (F1 & F2 & _).
    cbn [read_mant]. rewrite F1, F2, Ha. cbn [digits_val] in V. rewrite Ha in V.
    rewrite (IH _ true v Hs V). simpl. rewrite orb_true_r. reflexivity.
Qed.

Lemma no_underscore_digits : forall s, all is_digit s = true -> has_underscore s = false.
Proof.
  induction s as [|a s IH]; simpl; intro H; [reflexivity|].
  apply andb_true_iff in H. destruct H as [Ha Hs]. destruct (digit_facts a Ha) as (F1 & _).
  rewrite F1. simpl. auto.
Qed.

Lemma parse_dec_digits : forall s v, s <> "" -> all is_digit s = true -> digits_val 0 s = Some v ->
  parse_dec false s = check_range (round_bin false (Z.of_N v) 0).
Proof.
  intros s v Hn Ha Hv. unfold parse_dec. rewrite (read_mant_digits s 0 false v Ha Hv).
  destruct s as [|a s]; [congruence|]. simpl negb.
  rewrite (no_underscore_digits _ Ha). simpl. unfold finish_dec. simpl.
  rewrite Z.mul_1_r. reflexivity.
Qed.

Lemma parse_unsigned_digits : forall s, all is_digit s = true -> parse_unsigned false s = parse_dec false s.
Proof.
  intros s H. unfold parse_unsigned.
  destruct s as [|a [|x [|y r]]]; try reflexivity; try (destruct a as [[] [] [] [] [] [] [] []]; reflexivity).
  cbn [all] in H. apply andb_true_iff in H. destruct H as [_ H]. apply andb_true_iff in H. destruct H as [Hx _].
  destruct (digit_facts x Hx) as (_ & _ & _ & _ & L & _ & _ & X). rewrite L, X.
  destruct a as [[] [] [] [] [] [] [] []]; reflexivity.
Qed.

Lemma parse_float_digits : forall s v, s <> "" -> all is_digit s = true -> digits_val 0 s = Some v ->
  parse_float s = check_range (round_bin false (Z.of_N v) 0).
Proof.
  intros s v Hn Ha Hv. rewrite <- (parse_dec_digits s v Hn Ha Hv), <- (parse_unsigned_digits s Ha).
  unfold parse_float. destruct s as [|a s]; [congruence|].
  assert (A : is_digit a = true) by (cbn [all] in Ha; apply andb_true_iff in Ha; tauto).
  destruct (digit_facts a A) as (_ & _ & P & M & L & I & Nn & _).
  assert (E : match String a s with
    | String "+" b => (true, false, b) | String "-" b => (true, true, b) | _ => (false, false, String a s) end
    = (false, false, String a s)).
  { clear -P M. destruct a as [[] [] [] [] [] [] [] []]; try reflexivity; discriminate. }
  rewrite E. cbn [lower_str]. rewrite L.
  replace (String.eqb (String a (lower_str s)) "inf") with false by (cbn [String.eqb]; rewrite I; reflexivity).
  replace (String.eqb (String a (lower_str s)) "infinity") with false by (cbn [String.eqb]; rewrite I; reflexivity).
  replace (String.eqb (String a (lower_str s)) "nan") with false by (cbn [String.eqb]; rewrite Nn; reflexivity).
  reflexivity.
Qed.

(* ------------------------------------------------------------------ *)
(** * Integers below 2^53 are represented exactly *)

Lemma digits2_iter : forall k p, digits2_pos (shift_pos k p) = (digits2_pos p + k)%positive.
Proof.
  intros k p. unfold shift_pos. induction k using Pos.peano_ind.
  - simpl. lia.
  - rewrite Pos.iter_succ. cbn [digits2_pos]. rewrite IHk. lia.
Qed.

Lemma digits2_log2 : forall p, Zpos (digits2_pos p) = (Z.log2 (Zpos p) + 1)%Z.
Proof.
  induction p as [p IH|p IH|].
  - cbn [digits2_pos]. rewrite Pos2Z.inj_succ, IH.
    change (Zpos p~1) with (2 * Zpos p + 1)%Z. rewrite Z.log2_succ_double by lia. lia.
  - cbn [digits2_pos]. rewrite Pos2Z.inj_succ, IH.
    change (Zpos p~0) with (2 * Zpos p)%Z. rewrite Z.log2_double by lia. lia.
  - reflexivity.
Qed.

Lemma shift_pos_Z : forall k p, Zpos (shift_pos k p) = (Zpos p * 2 ^ Zpos k)%Z.
Proof.
  intros k p. unfold shift_pos. induction k using Pos.peano_ind.
  - simpl. lia.
  - rewrite Pos.iter_succ. rewrite Pos2Z.inj_xO, IHk, Pos2Z.inj_succ, Z.pow_succ_r by lia. lia.
Qed.

(** Rounding a number that already has 53 digits and a small exponent. *)
Lemma round_aux_id : forall m e, digits2_pos m = 53%positive -> (-1000 <= e <= 0)%Z ->
  binary_round_aux prec64 emax64 false (Zpos m) e loc_Exact = S754_finite false m e.
Proof.
  intros m e Hd He.
  assert (S0 : shr_fexp prec64 emax64 (Zpos m) e loc_Exact
               = (shr_record_of_loc (Zpos m) loc_Exact, e)).
  { unfold shr_fexp. cbn [Zdigits2]. rewrite Hd. unfold fexp, emin, prec64, emax64, shr.
    replace (Z.max (53 + e - 53) (3 - 1024 - 53) - e)%Z with 0%Z by lia. reflexivity. }
  unfold binary_round_aux. rewrite S0. cbn [shr_record_of_loc shr_m loc_of_shr_record round_nearest_even].
  rewrite S0. cbn [shr_record_of_loc shr_m].
  replace (e <=? emax64 - prec64)%Z with true by (symmetry; apply Z.leb_le; unfold emax64, prec64; lia).
  reflexivity.
Qed.

Lemma float_of_N_exact : forall n, (n < 9007199254740992)%N ->
  check_range (float_of_N n) = Some (float_of_N n) /\ trunc_float (float_of_N n) = Some (Z.of_N n).
Proof.
  intros [|p] H; [split; reflexivity|].
  unfold float_of_N, round_bin. cbn [Z.of_N].
  assert (D : (Zpos (digits2_pos p) <= 53)%Z).
  { rewrite digits2_log2. assert (Z.log2 (Zpos p) < 53)%Z; [|lia]. apply Z.log2_lt_pow2; [lia|].
    change (2 ^ 53)%Z with 9007199254740992%Z. lia. }
  assert (E : exists m e, binary_round prec64 emax64 false p 0 = S754_finite false m e /\ (-1000 <= e <= 0)%Z /\
             Zpos m = (Zpos p * 2 ^ (- e))%Z).
  { assert (F : fexp prec64 emax64 (Z.pos (digits2_pos p) + 0) = (Z.pos (digits2_pos p) - 53)%Z).
    { unfold fexp, emin, prec64, emax64. lia. }
    unfold binary_round. rewrite F. unfold shl_align. rewrite Z.sub_0_r.
    destruct (Z.pos (digits2_pos p) - 53)%Z as [|k|k] eqn:K.
    - exists p, 0%Z. rewrite round_aux_id by lia. split; [reflexivity|]. split; [lia|].
      rewrite Z.mul_1_r. reflexivity.
    - lia.
    - exists (shift_pos k p), (Z.neg k). rewrite round_aux_id.
      + split; [reflexivity|]. split; [lia|]. apply shift_pos_Z.
      + rewrite digits2_iter. lia.
      + lia. }
  destruct E as (m & e & -> & He & Hm). split; [reflexivity|].
  unfold trunc_float. f_equal. destruct (0 <=? e)%Z eqn:E0.
  - apply Z.leb_le in E0. assert (e = 0%Z) by lia. subst e. rewrite Hm. simpl. lia.
  - rewrite Hm. apply Z.div_mul. apply Z.pow_nonzero; lia.
Qed.

Lemma int_of_float_N : forall n, (n < 9007199254740992)%N -> int_of_float (float_of_N n) = Z.of_N n.
Proof.
  intros n H. unfold int_of_float. destruct (float_of_N_exact n H) as [_ ->].
  replace (min_int64 <=? Z.of_N n)%Z with true by (symmetry; apply Z.leb_le; unfold min_int64; lia).
  replace (Z.of_N n <=? max_int64)%Z with true by (symmetry; apply Z.leb_le; unfold max_int64; lia).
  reflexivity.
Qed.

Lemma parse_float_dec : forall n, (n < 9007199254740992)%N -> parse_float (dec n) = Some (float_of_N n).
Proof.
  intros n H. rewrite (parse_float_digits (dec n) n (dec_nonempty n) (dec_digits n) (digits_val_dec n)).
  apply (float_of_N_exact n H).
Qed.
