(** Facts about package util. *)
From Coq Require Import Strings.String Strings.Ascii NArith ZArith List Bool Floats.SpecFloat Lia.
From Verif Require Import GoStr GoNum Syntax Value Util Model Sqlf Sqlb Scan Spec_syntax ByteLex Lex_proofs Grammar_proofs
  Lossless_proofs Num_proofs RefSem Spec_build Spec_eval Text_proofs Sim_proofs Fuel_proofs Order_proofs Store_proofs
  Eval_proofs Spec_util.
Import ListNotations.
Open Scope string_scope.

(* ------------------------------------------------------------------ *)
(** * Flattening *)

Lemma elems_iff : forall v l, elems_of v = Some l <-> elements v l.
Proof.
  intros v l. split.
  - revert l. induction v; intros l H; cbn in H; try discriminate.
    + injection H as <-. constructor.
    + destruct elems; injection H as <-; constructor.
    + constructor. auto.
    + constructor. auto.
  - induction 1; cbn; auto.
Qed.
Lemma elems_none : forall v, elems_of v = None -> forall l, ~ elements v l.
Proof. intros v H l K. apply elems_iff in K. congruence. Qed.

Definition listed (ty : string) : bool := existsb (String.eqb ty) listed_ptr_types.
Lemma listed_in : forall ty, listed ty = true <-> In ty listed_ptr_types.
Proof.
  intros ty. unfold listed. rewrite existsb_exists. split.
  - intros (x & H & E). apply String.eqb_eq in E. subst x. exact H.
  - intros H. exists ty. split; [exact H|apply String.eqb_refl].
Qed.

Lemma pointer_iff : forall v w, pointer_to v w <-> exists ty a, repr_of v = VPtr ty a (Some w).
Proof.
  intros v w. split.
  - induction 1 as [ty a w|ty r o w H (t & a & E)|ty r o w H (t & a & E)]; cbn [repr_of]; eauto.
  - revert w. induction v as [|ty b|ty z|ty f|ty s|ty a t|ty fs|ty es|ty es|ty h id|tm|ty r IH o|ty r IH o]; intros w (t' & a' & E);
      cbn [repr_of] in E; try discriminate.
    + injection E as -> -> ->. constructor.
    + constructor. apply IH. eauto.
    + constructor. apply IH. eauto.
Qed.
Lemma elems_repr : forall v, elems_of (repr_of v) = elems_of v.
Proof. induction v as [|ty b|ty z|ty f|ty s|ty a t|ty fs|ty es|ty es|ty h id|tm|ty r IH o|ty r IH o]; cbn [repr_of elems_of]; auto. Qed.
Lemma repr_pointer_elems : forall v ty a o, repr_of v = VPtr ty a o -> elems_of v = None.
Proof. intros v ty a o H. rewrite <- elems_repr, H. reflexivity. Qed.
(** Everything but a nil pointer without methods. *)
Lemma args_from_repr : forall v, (forall ty a, v <> VPtr ty a None) ->
  args_from v = match elems_of (match repr_of v with VPtr _ _ (Some w) => w | r => r end) with Some l => ROk l | None => ROk [v] end.
Proof.
  intros v H. destruct v as [|ty b|ty z|ty f|ty s|ty a [w|]|ty fs|ty es|ty es|ty h id|tm|ty r o|ty r o]; try reflexivity.
  exfalso. exact (H _ _ eq_refl).
Qed.
Lemma args_from_ok_not_nil : forall v l, (forall ty a, v <> VPtr ty a None) -> args_from v = ROk l <-> flattened v l.
Proof.
  intros v l Hn. rewrite (args_from_repr v Hn).
  assert (Hb : ~ blind_pointer v) by (intros (ty & a & -> & _); exact (Hn _ _ eq_refl)).
  destruct (repr_of v) as [|ty b|ty z|ty f|ty s|ty a [w|]|ty fs|ty es|ty es|ty h id|tm|ty r o|ty r o] eqn:R.
  6: { (* a pointer *)
    pose proof (proj2 (pointer_iff v w) (ex_intro _ ty (ex_intro _ a R))) as Hp.
    assert (Hu : forall w', pointer_to v w' -> w' = w).
    { intros w' H. apply pointer_iff in H. destruct H as (t' & a' & H). congruence. }
    pose proof (elems_none _ (repr_pointer_elems _ _ _ _ R)) as He.
    destruct (elems_of w) as [m|] eqn:E; split; intros H.
    - injection H as <-. eapply fl_ptr; [exact Hp|apply elems_iff; exact E].
    - inversion H as [v' l' Hs|v' w' l' Hw Hs|v' H1 H2 H3]; subst.
      + exfalso. exact (He _ Hs).
      + apply Hu in Hw. subst w'. apply elems_iff in Hs. congruence.
      + exfalso. apply elems_iff in E. exact (H2 _ _ Hp E).
    - injection H as <-. apply fl_self; [exact He| |exact Hb].
      intros w' l' Hw. apply Hu in Hw. subst w'. apply elems_none. exact E.
    - inversion H as [v' l' Hs|v' w' l' Hw Hs|v' H1 H2 H3]; subst; [exfalso; exact (He _ Hs)| |reflexivity].
      apply Hu in Hw. subst w'. apply elems_iff in Hs. congruence. }
  all: assert (Hp : forall w, ~ pointer_to v w) by (intros w' H; apply pointer_iff in H; destruct H as (t' & a' & H); congruence).
  all: rewrite <- R, elems_repr; destruct (elems_of v) as [m|] eqn:E; split; intros H.
  all: try (injection H as <-; apply fl_seq, elems_iff; exact E).
  all: try (injection H as <-; apply fl_self; [apply elems_none; exact E|intros w' l' Hw; exfalso; exact (Hp _ Hw)|exact Hb]).
  all: inversion H as [v' l' Hs|v' w' l' Hw Hs|v' H1 H2 H3]; subst.
  all: try (exfalso; exact (Hp _ Hw)).
  all: try (apply elems_iff in Hs; congruence).
  all: try reflexivity.
  all: exfalso; apply elems_iff in E; exact (H1 _ E).
Qed.
Theorem args_from_ok : forall v l, args_from v = ROk l <-> flattened v l.
Proof.
  intros v l. destruct v as [|ty b|ty z|ty f|ty s|ty a [w|]|ty fs|ty es|ty es|ty h id|tm|ty r o|ty r o];
    try (apply args_from_ok_not_nil; intros; discriminate).
  (* nil pointer *)
  assert (Hp : forall w, ~ pointer_to (VPtr ty a None) w) by (intros w H; inversion H).
  cbn [args_from]. change (existsb (String.eqb ty) listed_ptr_types) with (listed ty). destruct (listed ty) eqn:E.
  - split; intros H; [discriminate|].
    inversion H as [v' l' Hs|v' w' l' Hw Hs|v' H1 H2 H3]; subst; [inversion Hs|exfalso; exact (Hp _ Hw)|].
    exfalso. apply H3. exists ty, a. split; [reflexivity|]. apply listed_in in E. exact E.
  - split; intros H.
    + injection H as <-. apply fl_self; [intros l K; inversion K|intros w l Hw; exfalso; exact (Hp _ Hw)|].
      intros (ty' & a' & Hv & Hin). injection Hv as <- <-. apply listed_in in Hin. congruence.
    + inversion H as [v' l' Hs|v' w' l' Hw Hs|v' H1 H2 H3]; subst; [inversion Hs|exfalso; exact (Hp _ Hw)|reflexivity].
Qed.
Theorem args_from_panic : forall v, (exists e, args_from v = RPanic e) <-> blind_pointer v.
Proof.
  intros v. split.
  - intros [e H]. destruct v as [|ty b|ty z|ty f|ty s|ty a [w|]|ty fs|ty es|ty es|ty h id|tm|ty r o|ty r s]; cbn [args_from] in H;
      try (match type of H with match ?x with _ => _ end = _ => destruct x; discriminate end); try discriminate.
    change (existsb (String.eqb ty) listed_ptr_types) with (listed ty) in H. destruct (listed ty) eqn:E; [|discriminate].
    exists ty, a. split; [reflexivity|]. apply listed_in in E. exact E.
  - intros (ty & a & -> & Hin). cbn [args_from]. apply listed_in in Hin. unfold listed in Hin. rewrite Hin. eauto.
Qed.
Lemma args_from_total : forall v, (exists l, args_from v = ROk l) \/ args_from v = RPanic nil_deref.
Proof.
  intros v. destruct v as [|ty b|ty z|ty f|ty s|ty a [w|]|ty fs|ty es|ty es|ty h id|tm|ty r o|ty r s]; cbn [args_from]; eauto;
    try (match goal with |- context [elems_of ?x] => destruct (elems_of x); eauto end).
  destruct (existsb _ _); eauto.
Qed.

Theorem flatted_ok : forall l r, args_flatted l = ROk r <-> exists parts, Forall2 flattened l parts /\ r = concat parts.
Proof.
  induction l as [|v l IH]; intros r; cbn [args_flatted].
  - split; [intros H; injection H as <-; exists []; split; [constructor|reflexivity]|].
    intros (parts & F & ->). inversion F. reflexivity.
  - split.
    + intros H. destruct (args_from v) as [a|e|e|] eqn:E; try discriminate.
      destruct (args_flatted l) as [b|e|e|] eqn:El; try discriminate. injection H as <-.
      destruct (proj1 (IH b) eq_refl) as (parts & F & ->). exists (a :: parts). split; [|reflexivity].
      constructor; [apply args_from_ok; exact E|exact F].
    + intros (parts & F & ->). inversion F as [|v' a l' ps Hv Hl]; subst. apply args_from_ok in Hv. rewrite Hv.
      rewrite (proj2 (IH (concat ps)) (ex_intro _ ps (conj Hl eq_refl))). reflexivity.
Qed.
Theorem flatted_panic : forall l, (exists e, args_flatted l = RPanic e) <-> Exists blind_pointer l.
Proof.
  induction l as [|v l IH]; cbn [args_flatted].
  - split; [intros [e H]; discriminate|intros H; inversion H].
  - rewrite Exists_cons, <- IH, <- args_from_panic. destruct (args_from_total v) as [[a E]|E]; rewrite E.
    + split.
      * intros [e H]. right. destruct (args_flatted l); try discriminate. eauto.
      * intros [[e H]|[e H]]; [discriminate|]. rewrite H. eauto.
    + split; eauto.
Qed.
Theorem flatted_total : forall l, (exists r, args_flatted l = ROk r) \/ args_flatted l = RPanic nil_deref.
Proof.
  induction l as [|v l IH]; cbn [args_flatted]; [eauto|].
  destruct (args_from_total v) as [[a E]|E]; rewrite E; [|auto]. destruct IH as [[r E2]|E2]; rewrite E2; eauto.
Qed.

(* ------------------------------------------------------------------ *)
(** * Literals *)

Lemma double_doubled : forall s, double_quotes s = doubled s.
Proof.
  induction s as [|a s IH]; [reflexivity|]. cbn [double_quotes doubled]. rewrite IH.
  change quote_char with "'"%char. destruct (Ascii.eqb a "'") eqn:E; [|reflexivity].
  apply Ascii.eqb_eq in E. subst a. reflexivity.
Qed.
Lemma quoted_eq : forall s, quote_string_value s = quoted s.
Proof. intros s. unfold quote_string_value, quoted. rewrite double_doubled. reflexivity. Qed.

Lemma round_div_ok : forall n d, (0 < d)%Z -> rounded n d (round_div_even n d).
Proof.
  intros n d Hd. unfold rounded, round_div_even. pose proof (Z.div_mod n d ltac:(lia)) as E. pose proof (Z.mod_pos_bound n d Hd) as B.
  set (q := (n / d)%Z) in *. set (r := (n mod d)%Z) in *.
  destruct (Z.compare_spec (2 * r) d) as [C|C|C].
  - right. destruct (Z.even q) eqn:Ev; split; try lia.
    + exact Ev.
    + rewrite Z.even_add, Ev. reflexivity.
  - left. lia.
  - left. lia.
Qed.
Lemma rounded_unique : forall n d M M', (0 < d)%Z -> rounded n d M -> rounded n d M' -> M = M'.
Proof.
  intros n d M M' Hd H H'. unfold rounded in *.
  destruct (Z.eq_dec M M') as [E|E]; [exact E|]. exfalso.
  assert (D : (d <= Z.abs (M * d - M' * d))%Z).
  { replace (M * d - M' * d)%Z with ((M - M') * d)%Z by ring. rewrite Z.abs_mul. rewrite (Z.abs_eq d) by lia. nia. }
  destruct H as [H|[H He]], H' as [H'|[H' He']]; try lia.
  (* both ties: consecutive and both even *)
  assert (C : (M' = M + 1 \/ M' = M - 1)%Z).
  { assert (Z.abs (M * d - M' * d) <= d)%Z by lia.
    replace (M * d - M' * d)%Z with ((M - M') * d)%Z in H0 by ring. rewrite Z.abs_mul in H0. rewrite (Z.abs_eq d) in H0 by lia.
    assert (Z.abs (M - M') <= 1)%Z by nia. lia. }
  destruct C as [-> | ->]; [rewrite Z.even_add, He in He'|rewrite Z.even_sub, He in He']; discriminate.
Qed.

(** Decimal digits. *)
Lemma digits_val_ge : forall s acc n, digits_val acc s = Some n -> (acc * 10 ^ N.of_nat (String.length s) <= n)%N.
Proof.
  induction s as [|a s IH]; intros acc n H; cbn [digits_val] in H.
  - injection H as <-. cbn. lia.
  - destruct (is_digit a); [|discriminate]. apply IH in H. cbn [String.length]. rewrite Nat2N.inj_succ, N.pow_succ_r'.
    set (p := (10 ^ N.of_nat (String.length s))%N) in *. nia.
Qed.
Lemma digit19_pos : forall a, is_digit19 a = true -> is_digit a = true /\ (1 <= digit_val a)%N.
Proof.
  intros a H. unfold is_digit19, is_digit, digit_val, in_range in *.
  apply andb_prop in H. destruct H as [H1 H2]. apply N.leb_le in H1. apply N.leb_le in H2. split; [|lia].
  apply andb_true_intro. split; apply N.leb_le; lia.
Qed.
Lemma dec_length6 : forall n, (n < 1000000)%N -> String.length (dec n) <= 6.
Proof.
  intros n Hn. destruct (N.eq_dec n 0) as [->|Hz]; [cbn; lia|].
  pose proof (dec_head n ltac:(lia)) as S. pose proof (digits_val_dec n) as D.
  destruct (dec n) as [|a s]; [cbn; lia|]. cbn [starts] in S. destruct (digit19_pos a S) as [Da Va].
  cbn [digits_val] in D. rewrite Da in D. apply digits_val_ge in D. cbn [String.length].
  destruct (Nat.le_gt_cases (String.length s) 5) as [L|L]; [lia|]. exfalso.
  assert ((10 ^ 6 <= 10 ^ N.of_nat (String.length s))%N) as P by (apply N.pow_le_mono_r; lia).
  change (10 ^ 6)%N with 1000000%N in P. set (p := (10 ^ N.of_nat (String.length s))%N) in *. nia.
Qed.
Lemma digits_val_zeros : forall k s, k <= 6 -> digits_val 0 (str_take k "000000" ++ s) = digits_val 0 s.
Proof. intros k s H. do 7 (destruct k as [|k]; [reflexivity|]). lia. Qed.
Lemma zeros_length : forall k, k <= 6 -> String.length (str_take k "000000") = k.
Proof. intros k H. do 7 (destruct k as [|k]; [reflexivity|]). lia. Qed.
Lemma zeros_digits : forall k, all is_digit (str_take k "000000") = true.
Proof. intros k. do 7 (destruct k as [|k]; [reflexivity|]). reflexivity. Qed.
Lemma app_length : forall a b, String.length (a ++ b) = String.length a + String.length b.
Proof. induction a as [|c a IH]; intros b; cbn; [reflexivity|rewrite IH; reflexivity]. Qed.

Lemma pad6_ok : forall n, (n < 1000000)%N ->
  String.length (pad6 (dec n)) = 6 /\ all is_digit (pad6 (dec n)) = true /\ parse_uint64 (pad6 (dec n)) = Some n.
Proof.
  intros n Hn. pose proof (dec_length6 n Hn) as L. unfold pad6.
  assert (E : String.length (str_take (6 - String.length (dec n)) "000000" ++ dec n) = 6).
  { rewrite app_length, zeros_length by lia. lia. }
  split; [exact E|split].
  - rewrite all_app, zeros_digits, dec_digits. reflexivity.
  - unfold parse_uint64. rewrite digits_val_zeros by lia. rewrite digits_val_dec.
    destruct (str_take _ _ ++ dec n) eqn:D; [cbn in E; discriminate|].
    assert (n < 18446744073709551616)%N as B by lia. apply N.ltb_lt in B. rewrite B. reflexivity.
Qed.
Lemma digit_bounds : forall a, is_digit a = true -> (48 <= code a <= 57)%N.
Proof.
  intros a H. unfold is_digit, in_range in H. apply andb_prop in H. destruct H as [H1 H2].
  apply N.leb_le in H1. apply N.leb_le in H2. lia.
Qed.
Lemma code_inj : forall a b, code a = code b -> a = b.
Proof. intros a b H. unfold code in H. rewrite <- (ascii_N_embedding a), <- (ascii_N_embedding b). f_equal. exact H. Qed.
Lemma digits_val_inj : forall s t x y n, String.length s = String.length t ->
  digits_val x s = Some n -> digits_val y t = Some n -> x = y /\ s = t.
Proof.
  induction s as [|a s IH]; intros [|b t] x y n L H1 H2; try discriminate; cbn [digits_val] in *.
  - injection H1 as <-. injection H2 as <-. auto.
  - destruct (is_digit a) eqn:Da; [|discriminate]. destruct (is_digit b) eqn:Db; [|discriminate].
    injection L as L. destruct (IH t _ _ _ L H1 H2) as [E ->]. unfold digit_val in E.
    apply digit_bounds in Da. apply digit_bounds in Db.
    assert (x = y /\ code a = code b) as [-> C] by lia. apply code_inj in C. subst b. auto.
Qed.
Lemma digits_val_lt : forall s acc n, digits_val acc s = Some n -> (n < (acc + 1) * 10 ^ N.of_nat (String.length s))%N.
Proof.
  induction s as [|a s IH]; intros acc n H; cbn [digits_val] in H.
  - injection H as <-. cbn. lia.
  - destruct (is_digit a) eqn:D; [|discriminate]. apply IH in H. apply digit_bounds in D. unfold digit_val in H.
    cbn [String.length]. rewrite Nat2N.inj_succ, N.pow_succ_r'.
    set (p := (10 ^ N.of_nat (String.length s))%N) in *. nia.
Qed.
Lemma parse_uint64_val : forall b k, parse_uint64 b = Some k -> digits_val 0 b = Some k.
Proof.
  intros b k H. unfold parse_uint64 in H. destruct b as [|a b]; [discriminate|].
  destruct (digits_val 0 (String a b)); [|discriminate]. destruct (n <? 18446744073709551616)%N; congruence.
Qed.

Definition micro (neg : bool) (M : Z) : string :=
  (if neg then "-" else "") ++ itoa (M / 1000000) ++ "." ++ pad6 (itoa (M mod 1000000)).
Lemma millionths_iff : forall neg M s, (0 <= M)%Z -> (millionths neg M s <-> s = micro neg M).
Proof.
  intros neg M s HM. pose proof (Z.div_mod M 1000000 ltac:(lia)) as E. pose proof (Z.mod_pos_bound M 1000000 ltac:(lia)) as B.
  assert (Hr : itoa (M mod 1000000) = dec (Z.to_N (M mod 1000000))) by (unfold dec; rewrite Z2N.id by lia; reflexivity).
  destruct (pad6_ok (Z.to_N (M mod 1000000)) ltac:(lia)) as (L & D & P).
  split.
  - intros (a & b & -> & Ha & Lb & Db & k & Pk & EM). unfold micro.
    pose proof (parse_uint64_val _ _ Pk) as V. pose proof (digits_val_lt _ _ _ V) as Lt. rewrite Lb in Lt.
    change ((0 + 1) * 10 ^ N.of_nat 6)%N with 1000000%N in Lt.
    assert (a = (M / 1000000)%Z) as -> by (apply (Z.div_unique_pos M 1000000 a (Z.of_N k)); lia).
    assert (Z.of_N k = (M mod 1000000)%Z) as Ek by lia.
    rewrite Hr. pose proof (parse_uint64_val _ _ P) as V2. rewrite <- Ek in V2, L |- *. rewrite N2Z.id in *.
    destruct (digits_val_inj b (pad6 (dec k)) 0 0 k) as [_ ->]; [congruence|exact V|exact V2|reflexivity].
  - intros ->. exists (M / 1000000)%Z, (pad6 (itoa (M mod 1000000))). rewrite Hr.
    split; [rewrite <- Hr; reflexivity|]. split; [apply Z.div_pos; lia|]. split; [exact L|]. split; [exact D|].
    exists (Z.to_N (M mod 1000000)). split; [exact P|]. rewrite Z2N.id by lia. lia.
Qed.
Lemma rounded_nonneg : forall n d M, (0 < d)%Z -> (0 <= n)%Z -> rounded n d M -> (0 <= M)%Z.
Proof. intros n d M Hd Hn [H|[H _]]; nia. Qed.
Lemma rounded_one : forall n, rounded n 1 n.
Proof. intros n. left. lia. Qed.
Theorem fmt_f_iff : forall f s, s = fmt_f f <-> float_text f s.
Proof.
  intros f s. destruct f as [b|b| |b m e]; cbn [fmt_f].
  - fold (micro b 0). split; [intros ->; constructor; apply millionths_iff; [lia|reflexivity]|].
    intros H. inversion H; subst. apply millionths_iff in H1; [exact H1|lia].
  - destruct b; split; [intros ->; constructor|inversion 1; reflexivity|intros ->; constructor|inversion 1; reflexivity].
  - split; [intros ->; constructor|inversion 1; reflexivity].
  - match goal with |- _ = ?x <-> _ => change x with (micro b (if (0 <=? e)%Z then Zpos m * 1000000 * 2 ^ e else round_div_even (Zpos m * 1000000) (2 ^ (- e)))) end.
    set (M0 := (if (0 <=? e)%Z then (Zpos m * 1000000 * 2 ^ e)%Z else round_div_even (Zpos m * 1000000) (2 ^ (- e)))).
    assert (Dp : (0 < 2 ^ Z.max (- e) 0)%Z) by (apply Z.pow_pos_nonneg; lia).
    assert (Np : (0 <= Zpos m * 1000000 * 2 ^ Z.max e 0)%Z).
    { pose proof (Z.pow_nonneg 2 (Z.max e 0) ltac:(lia)). nia. }
    assert (R0 : rounded (Zpos m * 1000000 * 2 ^ Z.max e 0) (2 ^ Z.max (- e) 0) M0).
    { unfold M0. destruct (0 <=? e)%Z eqn:C.
      - apply Z.leb_le in C. rewrite Z.max_l, Z.max_r by lia. apply rounded_one.
      - apply Z.leb_gt in C. rewrite Z.max_r, Z.max_l by lia. rewrite Z.pow_0_r, Z.mul_1_r. apply round_div_ok.
        apply Z.pow_pos_nonneg; lia. }
    pose proof (rounded_nonneg _ _ _ Dp Np R0) as Hn.
    split.
    + intros ->. apply ft_finite with M0; [apply millionths_iff; [exact Hn|reflexivity]|exact R0].
    + intros H. inversion H as [| | | |b' m' e' M s' Hm Hr]; subst.
      pose proof (rounded_unique _ _ _ _ Dp Hr R0) as ->. apply millionths_iff in Hm; [exact Hm|exact Hn].
Qed.

Fixpoint encode_literal (ft : gotime -> string) (v : value) (x : string) {struct v} : encode_value ft v = ROk x -> literal ft v x.
Proof.
  destruct v as [|ty b|ty z|ty f|ty s|ty a t|ty fs|ty es|ty es|ty h id|tm|ty r [[w|er]|pe]|ty r [s|pe]]; intros H; cbn [encode_value encode_kind] in H; try discriminate.
  - injection H as <-. constructor.
  - destruct b; injection H as <-; constructor.
  - injection H as <-. constructor.
  - injection H as <-. constructor. apply fmt_f_iff. reflexivity.
  - injection H as <-. rewrite quoted_eq. constructor.
  - unfold is_zero_time in H. destruct (Z.eqb_spec (t_ns tm) 0) as [Z0|Z0]; injection H as <-; constructor; exact Z0.
  - constructor. apply encode_literal. exact H.
  - injection H as <-. rewrite quoted_eq. constructor.
Defined.
Theorem encode_iff : forall ft v s, encode_value ft v = ROk s <-> literal ft v s.
Proof.
  intros ft v s. split; [apply encode_literal|].
  induction 1; cbn [encode_value encode_kind]; try rewrite quoted_eq; try reflexivity; auto.
  - unfold is_zero_time. apply Z.eqb_eq in H. rewrite H. reflexivity.
  - unfold is_zero_time. apply Z.eqb_neq in H. rewrite H. reflexivity.
  - apply fmt_f_iff in H. subst s. reflexivity.
Qed.
Lemma literal_unique : forall ft v s t, literal ft v s -> literal ft v t -> s = t.
Proof. intros ft v s t H K. apply encode_iff in H. apply encode_iff in K. congruence. Qed.
Fixpoint encode_panics (ft : gotime -> string) (v : value) (x : err) {struct v} : encode_value ft v = RPanic x -> method_panics v x.
Proof.
  destruct v as [|ty b|ty z|ty f|ty s|ty a t|ty fs|ty es|ty es|ty h id|tm|ty r [[w|er]|pe]|ty r [s|pe]]; intros H; cbn [encode_value encode_kind] in H; try discriminate.
  - constructor. eapply encode_panics. exact H.
  - injection H as <-. constructor.
  - injection H as <-. constructor.
Defined.
Theorem encode_panics_iff : forall ft v e, encode_value ft v = RPanic e <-> method_panics v e.
Proof. intros ft v e. split; [apply encode_panics|]. induction 1; cbn [encode_value]; auto. Qed.
Fixpoint encode_total (ft : gotime -> string) (v : value) {struct v} :
  (exists s, encode_value ft v = ROk s) \/ (exists e, encode_value ft v = RErr e) \/ (exists e, encode_value ft v = RPanic e).
Proof.
  destruct v as [|ty b|ty z|ty f|ty s|ty a t|ty fs|ty es|ty es|ty h id|tm|ty r [[w|er]|pe]|ty r [s|pe]]; cbn [encode_value encode_kind]; eauto.
Defined.

(* ------------------------------------------------------------------ *)
(** * Interpolation *)

Definition ie (ft : gotime -> string) (args : list value) (es : list aexpr) : outcome string := interpolate_exprs ft args (map unstrip es).
(** Equal, except for the text of errors. *)
Definition same_kind (a b : outcome string) : Prop :=
  match a, b with RErr _, RErr _ => True | _, _ => a = b end.
Lemma same_ok : forall a b s, same_kind a b -> (a = ROk s <-> b = ROk s).
Proof. intros [t|e|e|] [t'|e'|e'|] s H; cbn [same_kind] in H; split; congruence. Qed.
Lemma same_panic : forall a b e, same_kind a b -> (a = RPanic e <-> b = RPanic e).
Proof. intros [t|e0|e0|] [t'|e'|e'|] e H; cbn [same_kind] in H; split; congruence. Qed.
Lemma ie_same : forall ft args es, same_kind (interpolate_exprs ft args es) (ie ft args (map strip es)).
Proof.
  intros ft args es. unfold ie. induction es as [|e es IH]; [reflexivity|].
  assert (K : forall s, same_kind
     match interpolate_exprs ft args es with ROk r => ROk (s ++ r) | o => o end
     match interpolate_exprs ft args (map unstrip (map strip es)) with ROk r => ROk (s ++ r) | o => o end).
  { intros s. destruct (interpolate_exprs ft args es), (interpolate_exprs ft args (map unstrip (map strip es)));
      cbn [same_kind] in *; congruence. }
  destruct e as [t p|sty i p|nm la p|nm p]; cbn [map strip unstrip interpolate_exprs]; [apply K| |exact Logic.I|exact Logic.I].
  destruct (nth_value args i) as [v|]; [|reflexivity]. destruct (encode_value ft v); [apply K|exact Logic.I|reflexivity|reflexivity].
Qed.
Lemma ie_ok : forall ft args es s, interpolate_exprs ft args es = ROk s <-> ie ft args (map strip es) = ROk s.
Proof. intros ft args es s. apply same_ok, ie_same. Qed.
Lemma ie_panic : forall ft args es e, interpolate_exprs ft args es = RPanic e <-> ie ft args (map strip es) = RPanic e.
Proof. intros ft args es e. apply same_panic, ie_same. Qed.
Lemma nth_value_iff : forall args k v, nth_value args k = Some v <-> (1 <= k)%Z /\ nth_error args (Z.to_nat (k - 1)) = Some v.
Proof.
  intros args k v. unfold nth_value. split.
  - destruct ((1 <=? k)%Z && (k <=? Z.of_nat (List.length args))%Z) eqn:C; [|discriminate].
    apply andb_prop in C. destruct C as [C _]. apply Z.leb_le in C. auto.
  - intros [H1 H2]. assert (L : Z.to_nat (k - 1) < List.length args) by (apply nth_error_Some; congruence).
    assert ((1 <=? k)%Z && (k <=? Z.of_nat (List.length args))%Z = true) as ->; [|exact H2].
    apply andb_true_intro. split; apply Z.leb_le; lia.
Qed.
Lemma nth_value_none : forall args k, nth_value args k = None <-> outside k (List.length args).
Proof.
  intros args k. unfold nth_value, outside. split.
  - destruct ((1 <=? k)%Z && (k <=? Z.of_nat (List.length args))%Z) eqn:C.
    + apply andb_prop in C. destruct C as [C D]. apply Z.leb_le in C. apply Z.leb_le in D.
      intros H. apply nth_error_None in H. lia.
    + intros _. apply andb_false_iff in C. destruct C as [C|C]; apply Z.leb_gt in C; lia.
  - intros H. destruct ((1 <=? k)%Z && (k <=? Z.of_nat (List.length args))%Z) eqn:C; [|reflexivity].
    apply andb_prop in C. destruct C as [C D]. apply Z.leb_le in C. apply Z.leb_le in D. lia.
Qed.
Lemma ie_iff : forall ft args es s, ie ft args es = ROk s <-> exists outs, Forall2 (replaced ft args) es outs /\ s = concat_all outs.
Proof.
  intros ft args es. unfold ie. induction es as [|e es IH]; intros s.
  - cbn. split; [intros H; injection H as <-; exists []; split; [constructor|reflexivity]|].
    intros (outs & F & ->). inversion F. reflexivity.
  - split.
    + intros H. cbn [map interpolate_exprs] in H.
      destruct e as [t|sty k|nm la|nm]; cbn [unstrip] in H; try discriminate.
      * destruct (interpolate_exprs ft args (map unstrip es)) as [r| | |] eqn:E; try discriminate. injection H as <-.
        destruct (proj1 (IH r) eq_refl) as (outs & F & ->). exists (t :: outs). split; [|reflexivity]. constructor; [constructor|exact F].
      * destruct (nth_value args k) as [v|] eqn:N; [|discriminate].
        destruct (encode_value ft v) as [x| | |] eqn:X; try discriminate.
        destruct (interpolate_exprs ft args (map unstrip es)) as [r| | |] eqn:E; try discriminate. injection H as <-.
        destruct (proj1 (IH r) eq_refl) as (outs & F & ->). exists (x :: outs). split; [|reflexivity].
        apply nth_value_iff in N. destruct N as [N1 N2]. constructor; [|exact F]. econstructor; [exact N1|exact N2|]. apply encode_iff. exact X.
    + intros (outs & F & ->). inversion F as [|e' x es' os Hx Hr]; subst. cbn [map interpolate_exprs].
      pose proof (proj2 (IH (concat_all os)) (ex_intro _ os (conj Hr eq_refl))) as E. rewrite E.
      inversion Hx as [t|sty k v s N1 N2 L]; subst; cbn [unstrip]; [reflexivity|].
      rewrite (proj2 (nth_value_iff args k v) (conj N1 N2)). apply encode_iff in L. rewrite L. reflexivity.
Qed.
Theorem interpolate_iff : forall ft q args s, no_nul q = true -> (interpolate ft q args = ROk s <->
  exists es srcs outs, parse q = POk es /\ Forall2 source (map strip es) srcs /\ concat_all srcs = q /\
    Forall2 (replaced ft args) (map strip es) outs /\ s = concat_all outs).
Proof.
  intros ft q args s Hq. unfold interpolate. split.
  - intros H. destruct (parse q) as [es| | |] eqn:E; try discriminate. apply ie_ok in H. apply ie_iff in H.
    destruct H as (outs & F & ->). destruct (parse_lossless q es Hq E) as (srcs & G & C).
    exists es, srcs, outs. auto.
  - intros (es & srcs & outs & E & G & C & F & ->). rewrite E. apply ie_ok, ie_iff. eauto.
Qed.

Lemma ie_empty : forall ft args es, ie ft args (APlain "" :: es) = ie ft args es.
Proof.
  intros ft args es. unfold ie. cbn [map unstrip interpolate_exprs].
  destruct (interpolate_exprs ft args (map unstrip es)); reflexivity.
Qed.
Lemma ie_cons_text : forall ft args t es, ie ft args (cons_text t es) = ie ft args (APlain t :: es).
Proof.
  intros ft args t es. assert (G : ie ft args (if is_empty t then es else APlain t :: es) = ie ft args (APlain t :: es)).
  { destruct t as [|c t]; cbn [is_empty]; [rewrite ie_empty; reflexivity|reflexivity]. }
  destruct es as [|[u|sty k|nm la|nm] es]; unfold cons_text; try exact G. clear G.
  unfold ie. cbn [map unstrip interpolate_exprs]. destruct (interpolate_exprs ft args (map unstrip es)); try reflexivity.
  rewrite append_assoc. reflexivity.
Qed.
Lemma ie_cons : forall ft args e es es', ie ft args es = ie ft args es' -> ie ft args (e :: es) = ie ft args (e :: es').
Proof. intros ft args e es es' H. unfold ie in *. cbn [map interpolate_exprs]. rewrite H. reflexivity. Qed.
Lemma ie_norm : forall ft args es, ie ft args (norm es) = ie ft args es.
Proof.
  intros ft args. induction es as [|e es IH]; [reflexivity|]. destruct e; cbn [norm];
    try (apply ie_cons; exact IH). rewrite ie_cons_text. apply ie_cons. exact IH.
Qed.
Lemma interpolate_parsed : forall ft q args es, parsed q = Some es -> same_kind (interpolate ft q args) (ie ft args es).
Proof.
  intros ft q args es H. unfold parsed in H. unfold interpolate. destruct (parse q); try discriminate. injection H as <-.
  rewrite ie_norm. apply ie_same.
Qed.
Lemma filled_ie : forall ft args l k s, forallb wf1 l = true -> (0 <= k)%Z -> (filled ft args k l s <-> ie ft args (denote k l) = ROk s).
Proof.
  intros ft args. induction l as [|p l IH]; intros k s Hw Hk.
  - cbn. split; [inversion 1; reflexivity|intros H; injection H as <-; constructor].
  - cbn [forallb] in Hw. apply andb_prop in Hw. destruct Hw as [W Hw].
    assert (In1 : forall k', is_inert p = true -> (0 <= k')%Z -> (filled ft args k' (p :: l) s <-> ie ft args (APlain (print1 p) :: denote k' l) = ROk s)).
    { intros k' Hi Hk'. rewrite ie_iff. split.
      - intros H. inversion H as [|k0 p0 l0 s0 Hp Hl|k0 l0 v x s0 N L Hl|k0 n l0 v x s0 N L Hl]; subst; try discriminate Hi.
        apply (IH k' s0 Hw Hk') in Hl. apply ie_iff in Hl. destruct Hl as (outs & F & ->).
        exists (print1 p :: outs). split; [|reflexivity]. constructor; [constructor|exact F].
      - intros (outs & F & ->). inversion F as [|e' x es' os Hx Hr]; subst. inversion Hx; subst. cbn [concat_all fold_right].
        apply fd_inert; [exact Hi|]. apply (IH k' _ Hw Hk'). apply ie_iff. eauto. }
    destruct p as [t|d|q b| |n|nm la|nm n|nm]; cbn [denote]; try (apply In1; [reflexivity|exact Hk]).
    + rewrite ie_iff. split.
      * intros H. inversion H as [|k0 p0 l0 s0 Hp Hl|k0 l0 v x s0 N L Hl|k0 n l0 v x s0 N L Hl]; subst; [discriminate Hp|].
        apply (IH (k + 1)%Z s0 Hw ltac:(lia)) in Hl. apply ie_iff in Hl. destruct Hl as (outs & F & ->).
        exists (x :: outs). split; [|reflexivity]. constructor; [|exact F]. econstructor; [lia| |exact L]. replace (k + 1 - 1)%Z with k by lia. exact N.
      * intros (outs & F & ->). inversion F as [|e' x es' os Hx Hr]; subst. inversion Hx; subst. cbn [concat_all fold_right].
        replace (k + 1 - 1)%Z with k in * by lia. eapply fd_quest; [eassumption|eassumption|]. apply IH; [exact Hw|lia|]. apply ie_iff. eauto.
    + cbn [wf1] in W. apply andb_prop in W. destruct W as [W1 W2]. apply N.leb_le in W1.
      assert (En : Z.to_nat (Z.of_N n - 1) = N.to_nat n - 1) by lia.
      rewrite ie_iff. split.
      * intros H. inversion H as [|k0 p0 l0 s0 Hp Hl|k0 l0 v x s0 N L Hl|k0 n0 l0 v x s0 N L Hl]; subst; [discriminate Hp|].
        apply (IH (k + 1)%Z s0 Hw ltac:(lia)) in Hl. apply ie_iff in Hl. destruct Hl as (outs & F & ->).
        exists (x :: outs). split; [|reflexivity]. constructor; [|exact F]. econstructor; [lia| |exact L]. rewrite En. exact N.
      * intros (outs & F & ->). inversion F as [|e' x es' os Hx Hr]; subst. inversion Hx; subst. cbn [concat_all fold_right].
        rewrite En in *. eapply fd_dollar; [eassumption|eassumption|]. apply IH; [exact Hw|lia|]. apply ie_iff. eauto.
    + split; [intros H; inversion H; discriminate|intros H; unfold ie in H; discriminate].
    + split; [intros H; inversion H; discriminate|intros H; unfold ie in H; discriminate].
    + split; [intros H; inversion H; discriminate|intros H; unfold ie in H; discriminate].
Qed.
Lemma wf_at_wf1 : forall l x, wf_at l x = true -> forallb wf1 l = true.
Proof.
  induction l as [|p l IH]; intros x H; [reflexivity|]. cbn [wf_at] in H. apply andb_prop in H. destruct H as [H H2].
  apply andb_prop in H. destruct H as [H1 _]. cbn [forallb]. rewrite H1. exact (IH _ H2).
Qed.
Theorem interpolate_parts : forall ft args l s, wf l = true -> style_ok false l = true ->
  (interpolate ft (print l) args = ROk s <-> filled ft args 0 l s).
Proof.
  intros ft args l s Hw Hs. rewrite (same_ok _ _ s (interpolate_parsed ft _ args _ (parsed_roundtrip l Hw Hs))), ie_norm.
  symmetry. apply filled_ie; [exact (wf_at_wf1 _ _ Hw)|lia].
Qed.

(** The first expression that cannot be replaced panics ... *)
Lemma ie_panics : forall ft args pre outs x post e, Forall2 (replaced ft args) pre outs -> panics args x e ->
  ie ft args (pre ++ x :: post) = RPanic e.
Proof.
  intros ft args pre outs x post e F Hx. induction F as [|y t pre outs Hy F IH].
  - unfold ie. destruct Hx as [sty k Ho|sty k v e N1 N2 Hm]; cbn [app map unstrip interpolate_exprs].
    + rewrite (proj2 (nth_value_none args k) Ho). reflexivity.
    + rewrite (proj2 (nth_value_iff args k v) (conj N1 N2)). rewrite (proj2 (encode_panics_iff ft v e) Hm). reflexivity.
  - unfold ie in *. cbn [app map interpolate_exprs]. rewrite IH.
    inversion Hy as [t'|sty' k' v s N1 N2 L]; subst; cbn [unstrip]; [reflexivity|].
    rewrite (proj2 (nth_value_iff args k' v) (conj N1 N2)). apply encode_iff in L. rewrite L. reflexivity.
Qed.
Lemma ie_panic_only : forall ft args es e, ie ft args es = RPanic e ->
  exists pre outs x post, es = (pre ++ x :: post)%list /\ Forall2 (replaced ft args) pre outs /\ panics args x e.
Proof.
  intros ft args. induction es as [|y es IH]; intros e H; unfold ie in *; cbn [map interpolate_exprs] in H; [discriminate|].
  destruct y as [t|sty k|nm la|nm]; cbn [unstrip] in H; try discriminate.
  - destruct (interpolate_exprs ft args (map unstrip es)) eqn:E; try discriminate. injection H as ->.
    destruct (IH _ eq_refl) as (pre & outs & x & post & -> & F & Ho).
    exists (APlain t :: pre), (t :: outs), x, post. split; [reflexivity|]. split; [|exact Ho]. constructor; [constructor|exact F].
  - destruct (nth_value args k) as [v|] eqn:N.
    + pose proof N as N'. apply nth_value_iff in N'. destruct N' as [N1 N2].
      destruct (encode_total ft v) as [[s X]|[[er X]|[er X]]]; rewrite X in H; [|discriminate|].
      * destruct (interpolate_exprs ft args (map unstrip es)) eqn:E; try discriminate. injection H as ->.
        destruct (IH _ eq_refl) as (pre & outs & x & post & -> & F & Ho). apply encode_iff in X.
        exists (ABind sty k :: pre), (s :: outs), x, post. split; [reflexivity|]. split; [|exact Ho].
        constructor; [econstructor; eassumption|exact F].
      * injection H as ->. apply encode_panics_iff in X.
        exists [], [], (ABind sty k), es. split; [reflexivity|]. split; [constructor|]. econstructor; eassumption.
    + injection H as <-. exists [], [], (ABind sty k), es. split; [reflexivity|]. split; [constructor|]. constructor. apply nth_value_none. exact N.
Qed.
Theorem interpolate_panics : forall ft q args e, interpolate ft q args = RPanic e <->
  exists es pre outs x post, parse q = POk es /\ map strip es = (pre ++ x :: post)%list /\
    Forall2 (replaced ft args) pre outs /\ panics args x e.
Proof.
  intros ft q args e. split.
  - intros H. unfold interpolate in H. destruct (parse_total q) as [[es E]|(o & m & E)]; rewrite E in H; [|discriminate].
    apply ie_panic in H. apply ie_panic_only in H. destruct H as (pre & outs & x & post & M & F & Ho).
    exists es, pre, outs, x, post. auto.
  - intros (es & pre & outs & x & post & E & M & F & Hx). unfold interpolate. rewrite E. apply ie_panic. rewrite M. eapply ie_panics; eassumption.
Qed.

(* ------------------------------------------------------------------ *)
(** * Literals are inert *)

Lemma quoted_inj : forall s t, quoted s = quoted t -> s = t.
Proof.
  intros s t H. unfold quoted in H. cbn [append] in H. injection H as H.
  assert (D : doubled s = doubled t).
  { assert (L : String.length (doubled s) = String.length (doubled t)).
    { apply (f_equal String.length) in H. rewrite !app_length in H. lia. }
    pose proof (take_app (doubled s) "'") as A. rewrite H, L, take_app in A. congruence. }
  rewrite <- (undouble_double s), <- (undouble_double t). congruence.
Qed.
Lemma quoted_part : forall s, quoted s = print1 (Quoted "'" (doubled s)).
Proof. reflexivity. Qed.
Lemma quoted_parsed : forall s, no_nul s = true -> parsed (quoted s) = Some [APlain (quoted s)].
Proof.
  intros s H. rewrite quoted_part. rewrite <- (append_nil_r (print1 (Quoted "'" (doubled s)))).
  change (print1 (Quoted "'" (doubled s)) ++ "") with (print [Quoted "'" (doubled s)]).
  rewrite parsed_inert; [reflexivity|reflexivity|]. cbn [forallb wf1]. rewrite doubled_body by exact H. reflexivity.
Qed.

Lemma digit_plain : forall a, is_digit a = true -> special a = false.
Proof.
  intros a H. pose proof (digit_ascii a H) as K. apply digit_bounds in H.
  destruct (special a) eqn:E; [|reflexivity]. exfalso. unfold special, is_mark, is_quote in E.
  repeat (apply orb_prop in E; destruct E as [E|E]);
    apply Ascii.eqb_eq in E; subst a; cbv in H; destruct H as [H1 H2]; congruence.
Qed.
Lemma digits_plain : forall s, all is_digit s = true -> plain_text s = true.
Proof. intros s H. unfold plain_text. eapply all_impl; [|exact H]. intros a K. cbv beta. rewrite (digit_plain a K). reflexivity. Qed.
Lemma plain_app : forall a b, plain_text (a ++ b) = plain_text a && plain_text b.
Proof. intros a b. apply all_app. Qed.
Lemma itoa_plain : forall z, plain_text (itoa z) = true.
Proof.
  intros z. destruct z as [|p|p]; [reflexivity| |].
  - apply digits_plain. exact (dec_digits (Npos p)).
  - change (itoa (Zneg p)) with ("-" ++ dec (Npos p)). rewrite plain_app, (digits_plain _ (dec_digits (Npos p))). reflexivity.
Qed.
Lemma float_plain : forall f s, float_text f s -> plain_text s = true.
Proof.
  assert (M : forall b m s, millionths b m s -> plain_text s = true).
  { intros b m s (x & y & -> & _ & _ & D & _). rewrite !plain_app, itoa_plain, (digits_plain y D).
    destruct b; reflexivity. }
  intros f s H. inversion H; subst; try reflexivity; eapply M; eassumption.
Qed.
Theorem literal_inert : forall ft v s, (forall id, body_ok "'" (ft id) = true) -> clean v = true -> literal ft v s ->
  exists p, is_inert p = true /\ wf1 p = true /\ print1 p = s.
Proof.
  intros ft v s Hf Hc H. induction H; cbn [clean] in Hc.
  - exists (Text "NULL"). auto.
  - auto.
  - exists (Quoted "'" "0000-00-00"). auto.
  - exists (Quoted "'" (ft t)). split; [reflexivity|]. split; [cbn [wf1]; rewrite Hf; reflexivity|reflexivity].
  - exists (Quoted "'" (doubled s)). split; [reflexivity|]. split; [cbn [wf1]; rewrite doubled_body by exact Hc; reflexivity|reflexivity].
  - exists (Text "TRUE"). auto.
  - exists (Text "FALSE"). auto.
  - exists (Text (itoa z)). split; [reflexivity|]. split; [apply itoa_plain|reflexivity].
  - exists (Text s). split; [reflexivity|]. split; [eapply float_plain; eassumption|reflexivity].
  - exists (Quoted "'" (doubled s)). split; [reflexivity|]. split; [cbn [wf1]; rewrite doubled_body by exact Hc; reflexivity|reflexivity].
Qed.
Lemma filled_inert : forall ft args l k s, (forall id, body_ok "'" (ft id) = true) -> forallb clean args = true ->
  forallb wf1 l = true -> filled ft args k l s ->
  exists l', forallb is_inert l' = true /\ forallb wf1 l' = true /\ print l' = s.
Proof.
  intros ft args l k s Hf Hc Hw H. induction H.
  - exists []. auto.
  - cbn [forallb] in Hw. apply andb_prop in Hw. destruct Hw as [W Hw]. destruct (IHfilled Hw) as (l' & I & V & P).
    exists (p :: l'). cbn [forallb print]. rewrite H, W, P. auto.
  - cbn [forallb] in Hw. apply andb_prop in Hw. destruct Hw as [W Hw]. destruct (IHfilled Hw) as (l' & I & V & P).
    apply nth_error_In in H. rewrite forallb_forall in Hc. destruct (literal_inert ft v x Hf (Hc v H) H0) as (p & I1 & V1 & P1).
    exists (p :: l'). cbn [forallb print]. rewrite I1, V1, P, P1. auto.
  - cbn [forallb] in Hw. apply andb_prop in Hw. destruct Hw as [W Hw]. destruct (IHfilled Hw) as (l' & I & V & P).
    apply nth_error_In in H. rewrite forallb_forall in Hc. destruct (literal_inert ft v x Hf (Hc v H) H0) as (p & I1 & V1 & P1).
    exists (p :: l'). cbn [forallb print]. rewrite I1, V1, P, P1. auto.
Qed.
Theorem interpolated_inert : forall ft args l s, (forall id, body_ok "'" (ft id) = true) -> forallb clean args = true ->
  wf l = true -> style_ok false l = true -> interpolate ft (print l) args = ROk s ->
  parsed s = Some (cons_text s []).
Proof.
  intros ft args l s Hf Hc Hw Hs H. apply (interpolate_parts ft args l s Hw Hs) in H.
  destruct (filled_inert ft args l 0 s Hf Hc (wf_at_wf1 _ _ Hw) H) as (l' & I & V & <-).
  apply parsed_inert; assumption.
Qed.
Theorem interpolate_again : forall ft args l s args', (forall id, body_ok "'" (ft id) = true) -> forallb clean args = true ->
  wf l = true -> style_ok false l = true -> interpolate ft (print l) args = ROk s -> interpolate ft s args' = ROk s.
Proof.
  intros ft args l s args' Hf Hc Hw Hs H. pose proof (interpolated_inert ft args l s Hf Hc Hw Hs H) as P.
  apply (same_ok _ _ s (interpolate_parsed ft s args' _ P)). rewrite ie_cons_text. unfold ie. cbn. rewrite append_nil_r. reflexivity.
Qed.

(* ------------------------------------------------------------------ *)
(** * Scanning *)

Lemma scan_row_iff : forall {T} cols n (assign : list value -> T + err) row x,
  scan_row cols n assign row = inl x <-> decoded cols n assign row x.
Proof.
  intros T cols n assign row x. unfold scan_row, decoded. split.
  - destruct cols as [cs|e]; [|discriminate]. destruct (Nat.eqb (n + (List.length cs - n)) (List.length cs)) eqn:E; [|discriminate].
    apply Nat.eqb_eq in E. intros H. exists cs. split; [reflexivity|]. split; [lia|exact H].
  - intros (cs & -> & L & H). replace (n + (List.length cs - n)) with (List.length cs) by lia. rewrite Nat.eqb_refl. exact H.
Qed.
Lemma scan_loop_iff : forall {T} cols n (assign : list value -> T + err) l xs,
  scan_loop cols n assign l = inl xs <-> Forall2 (decoded cols n assign) l xs.
Proof.
  intros T cols n assign. induction l as [|r l IH]; intros xs; cbn [scan_loop].
  - split; [intros H; injection H as <-; constructor|inversion 1; reflexivity].
  - split.
    + destruct (scan_row cols n assign r) as [x|e] eqn:E; [|discriminate].
      destruct (scan_loop cols n assign l) as [ys|e] eqn:El; [|discriminate]. intros H. injection H as <-.
      constructor; [apply scan_row_iff; exact E|apply IH; reflexivity].
    + intros H. inversion H as [|r' x l' ys Hr Hl]; subst. apply scan_row_iff in Hr. apply IH in Hl. rewrite Hr, Hl. reflexivity.
Qed.
Theorem scan_iff : forall {T} db q args n (assign : list value -> T + err) xs,
  scan db q args n assign = inl xs <->
  exists rw, db q args = inl rw /\ Forall2 (decoded (rw_cols rw) n assign) (rw_rows rw) xs.
Proof.
  intros T db q args n assign xs. unfold scan. split.
  - destruct (db q args) as [rw|e]; [|discriminate]. intros H. apply scan_loop_iff in H. eauto.
  - intros (rw & -> & H). apply scan_loop_iff. exact H.
Qed.
Lemma scan_loop_first : forall {T} cols n (assign : list value -> T + err) l row post xs cs e,
  Forall2 (decoded cols n assign) l xs -> cols = inl cs -> n <= List.length cs -> assign (firstn n row) = inr e ->
  scan_loop cols n assign (l ++ row :: post) = inr e.
Proof.
  intros T cols n assign l row post xs cs e F -> L H. induction F as [|r x l xs Hr F IH]; cbn [app scan_loop].
  - unfold scan_row. replace (n + (List.length cs - n)) with (List.length cs) by lia. rewrite Nat.eqb_refl, H. reflexivity.
  - apply scan_row_iff in Hr. rewrite Hr, IH. reflexivity.
Qed.
Lemma scan_loop_narrow : forall {T} cs n (assign : list value -> T + err) l,
  List.length cs < n -> l <> [] -> exists e, scan_loop (inl cs) n assign l = inr e.
Proof.
  intros T cs n assign [|r l] L H; [congruence|]. cbn [scan_loop]. unfold scan_row.
  destruct (Nat.eqb (n + (List.length cs - n)) (List.length cs)) eqn:E; [apply Nat.eqb_eq in E; lia|]. eauto.
Qed.
Lemma scan_blind : forall {T} db db' q args n (assign : list value -> T + err) rw er,
  db q args = inl rw -> db' q args = inl (mkRows (rw_cols rw) (rw_rows rw) er) ->
  scan db' q args n assign = scan db q args n assign.
Proof. intros T db db' q args n assign rw er H H'. unfold scan. rewrite H, H'. reflexivity. Qed.

Lemma interpolate_exprs_fuel : forall ft args es, interpolate_exprs ft args es <> RFuel.
Proof.
  intros ft args. induction es as [|e es IH]; cbn [interpolate_exprs]; [discriminate|].
  destruct e as [t p|sty k p|nm la p|nm p]; try discriminate.
  - destruct (interpolate_exprs ft args es); congruence.
  - destruct (nth_value args k) as [v|]; [|discriminate].
    destruct (encode_total ft v) as [[s E]|[[er E]|[er E]]]; rewrite E; [|discriminate|discriminate].
    destruct (interpolate_exprs ft args es); congruence.
Qed.
Lemma interpolate_fuel : forall ft q args, interpolate ft q args <> RFuel.
Proof.
  intros ft q args E. unfold interpolate in E. destruct (parse_total q) as [[es P]|(o & m & P)]; rewrite P in E; [|discriminate].
  exact (interpolate_exprs_fuel ft args es E).
Qed.
Theorem count_error : forall ft db q args e, db (counted q) args = QErr e ->
  (exists s, count ft db q args = RErr (EAfter e s) /\
     (interpolate ft (counted q) args = ROk s \/ exists e', interpolate ft (counted q) args = RErr e' /\ s = "")) \/
  (exists p, count ft db q args = RPanic p /\ interpolate ft (counted q) args = RPanic p).
Proof.
  intros ft db q args e H. unfold count. fold (counted q). rewrite H.
  destruct (interpolate ft (counted q) args) as [s|er|er|] eqn:E; [left; eauto|left; eauto 6| |].
  - right. eauto.
  - exfalso. exact (interpolate_fuel _ _ _ E).
Qed.
