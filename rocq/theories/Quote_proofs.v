(** Proofs about quoted texts. *)
From Coq Require Import Strings.String Strings.Ascii NArith ZArith List Bool Lia Arith.
From Verif Require Term_proofs.
From Verif Require Import GoStr Letters Printable Quote Value Spec_base Spec_utf8 Spec_quote Lex_proofs Text_proofs Use_proofs Rune_proofs.
Import ListNotations.
Open Scope string_scope.

Lemma print_iff : forall r, is_print r = true <-> printable r.
Proof.
  intros r. unfold is_print, printable. rewrite existsb_exists. split.
  - intros ((lo & hi) & Hin & H). apply in_range_iff in H. exists lo, hi. auto.
  - intros (lo & hi & Hin & H). exists (lo, hi). split; [exact Hin|]. apply in_range_iff. exact H.
Qed.
Lemma append_utf8 : forall r, append_rune r = utf8 r.
Proof.
  intros r. unfold append_rune, utf8. destruct (r <? 128)%N; [reflexivity|]. destruct (r <? 2048)%N; [reflexivity|]. destruct (r <? 65536)%N; reflexivity.
Qed.
Lemma digit_get : forall n, (n < 16)%N -> String.get (N.to_nat n) "0123456789abcdef" = Some (hex_digit n).
Proof.
  intros n H. assert (exists k, k < 16 /\ n = N.of_nat k) as (k & Hk & ->) by (exists (N.to_nat n); lia).
  do 16 (destruct k as [|k]; [reflexivity|]). lia.
Qed.
Lemma hex_hexa : forall k r, (r < 16 ^ N.of_nat k)%N -> hexa k (hex k r) r.
Proof.
  induction k as [|k IH]; intros r H.
  - cbn in H. assert (r = 0)%N as -> by lia. apply hx_none.
  - cbn [hex]. pose proof (N.div_mod r 16 ltac:(lia)) as D. pose proof (N.mod_lt r 16 ltac:(lia)) as M.
    assert (Hd : (r / 16 < 16 ^ N.of_nat k)%N).
    { apply N.div_lt_upper_bound; [lia|]. rewrite Nat2N.inj_succ, N.pow_succ_r in H by lia. exact H. }
    pose proof (hx_digit k _ _ (N.to_nat (r mod 16)) _ (IH _ Hd) (digit_get _ M)) as X. rewrite N2Nat.id in X.
    replace (r / 16 * 16 + r mod 16)%N with r in X by lia. exact X.
Qed.
Lemma hexa_length : forall k x r, hexa k x r -> String.length x = k.
Proof. intros k x r H. induction H as [|k x r d a H IH G]; [reflexivity|]. rewrite Term_proofs.length_app, IH. cbn. lia. Qed.
Lemma last_eq : forall x y a b, x ++ String a "" = y ++ String b "" -> x = y /\ a = b.
Proof.
  induction x as [|c x IH]; intros [|d y] a b E; cbn in E.
  - injection E as <-. auto.
  - injection E as _ E. destruct y; discriminate E.
  - injection E as _ E. destruct x; discriminate E.
  - injection E as <- E. destruct (IH _ _ _ E) as [-> ->]. auto.
Qed.
Lemma get_inj : forall d d' a, String.get d "0123456789abcdef" = Some a -> String.get d' "0123456789abcdef" = Some a -> d = d'.
Proof.
  intros d d' a H H'. do 16 (destruct d as [|d]; [cbn in H; injection H as <-; do 16 (destruct d' as [|d']; [try reflexivity; discriminate H'|]); destruct d'; discriminate H'|]). destruct d; discriminate H.
Qed.
Lemma hexa_inj : forall k x r r', hexa k x r -> hexa k x r' -> r = r'.
Proof.
  intros k x r r' H. revert r'. induction H as [|k x r d a H IH G]; intros r' H'.
  - inversion H'. reflexivity.
  - inversion H' as [|k1 x1 r1 d1 a1 H1 G1 E]; subst. apply last_eq in H0 as [-> ->]. rewrite (IH _ H1), (get_inj _ _ _ G G1). reflexivity.
Qed.
Lemma split_at : forall x y s t, String.length x = String.length y -> x ++ s = y ++ t -> x = y /\ s = t.
Proof.
  induction x as [|a x IH]; intros [|b y] s t L E; try discriminate L; [auto|]. cbn in E. injection E as <- E. injection L as L. destruct (IH _ _ _ L E) as [-> ->]. auto.
Qed.

(** ** The model *)
Lemma escape_none : forall r, (forall a, ~ In (r, a) escapes) -> (r <> 34 /\ r <> 92 /\ r <> 7 /\ r <> 8 /\ r <> 12 /\ r <> 10 /\ r <> 13 /\ r <> 9 /\ r <> 11)%N.
Proof. intros r H. repeat split; intros ->; eapply H; cbn; eauto 12. Qed.
Lemma print_low : forall r, printable r -> (32 <= r)%N /\ r <> 127%N.
Proof.
  assert (K : forallb (fun x => (32 <=? fst x)%N && negb (in_range 127 (fst x) (snd x))) print_ranges = true) by (vm_compute; reflexivity).
  intros r (lo & hi & Hin & H). rewrite forallb_forall in K. specialize (K _ Hin). cbn [fst snd] in K. apply andb_prop in K as [K1 K2]. apply N.leb_le in K1. split; [lia|].
  intros ->. rewrite (proj2 (in_range_iff 127 lo hi) H) in K2. discriminate K2.
Qed.
Lemma print_ascii : forall r, (32 <= r < 127)%N -> printable r.
Proof. intros r H. exists 32%N, 126%N. split; [left; reflexivity|lia]. Qed.
Lemma utf8_byte : forall r, (r < 128)%N -> utf8 r = bytes [r].
Proof. intros r H. unfold utf8. rewrite (proj2 (N.ltb_lt r 128) H). reflexivity. Qed.

Lemma quote_end : forall n, quote_f n "" = "".
Proof. intros [|n]; reflexivity. Qed.
Lemma quote_rune : forall n r s, scalar r -> quote_f (S n) (utf8 r ++ s) = escaped_rune r ++ quote_f n s.
Proof.
  intros n r s Hr. pose proof (decode_encoded r s Hr) as D. destruct (N.lt_ge_cases r 128) as [L|L].
  - rewrite utf8_byte in * by exact L. cbn [bytes fold_right append quote_f]. rewrite code_byte by lia. rewrite (proj2 (N.ltb_lt r 128) L). cbn [Nat.eqb andb str_drop].
    destruct (N.eqb_spec r rune_error) as [E|_]; [unfold rune_error in E; lia|reflexivity].
  - assert (W : 2 <= String.length (utf8 r)).
    { unfold utf8. rewrite (proj2 (N.ltb_ge r 128) L). destruct (r <? 2048)%N; [cbn; lia|]. destruct (r <? 65536)%N; cbn; lia. }
    pose proof (drop_append (utf8 r) s) as Dr. destruct (utf8 r ++ s) as [|a u] eqn:E; [destruct (utf8 r); [cbn in W; lia|discriminate E]|].
    cbn [quote_f]. assert (Ha : (code a <? 128)%N = false).
    { apply N.ltb_ge. destruct (N.lt_ge_cases (code a) 128) as [K|K]; [|exact K]. cbn [decode_rune] in D. rewrite (proj2 (N.ltb_lt _ _) K) in D. injection D as _ D. lia. }
    rewrite Ha, D. destruct (Nat.eqb_spec (String.length (utf8 r)) 1) as [K|_]; [lia|]. cbn [andb]. rewrite Dr. reflexivity.
Qed.
Lemma quote_invalid : forall n b s, (128 <= b < 256)%N -> ~ starts_encoding (bytes [b] ++ s) -> quote_f (S n) (bytes [b] ++ s) = "\x" ++ hex 2 b ++ quote_f n s.
Proof.
  intros n b s Hb H. pose proof (decode_invalid (bytes [b] ++ s)) as D. cbn [bytes fold_right append quote_f] in *. rewrite code_byte by lia.
  rewrite (proj2 (N.ltb_ge b 128)) by lia. rewrite D; [|discriminate|intros r t Hr E; apply H; exists r, t; auto].
  reflexivity.
Qed.
Lemma app_assoc' : forall a b c : string, (a ++ b) ++ c = a ++ b ++ c.
Proof. induction a as [|x a IH]; intros b c; cbn; [reflexivity|]. rewrite IH. reflexivity. Qed.
Lemma quotation_fun : forall s t, quotation s t -> forall n, String.length s <= n -> quote_f n s = t.
Proof.
  assert (P2 : (16 ^ N.of_nat 2 = 256)%N) by reflexivity. assert (P4 : (16 ^ N.of_nat 4 = 65536)%N) by reflexivity. assert (P8 : (16 ^ N.of_nat 8 = 4294967296)%N) by reflexivity.
  assert (HX : forall k x r, hexa k x r -> (r < 16 ^ N.of_nat k)%N -> x = hex k r).
  { intros k x r H. induction H as [|k x r d a H IH G]; intros L; [reflexivity|]. cbn [hex].
    assert (d < 16) as Ld by (do 16 (destruct d as [|d]; [lia|]); destruct d; discriminate G).
    replace ((r * 16 + N.of_nat d) / 16)%N with r by (apply N.div_unique with (N.of_nat d); lia).
    replace ((r * 16 + N.of_nat d) mod 16)%N with (N.of_nat d) by (apply N.mod_unique with r; lia).
    rewrite <- IH; [|rewrite Nat2N.inj_succ, N.pow_succ_r in L by lia; lia].
    pose proof (digit_get (N.of_nat d) ltac:(lia)) as Dg. rewrite Nat2N.id, G in Dg. injection Dg as <-. reflexivity. }
  intros s t H. induction H as [|r s t Hr Hp H1 H2 H IH|r a s t Hin H IH|r x s t Hr He Hx H IH|b x s t Hb He Hx H IH|r x s t Hr Hl Hp Hx H IH|r x s t Hr Hl Hp Hx H IH]; intros n Hn; [apply quote_end|..];
    (rewrite Term_proofs.length_app in Hn; destruct n as [|n]; [exfalso; try pose proof (utf8_length r); try change (String.length (bytes [r])) with 1 in Hn; try change (String.length (bytes [b])) with 1 in Hn; lia|]).
  - pose proof (utf8_length r). rewrite quote_rune by exact Hr. rewrite IH by lia. unfold escaped_rune.
    rewrite (proj2 (N.eqb_neq r 34) H1), (proj2 (N.eqb_neq r 92) H2), (proj2 (print_iff r) Hp). cbn [orb]. rewrite append_utf8. reflexivity.
  - assert (Lr : (r < 128)%N) by (cbn in Hin; repeat match type of Hin with _ \/ _ => destruct Hin as [Hin|Hin]; [injection Hin as <- <-; lia|] end; destruct Hin).
    rewrite <- utf8_byte by exact Lr. rewrite quote_rune by (left; lia). cbn in Hn. rewrite IH by lia.
    cbn in Hin. repeat match type of Hin with _ \/ _ => destruct Hin as [Hin|Hin]; [injection Hin as <- <-; vm_compute; reflexivity|] end. destruct Hin.
  - assert (Lr : (r < 128)%N) by lia. rewrite <- utf8_byte by exact Lr. rewrite quote_rune by (left; lia). cbn in Hn. rewrite IH by lia.
    apply escape_none in He as (E1 & E2 & E3 & E4 & E5 & E6 & E7 & E8 & E9). unfold escaped_rune.
    rewrite (proj2 (N.eqb_neq r 34) E1), (proj2 (N.eqb_neq r 92) E2), (proj2 (N.eqb_neq r 7) E3), (proj2 (N.eqb_neq r 8) E4), (proj2 (N.eqb_neq r 12) E5), (proj2 (N.eqb_neq r 10) E6), (proj2 (N.eqb_neq r 13) E7), (proj2 (N.eqb_neq r 9) E8), (proj2 (N.eqb_neq r 11) E9).
    cbn [orb]. destruct (is_print r) eqn:P; [apply print_iff, print_low in P; lia|].
    assert ((r <? 32)%N || (r =? 127)%N = true) as -> by (apply orb_true_iff; rewrite N.ltb_lt, N.eqb_eq; exact Hr).
    rewrite (HX 2 x r Hx) by lia. rewrite app_assoc'. reflexivity.
  - rewrite quote_invalid by assumption. cbn in Hn. rewrite IH by lia. rewrite (HX 2 x b Hx) by lia. reflexivity.
  - pose proof (utf8_length r). rewrite quote_rune by exact Hr. rewrite IH by lia. unfold escaped_rune.
    destruct (is_print r) eqn:P; [apply print_iff in P; contradiction|].
    repeat match goal with |- context [(r =? ?k)%N] => rewrite (proj2 (N.eqb_neq r k)) by lia end. rewrite (proj2 (N.ltb_ge r 32)) by lia. cbn [orb].
    rewrite (proj2 (N.ltb_lt r 65536)) by lia. rewrite (HX 4 x r Hx) by lia. rewrite app_assoc'. reflexivity.
  - pose proof (utf8_length r). rewrite quote_rune by exact Hr. rewrite IH by lia. unfold escaped_rune.
    destruct (is_print r) eqn:P; [apply print_iff in P; contradiction|].
    repeat match goal with |- context [(r =? ?k)%N] => rewrite (proj2 (N.eqb_neq r k)) by lia end. rewrite (proj2 (N.ltb_ge r 32)) by lia. cbn [orb].
    rewrite (proj2 (N.ltb_ge r 65536)) by lia. rewrite (HX 8 x r Hx) by (unfold scalar in Hr; lia). rewrite app_assoc'. reflexivity.
Qed.
Lemma quotation_total : forall n s, String.length s <= n -> exists t, quotation s t.
Proof.
  assert (P2 : (16 ^ N.of_nat 2 = 256)%N) by reflexivity. assert (P4 : (16 ^ N.of_nat 4 = 65536)%N) by reflexivity. assert (P8 : (16 ^ N.of_nat 8 = 4294967296)%N) by reflexivity.
  induction n as [|n IH]; intros s Hs; [destruct s; [exists ""; apply qt_end|cbn in Hs; lia]|].
  destruct s as [|a s']; [exists ""; apply qt_end|]. destruct (decode_cases (String a s') ltac:(discriminate)) as [(r & u & F & D & v & E)|D].
  - apply form_utf8 in F as [Hr ->]. rewrite E in *. pose proof (utf8_length r). rewrite Term_proofs.length_app in Hs. destruct (IH v) as [t Ht]; [lia|].
    destruct (is_print r) eqn:P.
    + apply print_iff in P. destruct (N.eq_dec r 34) as [->|N1]; [eexists; apply (qt_letter 34); [left; reflexivity|exact Ht]|].
      destruct (N.eq_dec r 92) as [->|N2]; [eexists; apply (qt_letter 92); [right; left; reflexivity|exact Ht]|]. eexists. apply qt_self; eassumption.
    + assert (NP : ~ printable r) by (intros K; apply print_iff in K; congruence).
      destruct (N.lt_ge_cases r 128) as [L|L].
      * assert (Ctl : (r < 32 \/ r = 127)%N) by (destruct (N.lt_ge_cases r 32); [auto|]; destruct (N.eq_dec r 127); [auto|]; destruct NP; apply print_ascii; lia).
        rewrite utf8_byte by exact L. destruct (find (fun x => N.eqb (fst x) r) escapes) as [[r' a']|] eqn:Fd.
        -- apply find_some in Fd as [Fi Fe]. apply N.eqb_eq in Fe. cbn in Fe. subst r'. eexists. eapply qt_letter; eassumption.
        -- eexists. apply qt_control; [exact Ctl| |apply hex_hexa; lia|exact Ht]. intros a' Hin. pose proof (find_none _ _ Fd _ Hin) as K. cbn in K. rewrite N.eqb_refl in K. discriminate K.
      * destruct (N.lt_ge_cases r 65536) as [L2|L2].
        -- eexists. apply qt_short; [exact Hr|lia|exact NP|apply hex_hexa; lia|exact Ht].
        -- eexists. apply qt_long; [exact Hr|lia|exact NP|apply hex_hexa; unfold scalar in Hr; lia|exact Ht].
  - destruct (IH s') as [t Ht]; [cbn in Hs; lia|]. assert (Ea : String a s' = bytes [code a] ++ s') by (cbn [bytes fold_right append]; rewrite byte_code; reflexivity).
    assert (La : (code a < 256)%N) by (unfold code; apply N_ascii_bounded).
    assert (Ns : ~ starts_encoding (String a s')).
    { intros (r & u & Hr & E). rewrite E, (decode_encoded r u Hr) in D. injection D as D1 D2. subst r. vm_compute in D2. discriminate D2. }
    assert (Ga : (128 <= code a)%N).
    { destruct (N.lt_ge_cases (code a) 128) as [K|K]; [|exact K]. exfalso. apply Ns. exists (code a), s'. split; [left; lia|]. rewrite utf8_byte by exact K. exact Ea. }
    rewrite Ea in *. eexists. apply qt_invalid; [lia|exact Ns|apply hex_hexa; lia|exact Ht].
Qed.
Theorem quote_quoted : forall s q, quoted s q <-> q = quote s.
Proof.
  intros s q. unfold quote. split.
  - intros (t & H & ->). rewrite (quotation_fun s t H _ (Nat.le_refl _)). reflexivity.
  - intros ->. destruct (quotation_total _ s (Nat.le_refl _)) as [t H]. exists t. split; [exact H|]. rewrite (quotation_fun s t H _ (Nat.le_refl _)). reflexivity.
Qed.

(** ** Different texts are quoted differently *)
Lemma esc_first : forall r u v, scalar r -> r <> 92%N -> utf8 r ++ u <> String "\" v.
Proof.
  intros r u v Hr Hn E. change (String "\" v) with (utf8 92 ++ v) in E. apply encoding_unique in E as [E _]; [congruence|exact Hr|left; lia].
Qed.
Lemma escape_fun : forall r r' a, In (r, a) escapes -> In (r', a) escapes -> r = r'.
Proof.
  intros r r' a H H'. cbn in H. repeat match type of H with _ \/ _ => destruct H as [H|H]; [injection H as <- <-; cbn in H'; repeat match type of H' with _ \/ _ => destruct H' as [H'|H']; [first [discriminate H'|injection H' as <-; reflexivity]|] end; destruct H'|] end. destruct H.
Qed.
Lemma escape_not : forall r a, In (r, a) escapes -> a <> "x"%char /\ a <> "u"%char /\ a <> "U"%char.
Proof. intros r a H. cbn in H. repeat match type of H with _ \/ _ => destruct H as [H|H]; [injection H as _ <-; repeat split; discriminate|] end. destruct H. Qed.
Lemma hexa_split : forall k x x' r r' t t', hexa k x r -> hexa k x' r' -> x ++ t = x' ++ t' -> r = r' /\ t = t'.
Proof.
  intros k x x' r r' t t' H H' E. apply split_at in E as [<- <-]; [|rewrite (hexa_length _ _ _ H), (hexa_length _ _ _ H'); reflexivity].
  split; [exact (hexa_inj _ _ _ _ H H')|reflexivity].
Qed.
Lemma quotation_inj : forall s t, quotation s t -> forall s', quotation s' t -> s = s'.
Proof.
  intros s t H. induction H as [|r s t Hr Hp H1 H2 H IH|r a s t Hin H IH|r x s t Hr He Hx H IH|b x s t Hb He Hx H IH|r x s t Hr Hl Hp Hx H IH|r x s t Hr Hl Hp Hx H IH]; intros s' H';
  inversion H' as [E0 E|r' s1 t' Hr' Hp' H1' H2' K E0 E|r' a' s1 t' Hin' K E0 E|r' x' s1 t' Hr' He' Hx' K E0 E|b' x' s1 t' Hb' He' Hx' K E0 E|r' x' s1 t' Hr' Hl' Hp' Hx' K E0 E|r' x' s1 t' Hr' Hl' Hp' Hx' K E0 E]; subst;
  try reflexivity;
  try (exfalso; first [destruct (utf8 r) eqn:U; [pose proof (utf8_length r) as L; rewrite U in L; cbn in L; lia|discriminate E]|destruct (utf8 r') eqn:U; [pose proof (utf8_length r') as L; rewrite U in L; cbn in L; lia|discriminate E]]; fail);
  try discriminate E;
  try (exfalso; eapply esc_first; [exact Hr|exact H2|first [exact E|symmetry; exact E]]; fail);
  try (exfalso; eapply esc_first; [exact Hr'|exact H2'|first [exact E|symmetry; exact E]]; fail).
  all: try (cbn [append] in E; injection E as E).
  all: try (exfalso; subst; match goal with I : In (_, _) escapes |- _ => destruct (escape_not _ _ I) as (? & ? & ?); congruence end; fail).
  all: try (match goal with E : _ ++ _ = _ ++ _ |- _ => first [apply (hexa_split 2 _ _ _ _ _ _ Hx' Hx) in E as [<- <-]|apply (hexa_split 4 _ _ _ _ _ _ Hx' Hx) in E as [<- <-]|apply (hexa_split 8 _ _ _ _ _ _ Hx' Hx) in E as [<- <-]] end; first [exfalso; lia|rewrite (IH _ K); reflexivity]).
  - apply encoding_unique in E as [<- <-]; [|exact Hr'|exact Hr]. rewrite (IH _ K). reflexivity.
  - subst. rewrite (escape_fun _ _ _ Hin Hin'), (IH _ K). reflexivity.
Qed.
Lemma quoted_inj : forall s s' q, quoted s q -> quoted s' q -> s = s'.
Proof.
  intros s s' q (t & H & ->) (t' & H' & E). cbn in E. injection E as E. apply last_eq in E as [<- _]. exact (quotation_inj _ _ H _ H').
Qed.
Theorem quote_inj : forall s s', quote s = quote s' -> s = s'.
Proof. intros s s' E. apply (quoted_inj s s' (quote s)); apply quote_quoted; [reflexivity|exact E]. Qed.

(** ** Nothing but printable characters *)
Definition shown (t : string) : Prop := exists rs, t = encoded rs /\ Forall (fun r => scalar r /\ printable r) rs.
Lemma encoded_more : forall r rs, utf8 r ++ encoded rs = encoded (r :: rs).
Proof.
  intros r rs. unfold encoded. cbn [map]. destruct (map utf8 rs) as [|x l] eqn:E; [|reflexivity]. cbn. induction (utf8 r) as [|a u IH]; [reflexivity|]. cbn. rewrite IH. reflexivity.
Qed.
Lemma shown_rune : forall r t, scalar r -> printable r -> shown t -> shown (utf8 r ++ t).
Proof. intros r t Hr Hp (rs & -> & F). exists (r :: rs). split; [apply encoded_more|]. constructor; auto. Qed.
Lemma shown_char : forall a t, (32 <= code a < 127)%N -> shown t -> shown (String a t).
Proof.
  intros a t Ha Ht. replace (String a t) with (utf8 (code a) ++ t) by (rewrite utf8_byte by lia; cbn [bytes fold_right append]; rewrite byte_code; reflexivity).
  apply shown_rune; [left; lia|apply print_ascii; lia|exact Ht].
Qed.
Lemma shown_hexa : forall k x r, hexa k x r -> forall t, shown t -> shown (x ++ t).
Proof.
  intros k x r H. induction H as [|k x r d a H IH G]; intros t Ht; [exact Ht|]. rewrite app_assoc'. apply IH. cbn [append]. apply shown_char; [|exact Ht].
  do 16 (destruct d as [|d]; [cbn in G; injection G as <-; vm_compute; split; [discriminate|reflexivity]|]). destruct d; discriminate G.
Qed.
Lemma shown_quotation : forall s t, quotation s t -> forall u, shown u -> shown (t ++ u).
Proof.
  intros s t H. induction H as [|r s t Hr Hp H1 H2 H IH|r a s t Hin H IH|r x s t Hr He Hx H IH|b x s t Hb He Hx H IH|r x s t Hr Hl Hp Hx H IH|r x s t Hr Hl Hp Hx H IH]; intros u Hu; [exact Hu|..].
  - rewrite app_assoc'. apply shown_rune; [exact Hr|exact Hp|apply IH; exact Hu].
  - cbn [append]. apply shown_char; [vm_compute; split; [discriminate|reflexivity]|]. apply shown_char; [|apply IH; exact Hu].
    cbn in Hin. repeat match type of Hin with _ \/ _ => destruct Hin as [Hin|Hin]; [injection Hin as _ <-; vm_compute; split; [discriminate|reflexivity]|] end. destruct Hin.
  - cbn [append]. do 2 (apply shown_char; [vm_compute; split; [discriminate|reflexivity]|]). rewrite app_assoc'. eapply shown_hexa; [exact Hx|apply IH; exact Hu].
  - cbn [append]. do 2 (apply shown_char; [vm_compute; split; [discriminate|reflexivity]|]). rewrite app_assoc'. eapply shown_hexa; [exact Hx|apply IH; exact Hu].
  - cbn [append]. do 2 (apply shown_char; [vm_compute; split; [discriminate|reflexivity]|]). rewrite app_assoc'. eapply shown_hexa; [exact Hx|apply IH; exact Hu].
  - cbn [append]. do 2 (apply shown_char; [vm_compute; split; [discriminate|reflexivity]|]). rewrite app_assoc'. eapply shown_hexa; [exact Hx|apply IH; exact Hu].
Qed.
Theorem quote_shown : forall s, exists rs, quote s = encoded rs /\ Forall (fun r => scalar r /\ printable r) rs.
Proof.
  intros s. destruct (proj2 (quote_quoted s (quote s)) eq_refl) as (t & H & ->). apply shown_char; [vm_compute; split; [discriminate|reflexivity]|].
  cbn [append]. apply (shown_quotation s t H). apply shown_char; [vm_compute; split; [discriminate|reflexivity]|]. exists []. split; [reflexivity|constructor].
Qed.

(** ** What is not escaped *)
Lemma quotation_self : forall rs, Forall (fun r => scalar r /\ printable r /\ r <> 34%N /\ r <> 92%N) rs -> quotation (encoded rs) (encoded rs).
Proof.
  intros rs H. induction H as [|r rs (H1 & H2 & H3 & H4) H IH]; [apply qt_end|]. rewrite <- encoded_more. apply qt_self; assumption.
Qed.
Theorem quote_plain : forall rs, Forall (fun r => scalar r /\ printable r /\ r <> 34%N /\ r <> 92%N) rs -> quote (encoded rs) = """" ++ encoded rs ++ """".
Proof. intros rs H. symmetry. apply quote_quoted. exists (encoded rs). split; [apply quotation_self; exact H|reflexivity]. Qed.
Lemma letter_printable : forall r, letter r -> printable r.
Proof.
  assert (K : forallb (fun x => existsb (fun y => (fst y <=? fst x)%N && (snd x <=? snd y)%N) print_ranges) letter_ranges = true) by (vm_compute; reflexivity).
  intros r (lo & hi & Hin & H). rewrite forallb_forall in K. specialize (K _ Hin). apply existsb_exists in K as ((lo' & hi') & Hin' & K). cbn [fst snd] in K.
  apply andb_prop in K as [K1 K2]. apply N.leb_le in K1, K2. exists lo', hi'. split; [exact Hin'|lia].
Qed.
Lemma letter_plain : forall r, letter r -> scalar r /\ r <> 34%N /\ r <> 92%N.
Proof.
  assert (K : forallb (fun x => (64 <? fst x)%N && (negb (in_range 92 (fst x) (snd x))) && ((snd x <? 55296)%N || ((57344 <=? fst x)%N && (snd x <? 1114112)%N))) letter_ranges = true) by (vm_compute; reflexivity).
  intros r (lo & hi & Hin & H). rewrite forallb_forall in K. specialize (K _ Hin). cbn [fst snd] in K. apply andb_prop in K as [K K3]. apply andb_prop in K as [K1 K2]. apply N.ltb_lt in K1.
  split; [|split; [lia|]].
  - apply orb_prop in K3 as [K3|K3]; [apply N.ltb_lt in K3; left; lia|]. apply andb_prop in K3 as [K3 K4]. apply N.leb_le in K3. apply N.ltb_lt in K4. right. lia.
  - intros ->. rewrite (proj2 (in_range_iff 92 lo hi) H) in K2. discriminate K2.
Qed.
Theorem quote_identifier : forall nm, identifier nm -> quote nm = """" ++ nm ++ """".
Proof.
  intros nm (rs & _ & -> & F). apply quote_plain. eapply Forall_impl; [|exact F]. cbn beta. intros r [->|L].
  - split; [left; lia|]. split; [apply print_ascii; lia|]. split; discriminate.
  - destruct (letter_plain r L) as (A & B & C). split; [exact A|]. split; [apply letter_printable; exact L|]. split; assumption.
Qed.
(** ** The table *)
Lemma apart_prints : apart print_ranges.
Proof.
  assert (G : forall l, (fix go (l : list (N * N)) := match l with [] => true | (lo, hi) :: l' => (lo <=? hi)%N && match l' with [] => true | (lo', _) :: _ => (hi + 1 <? lo')%N end && go l' end) l = true -> apart l).
  { induction l as [|(lo & hi) l IH]; intros H; [exact Logic.I|]. apply andb_prop in H as [H H3]. apply andb_prop in H as [H1 H2]. apply N.leb_le in H1.
    cbn [apart]. split; [exact H1|]. split; [|apply IH; exact H3]. destruct l as [|(lo' & hi') l]; [exact Logic.I|]. apply N.ltb_lt in H2. exact H2. }
  apply G. vm_compute. reflexivity.
Qed.
Theorem print_table : apart print_ranges /\ counted print_ranges = (136104 + 2450 + 1831 + 842 + 7770 + 1)%N /\ (forall r, letter r -> printable r) /\
  (forall r, (r < 256)%N -> (printable r <-> (32 <= r <= 126 \/ 161 <= r <= 255 /\ r <> 173)%N)).
Proof.
  split; [apply apart_prints|]. split; [vm_compute; reflexivity|]. split; [exact letter_printable|].
  intros r H. rewrite <- print_iff.
  assert (K : forall n, n < 256 -> is_print (N.of_nat n) = ((32 <=? N.of_nat n)%N && (N.of_nat n <=? 126)%N) || ((161 <=? N.of_nat n)%N && negb (N.of_nat n =? 173)%N)).
  { assert (A : forallb (fun n => Bool.eqb (is_print (N.of_nat n)) (((32 <=? N.of_nat n)%N && (N.of_nat n <=? 126)%N) || ((161 <=? N.of_nat n)%N && negb (N.of_nat n =? 173)%N))) (seq 0 256) = true) by (vm_compute; reflexivity).
    intros n Hn. rewrite forallb_forall in A. apply eqb_prop. apply A. apply in_seq. lia. }
  specialize (K (N.to_nat r) ltac:(lia)). rewrite N2Nat.id in K. rewrite K, orb_true_iff, !andb_true_iff, !N.leb_le, negb_true_iff, N.eqb_neq. lia.
Qed.
