(** Proofs about decoding UTF-8 and about names. *)
From Coq Require Import Strings.String Strings.Ascii NArith ZArith List Bool Lia Arith.
From Verif Require Term_proofs.
From Verif Require Import GoStr Letters Syntax Value Model Sqlf Spec_syntax Spec_eval Spec_base Spec_utf8 Lex_proofs Text_proofs Use_proofs.
Import ListNotations.
Open Scope string_scope.

Lemma code_byte : forall n, (n < 256)%N -> code (ascii_of_N n) = n.
Proof. intros n H. unfold code. apply N_ascii_embedding. exact H. Qed.
Lemma byte_code : forall a, ascii_of_N (code a) = a.
Proof. intros a. unfold code. apply ascii_N_embedding. Qed.

(** The digits to the base 64. *)
Lemma digits : forall r, exists a b c d, (r = a * 262144 + b * 4096 + c * 64 + d /\ b < 64 /\ c < 64 /\ d < 64 /\
  r mod 64 = d /\ r / 64 = a * 4096 + b * 64 + c /\ (r / 64) mod 64 = c /\ r / 4096 = a * 64 + b /\ (r / 4096) mod 64 = b /\ r / 262144 = a)%N.
Proof.
  intros r. exists (r / 64 / 64 / 64)%N, ((r / 64 / 64) mod 64)%N, ((r / 64) mod 64)%N, (r mod 64)%N.
  pose proof (N.div_mod r 64 ltac:(discriminate)) as A. pose proof (N.div_mod (r / 64) 64 ltac:(discriminate)) as B.
  pose proof (N.div_mod (r / 64 / 64) 64 ltac:(discriminate)) as C.
  pose proof (N.mod_lt r 64 ltac:(discriminate)) as A'. pose proof (N.mod_lt (r / 64) 64 ltac:(discriminate)) as B'.
  pose proof (N.mod_lt (r / 64 / 64) 64 ltac:(discriminate)) as C'.
  assert (D : (r / 4096 = r / 64 / 64)%N) by (symmetry; apply (N.div_div r 64 64); discriminate).
  assert (E : (r / 262144 = r / 64 / 64 / 64)%N).
  { rewrite <- D. symmetry. apply (N.div_div r 4096 64); discriminate. }
  rewrite D, E. repeat apply conj; try reflexivity; try assumption; lia.
Qed.

Inductive form : N -> string -> Prop :=
| fo1 r : (r < 128)%N -> form r (bytes [r])
| fo2 r b0 b1 : (194 <= b0 <= 223)%N -> (128 <= b1 <= 191)%N -> r = ((b0 - 192) * 64 + (b1 - 128))%N -> form r (bytes [b0; b1])
| fo3 r b0 b1 b2 : (224 <= b0 <= 239)%N -> (128 <= b1 <= 191)%N -> (b0 = 224%N -> (160 <= b1)%N) -> (b0 = 237%N -> (b1 <= 159)%N) -> (128 <= b2 <= 191)%N ->
    r = ((b0 - 224) * 4096 + (b1 - 128) * 64 + (b2 - 128))%N -> form r (bytes [b0; b1; b2])
| fo4 r b0 b1 b2 b3 : (240 <= b0 <= 244)%N -> (128 <= b1 <= 191)%N -> (b0 = 240%N -> (144 <= b1)%N) -> (b0 = 244%N -> (b1 <= 143)%N) -> (128 <= b2 <= 191)%N -> (128 <= b3 <= 191)%N ->
    r = ((b0 - 240) * 262144 + (b1 - 128) * 4096 + (b2 - 128) * 64 + (b3 - 128))%N -> form r (bytes [b0; b1; b2; b3]).

Lemma utf8_form : forall r, scalar r -> form r (utf8 r).
Proof.
  intros r H. unfold scalar in H. unfold utf8. destruct (digits r) as (a & b & c & d & E & Hb & Hc & Hd & E1 & E2 & E3 & E4 & E5 & E6).
  destruct (r <? 128)%N eqn:K1; [apply N.ltb_lt in K1; apply fo1; exact K1|]. apply N.ltb_ge in K1.
  destruct (r <? 2048)%N eqn:K2; [apply N.ltb_lt in K2; rewrite E1, E2; apply fo2; lia|]. apply N.ltb_ge in K2.
  destruct (r <? 65536)%N eqn:K3; [apply N.ltb_lt in K3; rewrite E1, E3, E4; apply fo3; lia|]. apply N.ltb_ge in K3.
  rewrite E1, E3, E5, E6. apply fo4; lia.
Qed.
Lemma form_utf8 : forall r s, form r s -> scalar r /\ s = utf8 r.
Proof.
  intros r s H. unfold scalar, utf8. destruct (digits r) as (a & b & c & d & E & Hb & Hc & Hd & E1 & E2 & E3 & E4 & E5 & E6).
  destruct H as [r K|r b0 b1 K0 K1 K|r b0 b1 b2 K0 K1 L1 L2 K2 K|r b0 b1 b2 b3 K0 K1 L1 L2 K2 K3 K].
  - rewrite (proj2 (N.ltb_lt r 128) K). split; [lia|reflexivity].
  - rewrite (proj2 (N.ltb_ge r 128)), (proj2 (N.ltb_lt r 2048)) by lia. split; [lia|]. rewrite E1, E2. repeat f_equal; lia.
  - assert (2048 <= r < 65536)%N by (destruct (N.eq_dec b0 224); lia).
    rewrite (proj2 (N.ltb_ge r 128)), (proj2 (N.ltb_ge r 2048)), (proj2 (N.ltb_lt r 65536)) by lia.
    split; [destruct (N.eq_dec b0 237); lia|]. rewrite E1, E3, E4. repeat f_equal; lia.
  - assert (65536 <= r < 1114112)%N by (destruct (N.eq_dec b0 240); destruct (N.eq_dec b0 244); lia).
    rewrite (proj2 (N.ltb_ge r 128)), (proj2 (N.ltb_ge r 2048)), (proj2 (N.ltb_ge r 65536)) by lia.
    split; [lia|]. rewrite E1, E3, E5, E6. repeat f_equal; lia.
Qed.

Lemma in_range_iff : forall b lo hi, in_range b lo hi = true <-> (lo <= b <= hi)%N.
Proof. intros b lo hi. unfold in_range. rewrite andb_true_iff, !N.leb_le. tauto. Qed.
Lemma in_range_not : forall b lo hi, in_range b lo hi = false <-> ~ (lo <= b <= hi)%N.
Proof. intros b lo hi. rewrite <- in_range_iff. destruct (in_range b lo hi); split; congruence. Qed.

Ltac yes := rewrite (proj2 (in_range_iff _ _ _)) by lia.
Ltac no := rewrite (proj2 (in_range_not _ _ _)) by lia.
Ltac low := match goal with |- context [(?b <? 128)%N] => rewrite (proj2 (N.ltb_ge b 128)) by lia end.

Lemma form_decode : forall r u s, form r u -> decode_rune (u ++ s) = (r, String.length u).
Proof.
  intros r u s H.
  destruct H as [r K|r b0 b1 K0 K1 K|r b0 b1 b2 K0 K1 L1 L2 K2 K|r b0 b1 b2 b3 K0 K1 L1 L2 K2 K3 K];
    cbn [bytes fold_right append decode_rune String.length]; rewrite !code_byte by lia.
  - rewrite (proj2 (N.ltb_lt r 128) K). reflexivity.
  - low. yes. yes. subst r. reflexivity.
  - low. no. yes. subst r. destruct (N.eqb_spec b0 224) as [A|A]; destruct (N.eqb_spec b0 237) as [B|B]; yes; yes; reflexivity.
  - low. no. no. yes. subst r. destruct (N.eqb_spec b0 240) as [A|A]; destruct (N.eqb_spec b0 244) as [B|B]; yes; yes; yes; reflexivity.
Qed.
Theorem decode_encoded : forall r s, scalar r -> decode_rune (utf8 r ++ s) = (r, String.length (utf8 r)).
Proof. intros r s H. apply form_decode, utf8_form, H. Qed.

Lemma decode_cases : forall s, s <> "" ->
  (exists r t, form r t /\ decode_rune s = (r, String.length t) /\ exists u, s = t ++ u) \/ decode_rune s = (rune_error, 1).
Proof.
  intros [|a0 s] Hne; [contradiction|].
  unfold decode_rune. destruct (code a0 <? 128)%N eqn:K1.
  { apply N.ltb_lt in K1. left. exists (code a0), (bytes [code a0]). split; [apply fo1; exact K1|].
    cbn [bytes fold_right]. rewrite byte_code. split; [reflexivity|exists s; reflexivity]. }
  apply N.ltb_ge in K1.
  destruct (in_range (code a0) 194 223) eqn:K2.
  { apply in_range_iff in K2. destruct s as [|a1 s]; [right; reflexivity|]. destruct (in_range (code a1) 128 191) eqn:R1; [|right; reflexivity].
    apply in_range_iff in R1. left. eexists. exists (bytes [code a0; code a1]). split; [apply fo2; [exact K2|exact R1|reflexivity]|].
    cbn [bytes fold_right]. rewrite !byte_code. split; [reflexivity|exists s; reflexivity]. }
  destruct (in_range (code a0) 224 239) eqn:K3.
  { apply in_range_iff in K3. destruct s as [|a1 [|a2 s]]; [right; reflexivity|right; reflexivity|].
    match goal with |- context [if ?c then _ else _] => destruct c eqn:R end; [|right; reflexivity].
    apply andb_prop in R as [R1 R2]. apply in_range_iff in R1, R2.
    left. eexists. exists (bytes [code a0; code a1; code a2]). split.
    - apply fo3; [exact K3| | | |exact R2|reflexivity]; destruct (N.eqb_spec (code a0) 224) as [A|A]; destruct (N.eqb_spec (code a0) 237) as [B|B]; lia.
    - cbn [bytes fold_right]. rewrite !byte_code. split; [reflexivity|exists s; reflexivity]. }
  destruct (in_range (code a0) 240 244) eqn:K4; [|right; reflexivity].
  apply in_range_iff in K4. destruct s as [|a1 [|a2 [|a3 s]]]; [right; reflexivity|right; reflexivity|right; reflexivity|].
  match goal with |- context [if ?c then _ else _] => destruct c eqn:R end; [|right; reflexivity].
  apply andb_prop in R as [R R3]. apply andb_prop in R as [R1 R2]. apply in_range_iff in R1, R2, R3.
  left. eexists. exists (bytes [code a0; code a1; code a2; code a3]). split.
  - apply fo4; [exact K4| | | |exact R2|exact R3|reflexivity]; destruct (N.eqb_spec (code a0) 240) as [A|A]; destruct (N.eqb_spec (code a0) 244) as [B|B]; lia.
  - cbn [bytes fold_right]. rewrite !byte_code. split; [reflexivity|exists s; reflexivity].
Qed.
Theorem decode_invalid : forall s, s <> "" -> (forall r t, scalar r -> s <> utf8 r ++ t) -> decode_rune s = (rune_error, 1).
Proof.
  intros s Hs H. destruct (decode_cases s Hs) as [(r & t & F & _ & u & E)|E]; [|exact E].
  apply form_utf8 in F as [Sr ->]. exfalso. exact (H r u Sr E).
Qed.
Theorem encoding_unique : forall r q s t, scalar r -> scalar q -> utf8 r ++ s = utf8 q ++ t -> r = q /\ s = t.
Proof.
  intros r q s t Hr Hq E. pose proof (decode_encoded r s Hr) as A. rewrite E, (decode_encoded q t Hq) in A. injection A as A _. subst q.
  split; [reflexivity|]. pose proof (f_equal (str_drop (String.length (utf8 r))) E) as D. rewrite !drop_append in D. exact D.
Qed.

(** From the end. *)
Ltac nostart := match goal with |- context [rune_start ?a] =>
  let K := fresh in assert (K : rune_start a = false) by (unfold rune_start; rewrite code_byte by lia; yes; reflexivity); rewrite K; clear K end.
Ltac start := match goal with |- context [rune_start ?a] =>
  let K := fresh in assert (K : rune_start a = true) by (unfold rune_start; rewrite code_byte by lia; no; reflexivity); rewrite K; clear K end.
Lemma form_last : forall r u s, form r u -> decode_last_rune (str_rev (s ++ u)) = (r, String.length u).
Proof.
  intros r u s H. rewrite rev_app. pose proof (form_decode r u "" H) as D. rewrite append_nil_r in D.
  destruct H as [r K|r b0 b1 K0 K1 K|r b0 b1 b2 K0 K1 L1 L2 K2 K|r b0 b1 b2 b3 K0 K1 L1 L2 K2 K3 K];
    cbn [bytes fold_right] in D |- *; unfold str_rev at 1; cbn [str_rev_acc append decode_last_rune].
  - rewrite code_byte by lia. rewrite (proj2 (N.ltb_lt r 128) K). reflexivity.
  - rewrite code_byte by lia. low. start. rewrite D. reflexivity.
  - rewrite code_byte by lia. low. nostart. start. rewrite D. reflexivity.
  - rewrite code_byte by lia. low. nostart. nostart. start. rewrite D. reflexivity.
Qed.
Theorem decode_last_encoded : forall r s, scalar r -> decode_last_rune (str_rev (s ++ utf8 r)) = (r, String.length (utf8 r)).
Proof. intros r s H. apply form_last, utf8_form, H. Qed.

Lemma check_invalid : forall k bs s, 2 <= k -> String.length bs = k -> (exists x, s = x ++ bs) -> (forall r t, scalar r -> s <> t ++ utf8 r) ->
  (let (r, w) := decode_rune bs in if Nat.eqb w k then (r, k) else (rune_error, 1)) = (rune_error, 1).
Proof.
  intros k bs s Hk Hl (x & Ex) H. destruct (decode_cases bs) as [(r & t & F & D & u & E)|D].
  - intros E. subst bs. cbn in Hl. lia.
  - rewrite D. destruct (Nat.eqb (String.length t) k) eqn:L; [|reflexivity]. apply Nat.eqb_eq in L. exfalso.
    rewrite E, Term_proofs.length_app in Hl. destruct u as [|a u]; [|cbn in Hl; lia]. rewrite append_nil_r in E. subst t.
    apply form_utf8 in F as [Sr ->]. exact (H r x Sr Ex).
  - rewrite D. destruct (Nat.eqb 1 k) eqn:L; [apply Nat.eqb_eq in L; lia|reflexivity].
Qed.
Theorem decode_last_invalid : forall s, s <> "" -> (forall r t, scalar r -> s <> t ++ utf8 r) -> decode_last_rune (str_rev s) = (rune_error, 1).
Proof.
  intros s Hs H. destruct (str_rev s) as [|a0 r0] eqn:E; [pose proof (rev_rev s) as R; rewrite E in R; cbn in R; congruence|].
  assert (G : s = str_rev (String a0 r0)) by (rewrite <- E, rev_rev; reflexivity).
  unfold decode_last_rune. destruct (code a0 <? 128)%N eqn:K.
  { apply N.ltb_lt in K. exfalso. apply (H (code a0) (str_rev r0)); [unfold scalar; lia|]. unfold utf8. rewrite (proj2 (N.ltb_lt _ _) K).
    cbn [bytes fold_right]. rewrite byte_code. rewrite G. apply rev_cons. }
  destruct r0 as [|a1 r1]; [reflexivity|].
  destruct (rune_start a1).
  { apply (check_invalid 2 _ s); [lia|reflexivity| |exact H]. exists (str_rev r1). rewrite G, !rev_cons, !append_assoc. reflexivity. }
  destruct r1 as [|a2 r2]; [reflexivity|]. destruct (rune_start a2).
  { apply (check_invalid 3 _ s); [lia|reflexivity| |exact H]. exists (str_rev r2). rewrite G, !rev_cons, !append_assoc. reflexivity. }
  destruct r2 as [|a3 r3]; [reflexivity|]. destruct (rune_start a3); [|reflexivity].
  apply (check_invalid 4 _ s); [lia|reflexivity| |exact H]. exists (str_rev r3). rewrite G, !rev_cons, !append_assoc. reflexivity.
Qed.
Lemma utf8_length : forall r, 1 <= String.length (utf8 r).
Proof. intros r. unfold utf8. repeat match goal with |- context [if ?c then _ else _] => destruct c end; cbn [bytes fold_right String.length]; lia. Qed.

(** Letters. *)
Lemma letter_iff : forall r, unicode_letter r = true <-> letter r.
Proof.
  intros r. unfold unicode_letter, letter. rewrite existsb_exists. split.
  - intros ([lo hi] & H & K). cbn [fst snd] in K. apply in_range_iff in K. eauto.
  - intros (lo & hi & H & K). exists (lo, hi). split; [exact H|]. apply in_range_iff. exact K.
Qed.
Lemma letter_valid : forall r, letter r -> scalar r /\ r <> rune_error.
Proof.
  intros r (lo & hi & H & K). assert (F : forallb (fun x => (snd x <? 55296)%N || ((57344 <=? fst x)%N && (snd x <? 65533)%N) || ((65533 <? fst x)%N && (snd x <? 1114112)%N)) letter_ranges = true) by (vm_compute; reflexivity).
  rewrite forallb_forall in F. specialize (F _ H). cbn [fst snd] in F. unfold scalar, rune_error.
  rewrite !orb_true_iff, !andb_true_iff, !N.ltb_lt, N.leb_le in F. lia.
Qed.
Theorem latin_table : forall r, (r < 592)%N -> (letter r <-> In (utf8 r) latin_letters).
Proof.
  assert (F : forallb (fun r => Bool.eqb (unicode_letter r) (existsb (String.eqb (utf8 r)) latin_letters)) (map N.of_nat (seq 0 592)) = true) by (vm_compute; reflexivity).
  intros r H. rewrite forallb_forall in F. specialize (F r). apply Bool.eqb_prop in F.
  - rewrite <- letter_iff, F, existsb_exists. split; [intros (x & Hx & E); apply String.eqb_eq in E; subst x; exact Hx|].
    intros Hx. exists (utf8 r). split; [exact Hx|apply String.eqb_refl].
  - apply in_map_iff. exists (N.to_nat r). split; [lia|]. apply in_seq. lia.
Qed.
Lemma apart_check : forall l, (fix go (l : list (N * N)) := match l with [] => true | (lo, hi) :: l' => (lo <=? hi)%N && match l' with [] => true | (lo', _) :: _ => (hi + 1 <? lo')%N end && go l' end) l = true -> apart l.
Proof.
  induction l as [|[lo hi] l IH]; intros H; [exact Logic.I|]. apply andb_prop in H as [H G]. apply andb_prop in H as [H1 H2].
  cbn [apart]. apply conj; [apply N.leb_le; exact H1|]. apply conj; [|apply IH; exact G]. destruct l as [|[lo' hi'] l]; [exact Logic.I|]. apply N.ltb_lt. exact H2.
Qed.
Theorem table_shape : apart letter_ranges /\ counted letter_ranges = (1831 + 2233 + 31 + 397 + 131612)%N /\ forall r, letter r -> scalar r.
Proof.
  apply conj; [apply apart_check; vm_compute; reflexivity|]. apply conj; [vm_compute; reflexivity|]. intros r H. apply letter_valid, H.
Qed.

Definition name_rune (r : N) : Prop := r = 95%N \/ letter r.
Lemma name_rune_iff : forall r, (N.eqb r 95 || unicode_letter r) = true <-> name_rune r.
Proof. intros r. rewrite orb_true_iff, N.eqb_eq, letter_iff. reflexivity. Qed.
Lemma name_rune_valid : forall r, name_rune r -> scalar r /\ r <> rune_error.
Proof. intros r [->|H]; [unfold scalar, rune_error; split; [lia|discriminate]|apply letter_valid, H]. Qed.
Lemma encoded_cons : forall r rs, encoded (r :: rs) = utf8 r ++ encoded rs.
Proof. intros r [|q rs]; [unfold encoded; cbn; symmetry; apply append_nil_r|reflexivity]. Qed.
Lemma good_name_runes : forall n s, String.length s <= n -> (good_name_f n s = true <-> exists rs, s = encoded rs /\ Forall name_rune rs).
Proof.
  induction n as [|n IH]; intros s Hn.
  - destruct s as [|a s]; [|cbn in Hn; lia]. split; [intros _; exists []; split; [reflexivity|constructor]|reflexivity].
  - destruct s as [|a s]; [split; [intros _; exists []; split; [reflexivity|constructor]|reflexivity]|].
    cbn [good_name_f]. destruct (decode_cases (String a s) ltac:(discriminate)) as [(r & t & F & D & u & E)|D].
    + rewrite D. apply form_utf8 in F as [Sr ->]. rewrite E, drop_append in *. rewrite andb_true_iff, name_rune_iff, IH.
      * split.
        -- intros [A (rs & -> & B)]. exists (r :: rs). split; [symmetry; apply encoded_cons|constructor; assumption].
        -- intros (rs & K & B). destruct rs as [|q rs].
           { pose proof (utf8_length r). destruct (utf8 r); [cbn in H; lia|discriminate K]. }
           inversion B as [|x y B1 B2]; subst. rewrite encoded_cons in K. apply encoding_unique in K as [-> ->]; [|exact Sr|apply name_rune_valid, B1].
           split; [exact B1|]. exists rs. split; [reflexivity|exact B2].
      * rewrite Term_proofs.length_app in Hn. pose proof (utf8_length r). lia.
    + rewrite D. assert (X : (N.eqb rune_error 95 || unicode_letter rune_error) = false) by (vm_compute; reflexivity). rewrite X. cbn [andb].
      split; [discriminate|]. intros (rs & K & B). destruct rs as [|q rs]; [discriminate K|]. inversion B as [|x y B1 B2]; subst.
      rewrite encoded_cons in K. apply name_rune_valid in B1 as [Sq Nq]. rewrite K, (decode_encoded q _ Sq) in D. injection D as D _. contradiction.
Qed.
Theorem names_exactly : forall nm, good_name nm = true <-> identifier nm.
Proof.
  intros nm. unfold good_name, identifier. rewrite andb_true_iff, good_name_runes by lia. split.
  - intros [E (rs & -> & F)]. exists rs. split; [intros ->; discriminate E|]. split; [reflexivity|exact F].
  - intros (rs & N & -> & F). split; [|exists rs; split; [reflexivity|exact F]].
    destruct rs as [|r rs]; [contradiction|]. rewrite encoded_cons. pose proof (utf8_length r). destruct (utf8 r); [cbn in H; lia|reflexivity].
Qed.
