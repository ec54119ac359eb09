(** Closed parts give closed texts. *)
From Coq Require Import Strings.String Strings.Ascii NArith ZArith List Bool Lia.
From Verif Require Import GoStr GoNum Syntax Value Util Model Sqlf Sqlb Spec_base Spec_syntax Spec_eval Spec_query Spec_intact
  Lex_proofs Num_proofs Grammar_proofs Base_proofs Eval_proofs Use_proofs Query_proofs Clause_proofs.
Import ListNotations.
Open Scope string_scope.

(* ------------------------------------------------------------------ *)
(** * Reading *)
Lemma reading_app : forall a b d q, reading d q (a ++ b) =
  match reading d q a with Some (d', q') => reading d' q' b | None => None end.
Proof.
  induction a as [|x a IH]; intros b d q; [reflexivity|]. cbn [append reading]. destruct q as [c|]; [apply IH|].
  destruct (is_quote x); [apply IH|]. destruct (Ascii.eqb x "("); [apply IH|]. destruct (Ascii.eqb x ")"); [|apply IH]. destruct d; [reflexivity|apply IH].
Qed.
Lemma reading_up : forall s d q d' q' k, reading d q s = Some (d', q') -> reading (d + k) q s = Some (d' + k, q').
Proof.
  induction s as [|x s IH]; intros d q d' q' k H; cbn [reading] in *; [injection H as <- <-; reflexivity|]. destruct q as [c|]; [apply IH; exact H|].
  destruct (is_quote x); [apply IH; exact H|]. destruct (Ascii.eqb x "("); [change (S (d + k)) with (S d + k); apply IH; exact H|].
  destruct (Ascii.eqb x ")"); [|apply IH; exact H]. destruct d as [|d]; [discriminate|]. cbn [Nat.add]. apply IH. exact H.
Qed.
Lemma in_quotes : forall b q d s, all (fun a => negb (Ascii.eqb a q)) b = true -> reading d (Some q) (b ++ String q s) = reading d None s.
Proof.
  induction b as [|a b IH]; intros q d s H; cbn [append reading]; [rewrite Ascii.eqb_refl; reflexivity|]. cbn [all] in H. apply andb_prop in H as [H1 H2].
  apply negb_true_iff in H1. rewrite H1. apply IH. exact H2.
Qed.
Lemma enclosed_reading : forall s, enclosed s -> forall d, reading d None s = Some (d, None).
Proof.
  intros s H. induction H as [|a s Hq Hp H IH|q b s Hq Hb H IH|b s Hb IHb Hs IHs]; intros d; [reflexivity|..].
  - cbn [reading]. unfold is_paren in Hp. apply orb_false_iff in Hp as [H1 H2]. rewrite Hq, H1, H2. apply IH.
  - cbn [reading]. rewrite Hq, in_quotes by exact Hb. apply IH.
  - cbn [append reading is_quote Ascii.eqb Bool.eqb orb]. change (is_quote "(") with false. cbn iota. rewrite reading_app, IHb. cbn. apply IHs.
Qed.
(** Text that closes the open parentheses one after the other. *)
Fixpoint tower (d : nat) (s : string) : Prop :=
  match d with O => enclosed s | S d' => exists a b, s = a ++ ")" ++ b /\ enclosed a /\ tower d' b end.
Lemma quote_end : forall s q d, reading d (Some q) s = Some (0, None) ->
  exists b r, s = b ++ String q r /\ all (fun a => negb (Ascii.eqb a q)) b = true /\ reading d None r = Some (0, None).
Proof.
  induction s as [|a s IH]; intros q d H; [discriminate|]. cbn [reading] in H. destruct (Ascii.eqb_spec a q) as [->|N].
  - exists "", s. auto.
  - destruct (IH q d H) as (b & r & -> & Hb & Hr). exists (String a b), r. split; [reflexivity|]. split; [|exact Hr]. cbn [all].
    apply Ascii.eqb_neq in N. rewrite N. exact Hb.
Qed.
Lemma tower_pre : forall d a s, (forall t, enclosed t -> enclosed (a ++ t)) -> tower d s -> tower d (a ++ s).
Proof.
  intros [|d] a s Ha H; cbn [tower] in *; [apply Ha; exact H|]. destruct H as (b & c & -> & Hb & Hc). exists (a ++ b), c. rewrite append_assoc. auto.
Qed.
Lemma reading_tower : forall n s d, String.length s <= n -> reading d None s = Some (0, None) -> tower d s.
Proof.
  induction n as [|n IH]; intros s d Hn H.
  - destruct s; [|cbn in Hn; lia]. injection H as ->. apply en_empty.
  - destruct s as [|a s]; [injection H as ->; apply en_empty|]. cbn [String.length] in Hn. cbn [reading] in H. destruct (is_quote a) eqn:Q.
    + destruct (quote_end _ _ _ H) as (b & r & -> & Hb & Hr). change (String a (b ++ String a r)) with (String a b ++ String a "" ++ r). rewrite <- append_assoc.
      apply tower_pre; [|apply IH; [rewrite length_append in Hn; cbn [String.length] in Hn; lia|exact Hr]].
      intros t Ht. rewrite append_assoc. exact (en_quote a b t Q Hb Ht).
    + destruct (Ascii.eqb_spec a "(") as [->|P1].
      * apply IH in H; [|lia]. destruct H as (b & c & -> & Hb & Hc). change (String "(" (b ++ ")" ++ c)) with ("(" ++ b ++ ")" ++ c).
        replace ("(" ++ b ++ ")" ++ c) with (("(" ++ b ++ ")") ++ c) by (rewrite !append_assoc; reflexivity).
        apply tower_pre; [|exact Hc]. intros t Ht. replace (("(" ++ b ++ ")") ++ t) with ("(" ++ b ++ ")" ++ t) by (rewrite !append_assoc; reflexivity). apply en_paren; assumption.
      * destruct (Ascii.eqb_spec a ")") as [->|P2].
        { destruct d as [|d]; [discriminate|]. apply IH in H; [|lia]. exists "", s. repeat split; [apply en_empty|exact H]. }
        apply IH in H; [|lia]. change (String a s) with (String a "" ++ s). apply tower_pre; [|exact H]. intros t Ht. cbn [append]. apply en_char; [exact Q| |exact Ht].
        unfold is_paren. apply Ascii.eqb_neq in P1, P2. rewrite P1, P2. reflexivity.
Qed.
Theorem enclosed_iff : forall s, enclosed s <-> reading 0 None s = Some (0, None).
Proof. intros s. split; [intros H; apply enclosed_reading; exact H|apply (reading_tower (String.length s) s 0 (Nat.le_refl _))]. Qed.

Lemma enclosed_app : forall a b, enclosed a -> enclosed b -> enclosed (a ++ b).
Proof. intros a b Ha Hb. apply enclosed_iff. rewrite reading_app, (enclosed_reading a Ha). apply enclosed_reading, Hb. Qed.
Theorem enclosed_inside : forall a s b d, enclosed s -> reading 0 None a = Some (d, None) -> reading 0 None (a ++ s ++ b) = reading 0 None (a ++ b).
Proof. intros a s b d Hs Ha. rewrite (reading_app a), (reading_app a), Ha, reading_app, (enclosed_reading s Hs). reflexivity. Qed.
Definition enclosedb (s : string) : bool := match reading 0 None s with Some (0, None) => true | _ => false end.
Lemma enclosedb_ok : forall s, enclosedb s = true -> enclosed s.
Proof. intros s H. apply enclosed_iff. unfold enclosedb in H. destruct (reading 0 None s) as [[[|d] [q|]]|]; try discriminate. reflexivity. Qed.
Ltac enc := apply enclosedb_ok; vm_compute; reflexivity.

(** White space does not matter. *)
Definition idle (a : ascii) : bool := negb (is_quote a) && negb (is_paren a).
Lemma idle_reading : forall s d q, all idle s = true -> (forall c, q = Some c -> is_quote c = true) -> reading d q s = Some (d, q).
Proof.
  induction s as [|a s IH]; intros d q H Hq; [reflexivity|]. cbn [all] in H. apply andb_prop in H as [H1 H2]. unfold idle in H1. apply andb_prop in H1 as [A B].
  apply negb_true_iff in A, B. unfold is_paren in B. apply orb_false_iff in B as [B1 B2]. cbn [reading]. destruct q as [c|].
  - destruct (Ascii.eqb_spec a c) as [->|N]; [rewrite (Hq c eq_refl) in A; discriminate|]. apply IH; assumption.
  - rewrite A, B1, B2. apply IH; assumption.
Qed.
Lemma all_app : forall p a b, all p (a ++ b) = all p a && all p b.
Proof. induction a as [|x a IH]; intros b; [reflexivity|]. cbn. rewrite IH, andb_assoc. reflexivity. Qed.
Lemma blank_idle : forall s, blank s -> all idle s = true.
Proof.
  intros s H. induction H as [|w s Hw H IH]; [reflexivity|]. rewrite all_app, IH, andb_true_r.
  unfold whites in Hw. cbn [map] in Hw. repeat (destruct Hw as [<-|Hw]; [vm_compute; reflexivity|]). destruct Hw.
Qed.
Lemma reading_quote : forall s d q d' q', (forall c, q = Some c -> is_quote c = true) -> reading d q s = Some (d', q') -> forall c, q' = Some c -> is_quote c = true.
Proof.
  induction s as [|a s IH]; intros d q d' q' Hq H; cbn [reading] in H; [injection H as <- <-; exact Hq|]. destruct q as [c0|].
  - eapply IH; [|exact H]. destruct (Ascii.eqb a c0); [discriminate|exact Hq].
  - destruct (is_quote a) eqn:Q; [eapply IH; [|exact H]; intros c [= <-]; exact Q|].
    destruct (Ascii.eqb a "("); [eapply IH; [|exact H]; discriminate|]. destruct (Ascii.eqb a ")"); [|eapply IH; [|exact H]; discriminate].
    destruct d; [discriminate|eapply IH; [|exact H]; discriminate].
Qed.
Lemma enclosed_trim : forall s, enclosed s -> enclosed (trim_space s).
Proof.
  intros s H. destruct (trim_space_trimmed s) as [(a & b & E & Ba & Bb) _]. apply enclosed_iff. apply enclosed_iff in H. rewrite E in H at 1.
  rewrite reading_app, (idle_reading a), reading_app in H; [|apply blank_idle; exact Ba|discriminate].
  destruct (reading 0 None (trim_space s)) as [[d q]|] eqn:R; [|discriminate]. rewrite (idle_reading b) in H; [exact H|apply blank_idle; exact Bb|].
  eapply reading_quote; [|exact R]. discriminate.
Qed.
Lemma enclosed_idle : forall s, all idle s = true -> enclosed s.
Proof. intros s H. apply enclosed_iff. apply idle_reading; [exact H|discriminate]. Qed.
Lemma digits_idle : forall s, all is_digit s = true -> all idle s = true.
Proof.
  induction s as [|a s IH]; [reflexivity|]. cbn [all]. intros H. apply andb_prop in H as [H1 H2]. rewrite (IH H2), andb_true_r.
  destruct a as [[] [] [] [] [] [] [] []]; vm_compute in H1 |- *; try discriminate; reflexivity.
Qed.
Lemma itoa_nat_idle : forall n, all idle (itoa_nat n) = true.
Proof. intros n. apply digits_idle. unfold itoa_nat. destruct (Nat.to_uint n); [reflexivity|..]; apply (all_digits_uint (_ _)). Qed.
Lemma enclosed_join : forall sep l, enclosed sep -> Forall enclosed l -> enclosed (str_join sep l).
Proof.
  intros sep l Hs H. induction H as [|x l Hx H IH]; [apply en_empty|]. destruct l as [|y l]; [exact Hx|]. cbn [str_join] in *.
  apply enclosed_app; [exact Hx|]. apply enclosed_app; [exact Hs|exact IH].
Qed.
