(** Trimming, joining and rendering symbolic texts. *)
From Coq Require Import Strings.String Strings.Ascii NArith ZArith List Bool Lia.
From Verif Require Import GoStr GoNum Syntax Value Util Model Sqlf Sqlb ByteLex Lex_proofs RefSem.
Import ListNotations.
Open Scope string_scope.

(** A byte that is neither white space nor part of a longer encoding. *)
Definition vis (a : ascii) : bool := (code a <? 128)%N && negb (is_space (code a)).

Lemma vis_ascii : forall a, vis a = true -> (code a <? 128)%N = true /\ is_space (code a) = false.
Proof. intros a H. unfold vis in H. apply andb_prop in H as [H1 H2]. apply negb_true_iff in H2. auto. Qed.

Lemma cont_ascii : forall a lo h, (code a <? 128)%N = true -> (128 <= lo)%N -> in_range (code a) lo h = false.
Proof.
  intros a lo h H1 H2. unfold in_range. apply N.ltb_lt in H1.
  destruct (lo <=? code a)%N eqn:E; [apply N.leb_le in E; lia|reflexivity].
Qed.

Lemma cont_lo : forall b : bool, (128 <= if b then 160 else 128)%N.
Proof. intros []; lia. Qed.
Lemma cont_lo2 : forall b : bool, (128 <= if b then 144 else 128)%N.
Proof. intros []; lia. Qed.

Lemma decode_before_ascii : forall a s c x, (code c <? 128)%N = true ->
  decode_rune (String a s ++ String c x) = decode_rune (String a s).
Proof.
  intros a s c x Hc. cbn [append decode_rune].
  destruct (code a <? 128)%N; [reflexivity|].
  destruct (in_range (code a) 194 223).
  { destruct s as [|a1 s]; cbn [append]; [|reflexivity].
    rewrite (cont_ascii c) by (try assumption; lia). reflexivity. }
  destruct (in_range (code a) 224 239).
  { destruct s as [|a1 [|a2 s]]; cbn [append]; [| |reflexivity].
    - destruct x as [|x0 x]; [reflexivity|].
      rewrite (cont_ascii c) by (try assumption; apply cont_lo). reflexivity.
    - rewrite (cont_ascii c 128) by (try assumption; lia). rewrite andb_false_r. reflexivity. }
  destruct (in_range (code a) 240 244).
  { destruct s as [|a1 [|a2 [|a3 s]]]; cbn [append]; [| | |reflexivity].
    - destruct x as [|x0 [|x1 x]]; try reflexivity.
      rewrite (cont_ascii c) by (try assumption; apply cont_lo2). reflexivity.
    - destruct x as [|x0 x]; [reflexivity|].
      rewrite (cont_ascii c 128) by (try assumption; lia). rewrite andb_false_r. reflexivity.
    - rewrite (cont_ascii c 128) by (try assumption; lia). rewrite andb_false_r. reflexivity. }
  reflexivity.
Qed.

Lemma decode_width_le : forall s, snd (decode_rune s) <= String.length s.
Proof.
  intros [|a s]; [apply Nat.le_refl|]. cbn [decode_rune].
  destruct (code a <? 128)%N; [cbn; lia|].
  destruct (in_range (code a) 194 223).
  { destruct s as [|a1 s]; [cbn; lia|]. destruct (in_range (code a1) 128 191); cbn; lia. }
  destruct (in_range (code a) 224 239).
  { destruct s as [|a1 [|a2 s]]; [cbn; lia|cbn; lia|].
    destruct (_ && _); cbn; lia. }
  destruct (in_range (code a) 240 244).
  { destruct s as [|a1 [|a2 [|a3 s]]]; [cbn; lia|cbn; lia|cbn; lia|].
    destruct (_ && _); cbn; lia. }
  cbn; lia.
Qed.

Lemma drop_app_le : forall n u v, n <= String.length u -> str_drop n (u ++ v) = str_drop n u ++ v.
Proof.
  induction n as [|n IH]; intros u v H; [reflexivity|].
  destruct u as [|a u]; [simpl in H; lia|]. cbn in *. apply IH. lia.
Qed.

Lemma trim_left_vis : forall c x, vis c = true -> trim_left (String c x) = String c x.
Proof.
  intros c x H. apply vis_ascii in H as [H1 H2]. unfold trim_left. cbn [String.length trim_left_f].
  rewrite decode_ascii by exact H1. rewrite H2. reflexivity.
Qed.

Lemma trim_left_app : forall a c x, vis c = true ->
  trim_left (a ++ String c x) = trim_left a ++ String c x.
Proof.
  intros a c x Hc.
  assert (G : forall n a, String.length a <= n -> trim_left (a ++ String c x) = trim_left a ++ String c x).
  { clear a. induction n as [|n IH]; intros a Hn.
    - destruct a; [|simpl in Hn; lia]. apply trim_left_vis; exact Hc.
    - destruct a as [|b a]; [apply trim_left_vis; exact Hc|].
      unfold trim_left. cbn [append String.length trim_left_f].
      change (String b (a ++ String c x)) with (String b a ++ String c x).
      rewrite decode_before_ascii by (apply vis_ascii in Hc; tauto).
      pose proof (decode_width_le (String b a)) as Lw.
      destruct (decode_rune (String b a)) as [r w] eqn:Ed.
      pose proof (decode_width_pos _ _ _ _ Ed) as Pw. cbn [snd] in Lw.
      cbn [append is_empty negb andb]. destruct (is_space r); [|reflexivity].
      change (String b (a ++ String c x)) with (String b a ++ String c x).
      rewrite drop_app_le by exact Lw.
      cbn [String.length] in Hn, Lw.
      assert (Ll : String.length (str_drop w (String b a)) <= n) by (rewrite length_drop; cbn [String.length]; lia).
      specialize (IH _ Ll). unfold trim_left in IH.
      rewrite (trim_left_fuel _ (String.length (str_drop w (String b a) ++ String c x))) by
        (rewrite ?length_append, ?length_drop; cbn [String.length]; lia).
      rewrite (trim_left_fuel (String.length a) (String.length (str_drop w (String b a)))) by
        (rewrite ?length_append, ?length_drop; cbn [String.length]; lia).
      exact IH. }
  exact (G _ a (Nat.le_refl _)).
Qed.

(* ------------------------------------------------------------------ *)
(** * The reversed side *)

Lemma rev_acc_app : forall s acc x, str_rev_acc s (acc ++ x) = str_rev_acc s acc ++ x.
Proof. induction s as [|a s IH]; intros acc x; [reflexivity|]. cbn. rewrite <- IH. reflexivity. Qed.
Lemma rev_acc : forall s acc, str_rev_acc s acc = str_rev s ++ acc.
Proof. intros s acc. unfold str_rev. rewrite <- rev_acc_app. reflexivity. Qed.
Lemma rev_cons : forall a s, str_rev (String a s) = str_rev s ++ String a "".
Proof. intros a s. unfold str_rev at 1. cbn. apply rev_acc. Qed.
Lemma rev_app : forall u v, str_rev (u ++ v) = str_rev v ++ str_rev u.
Proof.
  induction u as [|a u IH]; intros v.
  - cbn [append]. change (str_rev "") with "". rewrite append_nil_r. reflexivity.
  - cbn [append]. rewrite !rev_cons, IH, append_assoc. reflexivity.
Qed.
Lemma rev_rev : forall s, str_rev (str_rev s) = s.
Proof. induction s as [|a s IH]; [reflexivity|]. rewrite rev_cons, rev_app, IH. reflexivity. Qed.
Lemma length_rev : forall s, String.length (str_rev s) = String.length s.
Proof.
  induction s as [|a s IH]; [reflexivity|]. rewrite rev_cons, length_append, IH. cbn. lia.
Qed.

Lemma rune_start_ascii : forall c, (code c <? 128)%N = true -> rune_start c = true.
Proof. intros c H. unfold rune_start. rewrite cont_ascii by (try assumption; lia). reflexivity. Qed.

Lemma last_before_ascii : forall a s c x, (code c <? 128)%N = true ->
  decode_last_rune (String a s ++ String c x) = decode_last_rune (String a s).
Proof.
  intros a s c x Hc. cbn [append decode_last_rune].
  destruct (code a <? 128)%N; [reflexivity|].
  destruct s as [|a1 s]; cbn [append].
  { rewrite rune_start_ascii by exact Hc. rewrite decode_ascii by exact Hc. reflexivity. }
  destruct (rune_start a1); [reflexivity|].
  destruct s as [|a2 s]; cbn [append].
  { rewrite rune_start_ascii by exact Hc. rewrite decode_ascii by exact Hc. reflexivity. }
  destruct (rune_start a2); [reflexivity|].
  destruct s as [|a3 s]; cbn [append].
  { rewrite rune_start_ascii by exact Hc. rewrite decode_ascii by exact Hc. reflexivity. }
  reflexivity.
Qed.

Lemma last_width : forall a s, 1 <= snd (decode_last_rune (String a s)) <= String.length (String a s).
Proof.
  intros a s. cbn [decode_last_rune].
  destruct (code a <? 128)%N; [cbn; lia|].
  destruct s as [|a1 s]; [cbn; lia|]. destruct (rune_start a1).
  { destruct (decode_rune _) as [r w]. destruct (Nat.eqb w 2); cbn; lia. }
  destruct s as [|a2 s]; [cbn; lia|]. destruct (rune_start a2).
  { destruct (decode_rune _) as [r w]. destruct (Nat.eqb w 3); cbn; lia. }
  destruct s as [|a3 s]; [cbn; lia|]. destruct (rune_start a3).
  { destruct (decode_rune _) as [r w]. destruct (Nat.eqb w 4); cbn; lia. }
  cbn; lia.
Qed.

Definition trim_rev (s : string) : string := trim_rev_f (String.length s) s.

Lemma trim_rev_fuel : forall n m s, String.length s <= n -> String.length s <= m ->
  trim_rev_f n s = trim_rev_f m s.
Proof.
  induction n as [|n IH]; intros m s Hn Hm.
  - destruct s; [|simpl in Hn; lia]. destruct m; reflexivity.
  - destruct s as [|a s]; [destruct m; reflexivity|].
    destruct m as [|m]; [simpl in Hm; lia|]. cbn [trim_rev_f].
    pose proof (last_width a s) as L. destruct (decode_last_rune (String a s)) as [r w].
    cbn [snd] in L. cbn [is_empty negb andb]. destruct (is_space r); [|reflexivity].
    cbn [String.length] in *. apply IH; rewrite length_drop; cbn [String.length]; lia.
Qed.

Lemma trim_rev_vis : forall c x, vis c = true -> trim_rev (String c x) = String c x.
Proof.
  intros c x H. apply vis_ascii in H as [H1 H2]. unfold trim_rev. cbn [String.length trim_rev_f].
  assert (E : decode_last_rune (String c x) = (code c, 1)) by (cbn [decode_last_rune]; rewrite H1; reflexivity).
  rewrite E. rewrite H2. reflexivity.
Qed.

Lemma trim_rev_app : forall a c x, vis c = true ->
  trim_rev (a ++ String c x) = trim_rev a ++ String c x.
Proof.
  intros a c x Hc.
  assert (G : forall n a, String.length a <= n -> trim_rev (a ++ String c x) = trim_rev a ++ String c x).
  { clear a. induction n as [|n IH]; intros a Hn.
    - destruct a; [|simpl in Hn; lia]. apply trim_rev_vis; exact Hc.
    - destruct a as [|b a]; [apply trim_rev_vis; exact Hc|].
      unfold trim_rev. cbn [append String.length trim_rev_f].
      change (String b (a ++ String c x)) with (String b a ++ String c x).
      rewrite last_before_ascii by (apply vis_ascii in Hc; tauto).
      pose proof (last_width b a) as Lw.
      destruct (decode_last_rune (String b a)) as [r w] eqn:Ed. cbn [snd] in Lw.
      cbn [append is_empty negb andb]. destruct (is_space r); [|reflexivity].
      change (String b (a ++ String c x)) with (String b a ++ String c x).
      rewrite drop_app_le by lia.
      cbn [String.length] in Hn, Lw.
      assert (Ll : String.length (str_drop w (String b a)) <= n) by (rewrite length_drop; cbn [String.length]; lia).
      specialize (IH _ Ll). unfold trim_rev in IH.
      rewrite (trim_rev_fuel _ (String.length (str_drop w (String b a) ++ String c x))) by
        (rewrite ?length_append, ?length_drop; cbn [String.length]; lia).
      rewrite (trim_rev_fuel (String.length a) (String.length (str_drop w (String b a)))) by
        (rewrite ?length_append, ?length_drop; cbn [String.length]; lia).
      exact IH. }
  exact (G _ a (Nat.le_refl _)).
Qed.

Lemma trim_right_rev : forall s, trim_right s = str_rev (trim_rev (str_rev s)).
Proof. intros s. unfold trim_right, trim_rev. rewrite length_rev. reflexivity. Qed.

Lemma trim_right_app : forall x c s, vis c = true ->
  trim_right (x ++ String c s) = x ++ String c (trim_right s).
Proof.
  intros x c s Hc. rewrite !trim_right_rev.
  rewrite rev_app, rev_cons, append_assoc. cbn [append].
  rewrite trim_rev_app by exact Hc.
  rewrite rev_app, rev_cons, rev_rev, append_assoc. reflexivity.
Qed.

(* ------------------------------------------------------------------ *)
(** * Rendering *)

(** A visible string: starts and ends with a visible byte. *)
Definition vis_str (s : string) : Prop :=
  (exists a r, s = String a r /\ vis a = true) /\ (exists r a, s = r ++ String a "" /\ vis a = true).

Definition tail_of (q : nat -> string) (l : list (nat * string)) : string :=
  fold_right (fun x r => q (fst x) ++ snd x ++ r) "" l.

Lemma render_eq : forall q s l, render q (s, l) = s ++ tail_of q l.
Proof. reflexivity. Qed.

Lemma render_lit : forall q s, render q (tlit s) = s.
Proof. intros q s. unfold tlit. rewrite render_eq. apply append_nil_r. Qed.

Lemma render_ph : forall q j, render q (tph j) = q j.
Proof. intros q j. unfold tph. rewrite render_eq. cbn. apply append_nil_r. Qed.

Lemma render_cat : forall q l a y, render q (tcat a l y) = a ++ tail_of q l ++ render q y.
Proof.
  intros q. induction l as [|[j s] l IH]; intros a [b m].
  - cbn [tcat fst snd tail_of fold_right append]. rewrite !render_eq, append_assoc. reflexivity.
  - cbn [tcat]. specialize (IH s (b, m)). destruct (tcat s l (b, m)) as [r0 rl].
    rewrite render_eq in IH |- *. cbn [fst snd tail_of fold_right] in *. fold (tail_of q rl).
    fold (tail_of q l). rewrite !append_assoc. rewrite IH. reflexivity.
Qed.

Lemma render_app : forall q x y, render q (tapp x y) = render q x ++ render q y.
Proof.
  intros q [a l] y. unfold tapp. cbn [fst snd]. rewrite render_cat, render_eq, append_assoc. reflexivity.
Qed.

Lemma render_empty : forall q t, (forall j, In j (placeholders t) -> q j <> "") ->
  is_empty (render q t) = tempty t.
Proof.
  intros q [a l] H. rewrite render_eq. unfold tempty. cbn [fst snd].
  destruct a as [|c a]; [|reflexivity]. cbn [append is_empty andb].
  destruct l as [|[j s] l]; [reflexivity|]. cbn [tail_of fold_right fst].
  specialize (H j). cbn in H. destruct (q j); [exfalso; apply H; auto|reflexivity].
Qed.

Lemma tempty_render : forall q t, tempty t = true -> render q t = "".
Proof.
  intros q [a l] H. unfold tempty in H. cbn [fst snd] in H. apply andb_prop in H as [H1 H2].
  apply is_empty_true in H1. destruct l; [|discriminate]. subst. reflexivity.
Qed.

Lemma trim_tail : forall q l, (forall j, In j (map fst l) -> vis_str (q j)) -> l <> [] ->
  forall x, trim_right (x ++ tail_of q l) = x ++ tail_of q (trim_last l).
Proof.
  intros q l. induction l as [|[j s] l IH]; intros H Hne x; [contradiction|].
  cbn [tail_of fold_right fst snd]. fold (tail_of q l).
  destruct l as [|p l].
  - cbn [tail_of fold_right trim_last fst snd]. rewrite !append_nil_r.
    destruct (H j (or_introl eq_refl)) as [_ [r [c [E Hc]]]]. rewrite E.
    rewrite !append_assoc. rewrite <- (append_assoc x r).
    cbn [append]. rewrite trim_right_app by exact Hc. rewrite append_assoc. reflexivity.
  - cbn [trim_last tail_of fold_right fst snd].
    rewrite <- (append_assoc (q j)), <- (append_assoc x).
    rewrite IH.
    + cbn [tail_of fold_right]. rewrite !append_assoc. reflexivity.
    + intros k Hk. apply H. right. exact Hk.
    + discriminate.
Qed.

Lemma trim_right_nil : trim_right "" = "".
Proof. reflexivity. Qed.

Lemma render_trim : forall q t, (forall j, In j (placeholders t) -> vis_str (q j)) ->
  trim_space (render q t) = render q (ttrim t).
Proof.
  intros q [a l] H. unfold ttrim. cbn [fst snd].
  destruct l as [|[j s] l].
  - rewrite !render_eq. cbn [tail_of fold_right]. rewrite !append_nil_r. reflexivity.
  - rewrite !render_eq. unfold placeholders in H. cbn [snd] in H.
    unfold trim_space.
    assert (E : trim_left (a ++ tail_of q ((j, s) :: l)) = trim_left a ++ tail_of q ((j, s) :: l)).
    { cbn [tail_of fold_right fst snd].
      destruct (H j (or_introl eq_refl)) as [[c [r [E Hc]]] _]. rewrite E. cbn [append].
      apply trim_left_app. exact Hc. }
    rewrite E. apply trim_tail; [exact H|discriminate].
Qed.

Lemma placeholders_trim : forall t, placeholders (ttrim t) = placeholders t.
Proof.
  intros [a l]. unfold ttrim, placeholders. cbn [fst snd]. destruct l as [|x l]; [reflexivity|].
  cbn [snd]. revert x. induction l as [|y l IH]; intros [j s]; [reflexivity|].
  cbn [trim_last map fst]. f_equal. apply IH.
Qed.

Lemma placeholders_cat : forall l a y, placeholders (tcat a l y) = (map fst l ++ placeholders y)%list.
Proof.
  induction l as [|[j s] l IH]; intros a y; [reflexivity|].
  cbn [tcat]. specialize (IH s y). destruct (tcat s l y) as [r0 rl]. unfold placeholders in *.
  cbn [fst snd map app] in *. f_equal. exact IH.
Qed.
Lemma placeholders_app : forall x y, placeholders (tapp x y) = (placeholders x ++ placeholders y)%list.
Proof. intros [a l] y. unfold tapp. apply placeholders_cat. Qed.
Lemma placeholders_lit : forall s, placeholders (tlit s) = [].
Proof. reflexivity. Qed.

Lemma render_join : forall q sep ts, render q (tjoin sep ts) = str_join sep (map (render q) ts).
Proof.
  intros q sep. induction ts as [|t ts IH]; [apply render_lit|].
  destruct ts as [|u ts]; [reflexivity|].
  change (tjoin sep (t :: u :: ts)) with (tapp t (tapp (tlit sep) (tjoin sep (u :: ts)))).
  rewrite !render_app, render_lit, IH. reflexivity.
Qed.
Lemma placeholders_join : forall sep ts, placeholders (tjoin sep ts) = concat (map placeholders ts).
Proof.
  intros sep. induction ts as [|t ts IH]; [reflexivity|].
  destruct ts as [|u ts]; [cbn; rewrite app_nil_r; reflexivity|].
  change (tjoin sep (t :: u :: ts)) with (tapp t (tapp (tlit sep) (tjoin sep (u :: ts)))).
  rewrite !placeholders_app, placeholders_lit, IH. reflexivity.
Qed.

Lemma render_ext : forall q p t, (forall j, In j (placeholders t) -> q j = p j) -> render q t = render p t.
Proof.
  intros q p [a l]. rewrite !render_eq. unfold placeholders. cbn [snd]. intros H. f_equal.
  induction l as [|[j s] l IH]; [reflexivity|]. cbn [tail_of fold_right fst snd].
  rewrite H by (left; reflexivity). f_equal. f_equal. apply IH. intros k Hk. apply H. right. exact Hk.
Qed.
