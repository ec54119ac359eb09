(** Equality of argument values and the Dollar argument store. *)
From Coq Require Import Strings.String Strings.Ascii NArith ZArith List Bool Lia.
From Coq Require Import Floats.SpecFloat Numbers.DecimalNat Numbers.DecimalN Numbers.DecimalString.
From Verif Require Import GoStr GoNum Syntax Value Util Model Sqlf Sqlb Spec_syntax ByteLex Lex_proofs Num_proofs RefSem Text_proofs Sim_proofs.
Import ListNotations.
Open Scope string_scope.

(* ------------------------------------------------------------------ *)
(** * Go equality *)

Definition zero_float (a : f64) : bool := match a with S754_zero _ => true | _ => false end.

Lemma pcompare_eq : forall m n, Pos.compare_cont Eq m n = Eq -> m = n.
Proof. intros m n H. apply Pos.compare_eq. exact H. Qed.

Lemma float_eq_iff : forall a b, float_eq a b = true <->
  (zero_float a = true /\ zero_float b = true) \/ (a = b /\ a <> S754_nan).
Proof.
  intros a b. unfold float_eq, SFeqb. split.
  - destruct a as [sa|sa| |sa ma ea], b as [sb|sb| |sb mb eb]; cbn [SFcompare]; intros H; try discriminate H;
      try (left; split; reflexivity);
      try (destruct sa; discriminate H); try (destruct sb; discriminate H).
    + destruct sa, sb; try discriminate H; right; split; congruence.
    + right. destruct sa, sb; try discriminate H;
        destruct (Z.compare ea eb) eqn:E; try discriminate H; apply Z.compare_eq in E; subst eb;
        destruct (Pos.compare_cont Eq ma mb) eqn:E2; try discriminate H; apply pcompare_eq in E2; subst mb; split; congruence.
  - intros [[Ha Hb]|[<- Hn]].
    + destruct a, b; try discriminate; reflexivity.
    + destruct a as [sa|sa| |sa ma ea]; cbn [SFcompare]; try reflexivity; [destruct sa; reflexivity|congruence|].
      rewrite Z.compare_refl. change (Pos.compare_cont Eq ma ma) with (Pos.compare ma ma).
      rewrite Pos.compare_refl. destruct sa; reflexivity.
Qed.

Lemma bool_iff : forall a b : bool, (a = true <-> b = true) -> a = b.
Proof. intros [] [] H; intuition congruence. Qed.

Lemma float_eq_sym : forall a b, float_eq a b = float_eq b a.
Proof. intros a b. apply bool_iff. rewrite !float_eq_iff. intuition congruence. Qed.
Lemma float_eq_trans : forall a b c, float_eq a b = true -> float_eq b c = true -> float_eq a c = true.
Proof.
  intros a b c. rewrite !float_eq_iff. intros [[H1 H2]|[H1 H2]] [[K1 K2]|[K1 K2]]; subst; auto.
Qed.

Fixpoint eq_list (l m : list value) : bool :=
  match l, m with
  | [], [] => true
  | x :: l', y :: m' => go_eq x y && eq_list l' m'
  | _, _ => false
  end.

Lemma go_eq_struct : forall t l u m, go_eq (VStruct t l) (VStruct u m) = String.eqb t u && eq_list l m.
Proof. reflexivity. Qed.
Lemma go_eq_array : forall t l u m, go_eq (VArray t l) (VArray u m) = String.eqb t u && eq_list l m.
Proof. reflexivity. Qed.

Lemma time_eq_eq : forall t u, time_eq t u = true <-> t = u.
Proof.
  intros [a l m] [b k n]. unfold time_eq. cbn [t_ns t_loc t_mono]. rewrite !andb_true_iff, Z.eqb_eq, N.eqb_eq. split.
  - intros [[-> ->] H]. destruct m as [m|], n as [n|]; try discriminate H; [apply Z.eqb_eq in H; subst|]; reflexivity.
  - intros H. injection H as -> -> ->. repeat split. destruct n; [apply Z.eqb_refl|reflexivity].
Qed.
Lemma time_eq_sym : forall t u, time_eq t u = time_eq u t.
Proof.
  intros t u. destruct (time_eq t u) eqn:E; destruct (time_eq u t) eqn:F; try reflexivity.
  - apply time_eq_eq in E. subst u. rewrite (proj2 (time_eq_eq t t) eq_refl) in F. discriminate F.
  - apply time_eq_eq in F. subst u. rewrite (proj2 (time_eq_eq t t) eq_refl) in E. discriminate E.
Qed.

Lemma go_eq_sym : forall v w, go_eq v w = go_eq w v.
Proof.
  fix IH 1. intros v w.
  assert (L : forall l m, (forall x y, In x l -> go_eq x y = go_eq y x) -> eq_list l m = eq_list m l).
  { clear IH. induction l as [|x l IHl]; intros [|y m] H; try reflexivity. cbn.
    rewrite (H x y (or_introl eq_refl)), IHl; [reflexivity|]. intros a b Ha. apply H. right. exact Ha. }
  destruct v, w; try reflexivity; cbn [go_eq].
  - rewrite String.eqb_sym. f_equal. destruct b, b0; reflexivity.
  - rewrite String.eqb_sym, Z.eqb_sym. reflexivity.
  - rewrite String.eqb_sym, float_eq_sym. reflexivity.
  - rewrite String.eqb_sym, (String.eqb_sym s). reflexivity.
  - rewrite String.eqb_sym, N.eqb_sym. reflexivity.
  - change (String.eqb ty ty0 && eq_list fields fields0 = String.eqb ty0 ty && eq_list fields0 fields).
    rewrite String.eqb_sym. f_equal. apply L.
    induction fields as [|x l IHl]; [intros x y []|]. intros a b [<-|Ha]; [apply IH|apply IHl; exact Ha].
  - change (String.eqb ty ty0 && eq_list elems elems0 = String.eqb ty0 ty && eq_list elems0 elems).
    rewrite String.eqb_sym. f_equal. apply L.
    induction elems as [|x l IHl]; [intros x y []|]. intros a b [<-|Ha]; [apply IH|apply IHl; exact Ha].
  - rewrite String.eqb_sym, N.eqb_sym. destruct hashable, hashable0; rewrite ?andb_false_r, ?andb_true_r; reflexivity.
  - apply time_eq_sym.
  - rewrite String.eqb_sym. f_equal. apply IH.
  - rewrite String.eqb_sym. f_equal. apply IH.
Qed.

Lemma and3 : forall a b : bool, a && b = true -> a = true /\ b = true.
Proof. intros [] []; auto. Qed.

Lemma go_eq_trans : forall u v w, go_eq u v = true -> go_eq v w = true -> go_eq u w = true.
Proof.
  fix IH 1. intros u v w.
  assert (L : forall l m k, (forall x y z, In x l -> go_eq x y = true -> go_eq y z = true -> go_eq x z = true) ->
     eq_list l m = true -> eq_list m k = true -> eq_list l k = true).
  { clear IH. induction l as [|x l IHl]; intros [|y m] [|z k] H; try discriminate; auto. cbn.
    intros K1 K2. apply and3 in K1 as [K1 K3]. apply and3 in K2 as [K2 K4].
    rewrite (H x y z) by (auto; left; reflexivity).
    rewrite (IHl m k); auto. intros a b c Ha. apply H. right. exact Ha. }
  destruct u, v; try discriminate; destruct w; try discriminate; cbn [go_eq]; intros H1 H2.
  - reflexivity.
  - apply and3 in H1 as [H1 H3]. apply and3 in H2 as [H2 H4].
    apply String.eqb_eq in H1, H2. apply Bool.eqb_prop in H3, H4. subst. rewrite String.eqb_refl. destruct b1; reflexivity.
  - apply and3 in H1 as [H1 H3]. apply and3 in H2 as [H2 H4].
    apply String.eqb_eq in H1, H2. apply Z.eqb_eq in H3, H4. subst. rewrite String.eqb_refl, Z.eqb_refl. reflexivity.
  - apply and3 in H1 as [H1 H3]. apply and3 in H2 as [H2 H4].
    apply String.eqb_eq in H1, H2. subst. rewrite String.eqb_refl. rewrite (float_eq_trans _ _ _ H3 H4). reflexivity.
  - apply and3 in H1 as [H1 H3]. apply and3 in H2 as [H2 H4].
    apply String.eqb_eq in H1, H2, H3, H4. subst. rewrite !String.eqb_refl. reflexivity.
  - apply and3 in H1 as [H1 H3]. apply and3 in H2 as [H2 H4].
    apply String.eqb_eq in H1, H2. apply N.eqb_eq in H3, H4. subst. rewrite String.eqb_refl, N.eqb_refl. reflexivity.
  - change (String.eqb ty ty0 && eq_list fields fields0 = true) in H1.
    change (String.eqb ty0 ty1 && eq_list fields0 fields1 = true) in H2.
    change (String.eqb ty ty1 && eq_list fields fields1 = true).
    apply and3 in H1 as [H1 H3]. apply and3 in H2 as [H2 H4]. apply String.eqb_eq in H1, H2. subst.
    rewrite String.eqb_refl. cbn [andb]. revert H3 H4. apply L.
    clear -IH. induction fields as [|x l IHl]; [intros x y z []|]. intros a b c [<-|Ha]; [apply IH|apply IHl; exact Ha].
  - change (String.eqb ty ty0 && eq_list elems elems0 = true) in H1.
    change (String.eqb ty0 ty1 && eq_list elems0 elems1 = true) in H2.
    change (String.eqb ty ty1 && eq_list elems elems1 = true).
    apply and3 in H1 as [H1 H3]. apply and3 in H2 as [H2 H4]. apply String.eqb_eq in H1, H2. subst.
    rewrite String.eqb_refl. cbn [andb]. revert H3 H4. apply L.
    clear -IH. induction elems as [|x l IHl]; [intros x y z []|]. intros a b c [<-|Ha]; [apply IH|apply IHl; exact Ha].
  - apply and3 in H1 as [H1 H3]. apply and3 in H1 as [H1 H5]. apply and3 in H1 as [H1 H7].
    apply and3 in H2 as [H2 H4]. apply and3 in H2 as [H2 H6]. apply and3 in H2 as [H2 H8].
    apply String.eqb_eq in H1, H2. apply N.eqb_eq in H3, H4. subst. rewrite String.eqb_refl, N.eqb_refl. reflexivity.
  - apply time_eq_eq in H1, H2. subst. apply time_eq_eq. reflexivity.
  - apply and3 in H1 as [H1 H3]. apply and3 in H2 as [H2 H4]. apply String.eqb_eq in H1, H2. subst.
    rewrite String.eqb_refl. exact (IH _ _ _ H3 H4).
  - apply and3 in H1 as [H1 H3]. apply and3 in H2 as [H2 H4]. apply String.eqb_eq in H1, H2. subst.
    rewrite String.eqb_refl. exact (IH _ _ _ H3 H4).
Qed.

(* ------------------------------------------------------------------ *)
(** * Numbers *)

Lemma nat_of_uint_acc : forall d acc, Nat.of_uint_acc d acc = N.to_nat (uval (N.of_nat acc) d).
Proof.
  induction d; intro acc; cbn [Nat.of_uint_acc uval]; [rewrite Nat2N.id; reflexivity|..];
    rewrite IHd; f_equal; f_equal; rewrite ?Nat.tail_mul_spec; lia.
Qed.
Lemma itoa_nat_dec : forall n, itoa_nat n = dec (N.of_nat n).
Proof.
  intros n. rewrite dec_eq. unfold itoa_nat. f_equal.
  assert (E : N.of_uint (Nat.to_uint n) = N.of_nat n).
  { rewrite <- uval_of_uint. pose proof (DecimalNat.Unsigned.of_to n) as H. unfold Nat.of_uint in H.
    rewrite nat_of_uint_acc in H. cbn [N.of_nat] in H. rewrite <- H at 2. rewrite N2Nat.id. reflexivity. }
  rewrite <- E. rewrite DecimalN.Unsigned.to_of.
  symmetry. rewrite <- (DecimalNat.Unsigned.to_of (Nat.to_uint n)). rewrite DecimalNat.Unsigned.of_to. reflexivity.
Qed.
Lemma itoa_nat_inj : forall n m, itoa_nat n = itoa_nat m -> n = m.
Proof. intros n m H. rewrite !itoa_nat_dec in H. apply dec_inj in H. lia. Qed.

(* ------------------------------------------------------------------ *)
(** * The Dollar store *)

(** The dictionary lists exactly the arguments with their positions. *)
Definition dollar_ok (st : store) : Prop :=
  st_dollar st = true /\
  forall v k, dict_find v (st_dict st) = Some k ->
    1 <= k /\ exists w, nth_error (st_args st) (k - 1) = Some w /\ go_eq v w = true.

Lemma dict_find_cons : forall v w i d, dict_find v ((w, i) :: d) = if go_eq v w then Some i else dict_find v d.
Proof. reflexivity. Qed.

Lemma nth_error_snoc : forall A (l : list A) x k y, nth_error l k = Some y -> nth_error (l ++ [x]) k = Some y.
Proof. intros A l x k y H. rewrite nth_error_app1; [exact H|]. apply nth_error_Some. congruence. Qed.

Lemma new_dollar_ok : forall h, dollar_ok (new_store style_dollar h).
Proof. intros h. split; [reflexivity|]. intros v k H. discriminate H. Qed.

Lemma commit_dollar_ok : forall v st, dollar_ok st -> dollar_ok (snd (commit v st)).
Proof.
  intros v st [Hd Hf]. unfold commit. rewrite Hd. destruct (hashable v); [|split; assumption].
  destruct (dict_find v (st_dict st)) as [i|] eqn:E; [split; assumption|].
  split; [reflexivity|]. cbn [snd st_dict st_args]. intros w k. rewrite dict_find_cons.
  destruct (go_eq w v) eqn:Eq.
  - intros H. injection H as <-. split; [lia|]. exists v. split; [|exact Eq].
    rewrite nth_error_app2 by lia. replace (S (List.length (st_args st)) - 1 - List.length (st_args st)) with 0 by lia. reflexivity.
  - intros H. apply Hf in H as [H1 [x [H2 H3]]]. split; [exact H1|]. exists x. split; [apply nth_error_snoc; exact H2|exact H3].
Qed.
Lemma replay_dollar_ok : forall log st, dollar_ok st -> dollar_ok (replay st log).
Proof. induction log as [|v l IH]; intros st H; [exact H|]. cbn. apply IH. apply commit_dollar_ok. exact H. Qed.

(** The store only grows. *)
Definition grows (st st' : store) : Prop :=
  st_dollar st' = st_dollar st /\
  (exists x, st_args st' = (st_args st ++ x)%list) /\
  (forall v k, dict_find v (st_dict st) = Some k -> dict_find v (st_dict st') = Some k).
Lemma grows_refl : forall st, grows st st.
Proof. intros st. split; [reflexivity|]. split; [exists []; rewrite app_nil_r; reflexivity|auto]. Qed.
Lemma grows_trans : forall a b c, grows a b -> grows b c -> grows a c.
Proof.
  intros a b c (H1 & [x H2] & H3) (K1 & [y K2] & K3). split; [congruence|]. split; [|auto].
  exists (x ++ y)%list. rewrite K2, H2, app_assoc. reflexivity.
Qed.
Lemma grows_commit : forall v st, grows st (snd (commit v st)).
Proof.
  intros v st. unfold commit. destruct (st_dollar st) eqn:Ed.
  - destruct (hashable v); [|apply grows_refl]. destruct (dict_find v (st_dict st)) as [i|] eqn:E; [apply grows_refl|].
    split; [cbn; congruence|]. split; [exists [v]; reflexivity|]. cbn [snd st_dict]. intros w k H.
    rewrite dict_find_cons. destruct (go_eq w v) eqn:Eq; [|exact H]. exfalso.
    assert (G : forall d, dict_find v d = None -> dict_find w d = None).
    { induction d as [|[x i] d IH]; [auto|]. rewrite !dict_find_cons. destruct (go_eq v x) eqn:E1; [discriminate|].
      destruct (go_eq w x) eqn:E2; [|exact IH].
      rewrite (go_eq_trans v w x) in E1; [discriminate|rewrite go_eq_sym; exact Eq|exact E2]. }
    rewrite (G _ E) in H. discriminate.
  - split; [cbn; congruence|]. split; [exists [v]; reflexivity|auto].
Qed.
Lemma grows_replay : forall log st, grows st (replay st log).
Proof.
  induction log as [|v l IH]; intros st; [apply grows_refl|]. cbn.
  eapply grows_trans; [apply grows_commit|apply IH].
Qed.
Lemma grows_nth : forall st st' k v, grows st st' -> nth_error (st_args st) k = Some v -> nth_error (st_args st') k = Some v.
Proof.
  intros st st' k v (_ & [x H] & _) Hn. rewrite H. rewrite nth_error_app1; [exact Hn|].
  apply nth_error_Some. congruence.
Qed.

(** Committing shows a number under which the value is found. *)
Lemma commit_number : forall v st, dollar_ok st -> hashable v = true ->
  exists k w, fst (commit v st) = ROk ("$" ++ dec (N.of_nat k)) /\ 1 <= k /\
    nth_error (st_args (snd (commit v st))) (k - 1) = Some w /\ (w = v \/ go_eq v w = true).
Proof.
  intros v st [Hd Hf] Hv. unfold commit. rewrite Hd, Hv.
  destruct (dict_find v (st_dict st)) as [i|] eqn:E.
  - destruct (Hf _ _ E) as [H1 [w [H2 H3]]]. exists i, w. cbn [fst snd]. rewrite itoa_nat_dec. auto.
  - exists (S (List.length (st_args st))), v. cbn [fst snd st_args]. rewrite itoa_nat_dec.
    split; [reflexivity|]. split; [lia|]. split; [|auto].
    rewrite nth_error_app2 by lia. replace (S (List.length (st_args st)) - 1 - List.length (st_args st)) with 0 by lia. reflexivity.
Qed.

Lemma shown_number : forall st log j v, dollar_ok st -> forallb hashable log = true -> nth_error log j = Some v ->
  exists k w, shown st log j = "$" ++ dec (N.of_nat k) /\ 1 <= k <= List.length (st_args (replay st log)) /\
    nth_error (st_args (replay st log)) (k - 1) = Some w /\ (w = v \/ go_eq v w = true).
Proof.
  intros st log j v Hok Hh Hn. unfold shown. rewrite Hn.
  destruct (commit_number v (replay st (firstn j log))) as [k [w [H1 [H2 [H3 H4]]]]].
  - apply replay_dollar_ok. exact Hok.
  - exact (forallb_nth _ _ _ _ _ Hh Hn).
  - exists k, w. rewrite H1.
    assert (G : grows (snd (commit v (replay st (firstn j log)))) (replay st log)).
    { assert (El : log = (firstn j log ++ v :: skipn (S j) log)%list).
      { rewrite <- (firstn_skipn j log) at 1. f_equal. clear -Hn. revert log Hn.
        induction j as [|j IH]; intros [|x log] Hn; try discriminate; cbn in *; [congruence|]. apply IH. exact Hn. }
      rewrite El at 2. rewrite replay_app. cbn [replay]. apply grows_replay. }
    pose proof (grows_nth _ _ _ _ G H3) as H5.
    split; [reflexivity|]. split; [|auto]. split; [exact H2|].
    assert (k - 1 < List.length (st_args (replay st log))) by (apply nth_error_Some; congruence). lia.
Qed.

(* ------------------------------------------------------------------ *)
(** * Question style *)

Lemma replay_question : forall log st, st_dollar st = false ->
  st_args (replay st log) = (st_args st ++ log)%list /\ st_dict (replay st log) = st_dict st.
Proof.
  induction log as [|v l IH]; intros st H; cbn; [rewrite app_nil_r; auto|].
  unfold commit. rewrite H. cbn [snd]. destruct (IH (mkStore false (st_args st ++ [v])%list (st_dict st) (st_heap st)) eq_refl) as [E1 E2].
  rewrite E1, E2. cbn [st_args st_dict]. rewrite <- app_assoc. auto.
Qed.
Lemma shown_question : forall st log j, st_dollar st = false -> j < List.length log -> shown st log j = "?".
Proof.
  intros st log j H Hj. unfold shown. destruct (nth_error log j) as [v|] eqn:E; [|apply nth_error_None in E; lia].
  unfold commit. rewrite replay_dollar, H. reflexivity.
Qed.

Lemma commit_ok_heap : forall v st, st_heap (snd (commit v st)) = st_heap st.
Proof.
  intros v st. unfold commit. destruct (st_dollar st); [|reflexivity]. destruct (hashable v); [|reflexivity].
  destruct (dict_find _ _); reflexivity.
Qed.
Lemma replay_heap : forall log st, st_heap (replay st log) = st_heap st.
Proof. induction log as [|v l IH]; intros st; [reflexivity|]. cbn. rewrite IH. apply commit_ok_heap. Qed.
