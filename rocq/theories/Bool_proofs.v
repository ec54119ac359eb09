(** Proofs for Prop_bool.v: conditions with OR. *)
From Coq Require Import Strings.String Strings.Ascii NArith ZArith List Bool Lia.
From Verif Require Import GoStr GoNum Syntax Value Util Model Sqlf Sqlb Spec_syntax Num_proofs RefSem Spec_build
  Spec_util Spec_eval Spec_query Spec_sql Lex_proofs Text_proofs Clause_proofs Query3_proofs Sql_proofs Sqltok_proofs Read_proofs Nread_proofs Spec_sqltok Spec_read Spec_nread Spec_bool.
Import ListNotations.
Open Scope string_scope.
Open Scope list_scope.

(** ** Pairing up *)
Fixpoint wound (cur : list tree) (up : list (list tree)) : list token :=
  match up with [] => flats (rev cur) | p :: up' => wound p up' ++ TOp "(" :: flats (rev cur) end.
Lemma wound_more : forall up x cur, wound (x :: cur) up = wound cur up ++ flat1 x.
Proof.
  intros [|p up] x cur; cbn [wound rev]; rewrite flats_app; cbn [flats flat_map]; rewrite app_nil_r; [reflexivity|].
  rewrite <- app_assoc. reflexivity.
Qed.
Lemma good_rev : forall l, good l -> good (rev l).
Proof. intros l G. unfold good in *. rewrite forallb_forall in *. intros x H. apply G, in_rev, H. Qed.
Lemma op_is : forall c t, op c t = true -> t = TOp c.
Proof. intros c [| | | |x| |] H; try discriminate. cbn [op] in H. apply Ascii.eqb_eq in H. subst x. reflexivity. Qed.
Lemma pair_flat : forall l cur up T, pair_up l cur up = Some T -> good cur -> Forall good up -> flats T = wound cur up ++ l /\ good T.
Proof.
  induction l as [|t l IH]; intros cur up T H G U.
  - cbn [pair_up] in H. destruct up as [|p up]; [|discriminate]. injection H as <-. split; [cbn [wound]; rewrite app_nil_r; reflexivity|apply good_rev, G].
  - cbn [pair_up] in H. destruct (op "(" t) eqn:O1.
    + apply op_is in O1. subst t. destruct (IH _ _ _ H eq_refl (Forall_cons _ G U)) as [K1 K2]. split; [|exact K2].
      rewrite K1. cbn [wound rev flats flat_map]. rewrite <- app_assoc. reflexivity.
    + destruct (op ")" t) eqn:O2.
      * apply op_is in O2. subst t. destruct up as [|p up]; [discriminate|]. inversion U as [|? ? Gp Gu]; subst.
        destruct (IH _ _ _ H) as [K1 K2]; [|exact Gu|].
        { unfold good. cbn [forallb good1]. apply andb_true_intro. split; [apply good_rev, G|exact Gp]. }
        split; [|exact K2]. rewrite K1, wound_more. cbn [wound flat1]. fold (flats (rev cur)).
        rewrite <- !app_assoc. cbn [app]. rewrite <- app_assoc. reflexivity.
      * destruct (IH _ _ _ H) as [K1 K2]; [|exact U|].
        { unfold good. cbn [forallb good1]. unfold bracket. rewrite O1, O2. exact G. }
        split; [|exact K2]. rewrite K1, wound_more. cbn [flat1]. rewrite <- app_assoc. reflexivity.
Qed.
Lemma paired : forall l T, pair_up l [] [] = Some T -> l = flats T /\ good T.
Proof. intros l T H. destruct (pair_flat _ _ _ _ H eq_refl (Forall_nil _)) as [K1 K2]. split; [symmetry; exact K1|exact K2]. Qed.
Lemma pair_mid : forall a b Ta Tb w, pair_up a [] [] = Some Ta -> pair_up b [] [] = Some Tb ->
  pair_up (a ++ TWord w :: b) [] [] = Some (Ta ++ Leaf (TWord w) :: Tb).
Proof.
  intros a b Ta Tb w Ha Hb. destruct (paired _ _ Ha) as [-> Ga]. destruct (paired _ _ Hb) as [-> Gb].
  rewrite <- (pair_flats (Ta ++ Leaf (TWord w) :: Tb)).
  - rewrite flats_app. reflexivity.
  - apply good_app; [exact Ga|]. exact Gb.
Qed.
Lemma pair_group : forall a Ta, pair_up a [] [] = Some Ta -> pair_up (TOp "(" :: a ++ [TOp ")"]) [] [] = Some [Group Ta].
Proof.
  intros a Ta Ha. destruct (paired _ _ Ha) as [-> Ga]. rewrite <- (pair_flats [Group Ta]).
  - cbn [flats flat_map flat1]. rewrite app_nil_r. reflexivity.
  - unfold good. cbn [forallb good1]. unfold good in Ga. rewrite Ga. reflexivity.
Qed.

(** ** Tokens of combined texts *)
Lemma ends_step : forall s c, ends s = true -> c = " "%char \/ c = ")"%char ->
  fst (step false (fst (feed false Between s)) c) = Between /\
  snd (step false (fst (feed false Between s)) c) = finish (fst (feed false Between s)) ++ snd (begin c).
Proof.
  intros s c H C. unfold ends in H. destruct (fst (feed false Between s)); try discriminate H; destruct C as [-> | ->]; split; reflexivity.
Qed.
Lemma ends_app : forall s c r, ends s = true -> c = " "%char \/ c = ")"%char ->
  tokens false (s ++ String c r)%string = tokens false s ++ snd (begin c) ++ tokens false r /\ ends (s ++ String c r)%string = ends r.
Proof.
  intros s c r H C. destruct (ends_step s c H C) as [K1 K2]. unfold ends. rewrite !tokens_eq, !feed_app. cbn [feed].
  destruct (step false (fst (feed false Between s)) c) as [q ts]. cbn [fst snd] in K1, K2. subst q ts.
  destruct (feed false Between r) as [q us]. cbn [fst snd]. split; [|reflexivity]. rewrite <- !app_assoc. reflexivity.
Qed.
Lemma word_text : forall w r, w = "AND"%string \/ w = "OR"%string ->
  tokens false (w ++ String " " r)%string = TWord w :: tokens false r /\ ends (w ++ String " " r)%string = ends r.
Proof.
  intros w r W. assert (E : ends w = true) by (destruct W as [-> | ->]; reflexivity).
  destruct (ends_app w " " r E (or_introl eq_refl)) as [K1 K2]. split; [|exact K2]. rewrite K1. destruct W as [-> | ->]; reflexivity.
Qed.
Lemma mid_text : forall w a b, w = "AND"%string \/ w = "OR"%string -> ends a = true ->
  tokens false (a ++ String " " (w ++ String " " b))%string = tokens false a ++ TWord w :: tokens false b /\
  ends (a ++ String " " (w ++ String " " b))%string = ends b.
Proof.
  intros w a b W E. destruct (ends_app a " " (w ++ String " " b)%string E (or_introl eq_refl)) as [K1 K2].
  destruct (word_text w b W) as [L1 L2]. rewrite K1, K2, L1, L2. split; reflexivity.
Qed.
Lemma mid_paired : forall w a b Ta Tb, w = "AND"%string \/ w = "OR"%string -> ends a = true ->
  pair_up (tokens false a) [] [] = Some Ta -> pair_up (tokens false b) [] [] = Some Tb ->
  pair_up (tokens false (a ++ String " " (w ++ String " " b))%string) [] [] = Some (Ta ++ Leaf (TWord w) :: Tb).
Proof. intros w a b Ta Tb W E Ha Hb. rewrite (proj1 (mid_text w a b W E)). apply pair_mid; assumption. Qed.

(** ** Truth *)
Lemma by_or_nil : forall l, by_or l <> [].
Proof. intros [|x l]; cbn [by_or]; [discriminate|]. destruct (word_is "OR" x); [discriminate|]. destruct (by_or l); discriminate. Qed.
Lemma by_and_nil : forall b l, by_and b l <> [].
Proof.
  intros b [|x l]; cbn [by_and]; [discriminate|]. destruct (word_is "AND" x && negb b); [discriminate|].
  destruct (by_and (if word_is "AND" x then false else b || word_is "BETWEEN" x) l); discriminate.
Qed.
Lemma by_or_app : forall a x b, word_is "OR" x = true -> by_or (a ++ x :: b) = by_or a ++ by_or b.
Proof.
  intros a x b X. induction a as [|y a IH]; [cbn [app by_or]; rewrite X; reflexivity|].
  cbn [app by_or]. rewrite IH. destruct (word_is "OR" y); [reflexivity|].
  pose proof (by_or_nil a) as N. destruct (by_or a) as [|p ps]; [congruence|]. reflexivity.
Qed.
Lemma by_or_one : forall a, existsb (word_is "OR") a = false -> by_or a = [a].
Proof.
  induction a as [|x a IH]; intros H; [reflexivity|]. cbn [existsb] in H. apply orb_false_iff in H. destruct H as [H1 H2].
  cbn [by_or]. rewrite H1, (IH H2). reflexivity.
Qed.
Fixpoint hangs (b : bool) (l : list item) : bool :=
  match l with [] => b | x :: l' => hangs (if word_is "AND" x then false else b || word_is "BETWEEN" x) l' end.
Lemma by_and_app : forall a b x c, word_is "AND" x = true -> hangs b a = false -> by_and b (a ++ x :: c) = by_and b a ++ by_and false c.
Proof.
  induction a as [|y a IH]; intros b x c X H.
  - cbn [hangs] in H. subst b. cbn [app by_and]. rewrite X. reflexivity.
  - cbn [hangs] in H. cbn [app by_and]. destruct (word_is "AND" y) eqn:Y.
    + destruct b; cbn [negb andb]; rewrite (IH false x c X H); [|reflexivity].
      pose proof (by_and_nil false a) as N. destruct (by_and false a) as [|p ps]; [congruence|]. reflexivity.
    + cbn [andb]. rewrite (IH _ x c X H).
      pose proof (by_and_nil (b || word_is "BETWEEN" y) a) as N. destruct (by_and (b || word_is "BETWEEN" y) a) as [|p ps]; [congruence|]. reflexivity.
Qed.

Section Atoms.
Variable atom : list item -> bool.
Let items := map (item_of atom).
Lemma items_or : forall l, existsb (word_is "OR") (items l) = has_or l.
Proof.
  induction l as [|x l IH]; [reflexivity|]. unfold items in *. unfold has_or in *. cbn [map existsb]. rewrite IH. f_equal.
  destruct x as [[]|g]; reflexivity.
Qed.
Lemma items_hang : forall l b, hangs b (items l) = pending b l.
Proof.
  induction l as [|x l IH]; intros b; [reflexivity|]. unfold items in *. cbn [map hangs]. rewrite IH.
  destruct x as [[]|g]; cbn [item_of word_is pending]; rewrite ?orb_false_r; reflexivity.
Qed.
Lemma truth_or : forall a x b, word_is "OR" x = true -> truth atom (a ++ x :: b) = truth atom a || truth atom b.
Proof. intros a x b X. unfold truth. rewrite by_or_app by exact X. apply existsb_app. Qed.
Lemma truth_and : forall a x b, word_is "AND" x = true -> existsb (word_is "OR") a = false -> existsb (word_is "OR") b = false -> hangs false a = false ->
  truth atom (a ++ x :: b) = truth atom a && truth atom b.
Proof.
  intros a x b X A B H. unfold truth. rewrite (by_or_one a A), (by_or_one b B), by_or_one.
  - cbn [existsb]. rewrite !orb_false_r, by_and_app by assumption. apply forallb_app.
  - rewrite existsb_app. cbn [existsb]. rewrite A, B. rewrite orb_false_r. cbn [orb].
    destruct x as [[v| | | | | |]|]; try discriminate X. cbn [word_is] in *. apply String.eqb_eq in X. rewrite X. reflexivity.
Qed.

Lemma truth_clause : forall ss, Forall conjunct ss -> ss <> [] ->
  ends (str_join " AND " ss) = true /\ exists l, pair_up (tokens false (str_join " AND " ss)) [] [] = Some l /\ has_or l = false /\ pending false l = false /\
    holds atom (str_join " AND " ss) = Some (truth atom (items l)) /\
    (truth atom (items l) = true <-> Forall (fun s => holds atom s = Some true) ss).
Proof.
  intros ss F. induction F as [|s ss C F IH]; intros N; [congruence|].
  destruct C as [(_ & _ & E & l & P & W) (l' & P' & O)]. assert (l' = l) by congruence. subst l'.
  assert (Hs : holds atom s = Some (truth atom (items l))) by (unfold holds; rewrite P; reflexivity).
  destruct ss as [|s' ss].
  - cbn [str_join]. split; [exact E|]. exists l. repeat (split; [assumption|]). split.
    + intros K. constructor; [rewrite Hs, K; reflexivity|constructor].
    + intros K. inversion K; subst. congruence.
  - destruct (IH ltac:(discriminate)) as (E2 & l2 & P2 & O2 & W2 & H2 & K2). set (r := str_join " AND " (s' :: ss)) in *.
    change (str_join " AND " (s :: s' :: ss)) with (s ++ String " " ("AND" ++ String " " r))%string.
    destruct (mid_text "AND" s r (or_introl eq_refl) E) as [_ M]. split; [rewrite M; exact E2|].
    exists (l ++ Leaf (TWord "AND") :: l2). pose proof (mid_paired "AND" s r l l2 (or_introl eq_refl) E P P2) as Q.
    assert (T : truth atom (items (l ++ Leaf (TWord "AND") :: l2)) = truth atom (items l) && truth atom (items l2)).
    { unfold items. rewrite map_app. cbn [map]. apply truth_and; [reflexivity| | |].
      - exact (eq_trans (items_or l) O).
      - exact (eq_trans (items_or l2) O2).
      - exact (eq_trans (items_hang l false) W). }
    split; [exact Q|]. split; [|split; [|split; [unfold holds; rewrite Q; reflexivity|]]].
    + unfold has_or in *. rewrite existsb_app, O. exact O2.
    + rewrite <- items_hang. unfold items. rewrite map_app. cbn [map].
      assert (HA : forall a b, hangs b a = false -> forall c, hangs b (a ++ Tok (TWord "AND") :: c) = hangs false c).
      { clear. induction a as [|x a IHa]; intros b H c; [reflexivity|]. cbn [app hangs] in *. apply IHa, H. }
      cbn [item_of]. rewrite HA; [exact (eq_trans (items_hang l2 false) W2)|exact (eq_trans (items_hang l false) W)].
    + rewrite T, andb_true_iff, K2. split.
      * intros [A B]. constructor; [rewrite Hs, A; reflexivity|exact B].
      * intros A. inversion A; subst. split; [congruence|assumption].
Qed.
Lemma truth_escape : forall a b ss, ends a = true -> complete a -> complete b -> Forall complete ss -> holds atom a = Some true ->
  holds atom (str_join " AND " ((a ++ " OR " ++ b)%string :: ss)) = Some true.
Proof.
  intros a b ss E Ca Cb F H.
  assert (K : exists t l, str_join " AND " ((a ++ " OR " ++ b)%string :: ss) = (a ++ " OR " ++ t)%string /\ pair_up (tokens false t) [] [] = Some l).
  { assert (J : exists l, pair_up (tokens false (str_join " AND " (b :: ss))) [] [] = Some l).
    { clear - Cb F. revert b Cb. induction F as [|s ss C F IH]; intros b Cb.
      - destruct Cb as (_ & _ & _ & l & P & _). exists l. exact P.
      - destruct (IH s C) as (l2 & P2). destruct Cb as (_ & _ & E & l & P & _). exists (l ++ Leaf (TWord "AND") :: l2).
        change (str_join " AND " (b :: s :: ss)) with (b ++ String " " ("AND" ++ String " " (str_join " AND " (s :: ss))))%string.
        apply mid_paired; auto. }
    destruct J as (l & P). exists (str_join " AND " (b :: ss)), l. split; [|exact P].
    destruct ss as [|s ss]; [reflexivity|].
    change (str_join " AND " ((a ++ " OR " ++ b)%string :: s :: ss)) with ((a ++ " OR " ++ b) ++ " AND " ++ str_join " AND " (s :: ss))%string.
    change (str_join " AND " (b :: s :: ss)) with (b ++ " AND " ++ str_join " AND " (s :: ss))%string.
    rewrite !append_assoc. reflexivity. }
  destruct K as (t & l & -> & P). unfold holds in *. destruct (pair_up (tokens false a) [] []) as [Ta|] eqn:Pa; [|discriminate]. cbn [option_map] in H.
  change (a ++ " OR " ++ t)%string with (a ++ String " " ("OR" ++ String " " t))%string.
  rewrite (mid_paired "OR" a t Ta l (or_intror eq_refl) E Pa P). cbn [option_map]. rewrite map_app. cbn [map].
  rewrite truth_or by reflexivity. injection H as ->. reflexivity.
Qed.
End Atoms.

(** ** Parentheses *)
Lemma paren_tokens : forall s, ends s = true -> tokens false ("(" ++ s ++ ")")%string = TOp "(" :: tokens false s ++ [TOp ")"].
Proof.
  intros s E. change ("(" ++ s ++ ")")%string with (String "(" (s ++ String ")" ""))%string.
  destruct (ends_app s ")" "" E (or_intror eq_refl)) as [K _]. change (snd (begin ")") ++ tokens false "") with [TOp ")"] in K. rewrite <- K.
  rewrite !tokens_eq. cbn [feed step]. change (begin "(") with (Between, [TOp "("]). cbv beta iota.
  destruct (feed false Between (s ++ ")")%string). reflexivity.
Qed.
Lemma parens_conjunct : forall s, complete s -> conjunct ("(" ++ s ++ ")")%string.
Proof.
  intros s (_ & _ & E & l & P & _). pose proof (pair_group _ _ P) as Q. rewrite <- (paren_tokens s E) in Q. split.
  - split; [reflexivity|]. split; [|split].
    + change ("(" ++ s ++ ")")%string with (("(" ++ s) ++ ")")%string. rewrite rev_app. reflexivity.
    + change ("(" ++ s ++ ")")%string with (String "(" (s ++ String ")" ""))%string. pose proof (proj2 (ends_app s ")" "" E (or_intror eq_refl))) as K.
      unfold ends in *. cbn [feed step]. change (begin "(") with (Between, [TOp "("]). cbv beta iota. change (s ++ ")")%string with (s ++ String ")" "")%string.
      destruct (feed false Between (s ++ String ")" "")%string). exact K.
    + exists [Group l]. split; [exact Q|reflexivity].
  - exists [Group l]. split; [exact Q|reflexivity].
Qed.
Lemma parens_hold : forall atom s, complete s -> holds atom ("(" ++ s ++ ")")%string = holds atom s.
Proof.
  intros atom s (_ & _ & E & l & P & _). unfold holds. rewrite (paren_tokens s E), (pair_group _ _ P), P. cbn [option_map map item_of]. f_equal.
  unfold truth at 1. cbn [by_or word_is existsb by_and andb forallb factor]. rewrite andb_true_r, orb_false_r. reflexivity.
Qed.

(** ** Clauses *)
Lemma visible_vis : forall c, visible c = true -> vis c = true.
Proof.
  intros c H. unfold visible in H. apply andb_true_iff in H as [H1 H2]. apply N.ltb_lt in H1, H2. unfold vis.
  apply andb_true_iff. split; [apply N.ltb_lt; lia|]. apply negb_true_iff. unfold is_space.
  replace (code c <=? 255)%N with true by (symmetry; apply N.leb_le; lia). unfold in_range.
  replace (code c <=? 13)%N with false by (symmetry; apply N.leb_gt; lia). rewrite andb_false_r.
  repeat (apply orb_false_iff; split); try reflexivity; apply N.eqb_neq; lia.
Qed.
Lemma complete_vis : forall s, complete s -> vis_str s.
Proof.
  intros s (A & B & _). split.
  - destruct s as [|c s]; [discriminate|]. exists c, s. split; [reflexivity|apply visible_vis, A].
  - destruct (str_rev s) as [|c r] eqn:R; [discriminate|]. exists (str_rev r), c. split; [|apply visible_vis, B].
    rewrite <- (rev_rev s), R. change (String c r) with (String c "" ++ r)%string. rewrite rev_app. reflexivity.
Qed.
Lemma clause_is : forall n e bs st ss st', lookup_fn e "join" = Some FnJoin -> lookup_fn e "fragment" = Some FnFragment ->
  do_all (build (S (S n)) e) bs st = (ROk ss, st') -> List.length bs <= n -> Forall complete ss -> ss <> [] ->
  build (S (S (S n))) e (BFrag (joined_by " AND " "WHERE" bs)) st = (ROk ("WHERE " ++ str_join " AND " ss)%string, st').
Proof.
  intros n e bs st ss st' L1 L2 H N F NN.
  assert (V : Forall vis_str ss) by (eapply Forall_impl; [|exact F]; exact complete_vis).
  rewrite (clause_text n e " AND " "WHERE" bs st ss st' L1 L2 (or_intror eq_refl) H N). rewrite nonempty_vis by exact V.
  pose proof (vis_join " AND " ss V NN) as W. rewrite trim_vis by exact W. unfold wrapped.
  destruct W as [(a & r & -> & _) _]. cbn [is_empty]. rewrite append_nil_r. reflexivity.
Qed.
Lemma all_required : forall n e bs st ss st', lookup_fn e "join" = Some FnJoin -> lookup_fn e "fragment" = Some FnFragment ->
  do_all (build (S (S n)) e) bs st = (ROk ss, st') -> List.length bs <= n -> Forall conjunct ss -> ss <> [] ->
  exists text, build (S (S (S n))) e (BFrag (joined_by " AND " "WHERE" bs)) st = (ROk ("WHERE " ++ text)%string, st') /\
    forall atom, exists b, holds atom text = Some b /\ (b = true <-> Forall (fun s => holds atom s = Some true) ss).
Proof.
  intros n e bs st ss st' L1 L2 H N F NN. exists (str_join " AND " ss). split.
  - apply (clause_is n e bs st ss st' L1 L2 H N); [|exact NN]. eapply Forall_impl; [|exact F]. intros s [C _]. exact C.
  - intros atom. destruct (truth_clause atom ss F NN) as (_ & l & _ & _ & _ & K1 & K2). eexists. split; [exact K1|exact K2].
Qed.
Lemma or_escapes : forall n e bs st a b ss st', lookup_fn e "join" = Some FnJoin -> lookup_fn e "fragment" = Some FnFragment ->
  do_all (build (S (S n)) e) bs st = (ROk ((a ++ " OR " ++ b)%string :: ss), st') -> List.length bs <= n -> complete a -> complete b -> Forall complete ss ->
  exists text, build (S (S (S n))) e (BFrag (joined_by " AND " "WHERE" bs)) st = (ROk ("WHERE " ++ text)%string, st') /\
    forall atom, holds atom a = Some true -> holds atom text = Some true.
Proof.
  intros n e bs st a b ss st' L1 L2 H N Ca Cb F.
  assert (V : Forall vis_str ((a ++ " OR " ++ b)%string :: ss)).
  { constructor; [apply vis_app; apply complete_vis; assumption|]. eapply Forall_impl; [|exact F]; exact complete_vis. }
  exists (str_join " AND " ((a ++ " OR " ++ b)%string :: ss)). split.
  - rewrite (clause_text n e " AND " "WHERE" bs st _ st' L1 L2 (or_intror eq_refl) H N). rewrite nonempty_vis by exact V.
    assert (W : vis_str (str_join " AND " ((a ++ " OR " ++ b)%string :: ss))) by (apply vis_join; [exact V|discriminate]).
    rewrite trim_vis by exact W. unfold wrapped. destruct W as [(c & r & -> & _) _]. cbn [is_empty]. rewrite append_nil_r. reflexivity.
  - intros atom Ha. apply truth_escape; try assumption. apply Ca.
Qed.
Lemma required : forall os q n e st ss st', apply_ops os new_qb = ROk q -> lookup_fn e "join" = Some FnJoin -> lookup_fn e "fragment" = Some FnFragment ->
  do_all (build (S (S n)) e) (conditions os) st = (ROk ss, st') -> List.length (conditions os) <= n -> Forall conjunct ss -> ss <> [] ->
  exists text, build (S (S (S n))) e (BFrag (q_conds q)) st = (ROk ("WHERE " ++ text)%string, st') /\
    forall atom, exists b, holds atom text = Some b /\ (b = true <-> Forall (fun s => holds atom s = Some true) ss).
Proof. intros os q n e st ss st' A. rewrite (proj1 (proj2 (described_clauses os q A))). apply all_required. Qed.
Lemma escapes : forall os q n e st a b ss st', apply_ops os new_qb = ROk q -> lookup_fn e "join" = Some FnJoin -> lookup_fn e "fragment" = Some FnFragment ->
  do_all (build (S (S n)) e) (conditions os) st = (ROk ((a ++ " OR " ++ b)%string :: ss), st') -> List.length (conditions os) <= n -> complete a -> complete b -> Forall complete ss ->
  exists text, build (S (S (S n))) e (BFrag (q_conds q)) st = (ROk ("WHERE " ++ text)%string, st') /\
    forall atom, holds atom a = Some true -> holds atom text = Some true.
Proof. intros os q n e st a b ss st' A. rewrite (proj1 (proj2 (described_clauses os q A))). apply or_escapes. Qed.
