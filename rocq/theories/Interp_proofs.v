(** Proofs about interpolating built queries. *)
From Coq Require Import Strings.String Strings.Ascii NArith ZArith List Bool Lia.
From Verif Require Import Sim_proofs Order_proofs Spec_mean Mean_proofs GoStr GoNum Syntax Value Util Model Sqlf Sqlb Scan Spec_syntax RefSem Spec_build Spec_eval Spec_util Spec_query Spec_sql Spec_interp
  Lex_proofs Num_proofs Grammar_proofs Eval_proofs Text_proofs Store_proofs Build_proofs Util_proofs Sql_proofs.
Import ListNotations.
Open Scope string_scope.

Lemma print_parts_app : forall l1 l2, print (l1 ++ l2) = print l1 ++ print l2.
Proof. induction l1 as [|p l1 IH]; intros l2; cbn [app print]; [reflexivity|]. rewrite IH, append_assoc. reflexivity. Qed.
Lemma wf_inert_app : forall ls l x, forallb is_inert ls = true -> forallb wf1 ls = true -> wf_at l x = true -> wf_at (ls ++ l) x = true.
Proof.
  induction ls as [|p ls IH]; intros l x I W H; [exact H|]. cbn [forallb app wf_at] in *. apply andb_prop in I as [I1 I2], W as [W1 W2].
  rewrite W1, (IH l x I2 W2 H). destruct p; try discriminate I1; reflexivity.
Qed.
Lemma style_inert_app : forall ls l b, forallb is_inert ls = true -> style_ok b (ls ++ l) = style_ok b l.
Proof.
  induction ls as [|p ls IH]; intros l b I; [reflexivity|]. cbn [forallb app] in *. apply andb_prop in I as [I1 I2].
  destruct p; try discriminate I1; cbn [style_ok]; apply IH, I2.
Qed.
Lemma filled_inert_app : forall ft args ls l k s, forallb is_inert ls = true -> filled ft args k l s -> filled ft args k (ls ++ l) (print ls ++ s).
Proof.
  induction ls as [|p ls IH]; intros l k s I H; [exact H|]. cbn [forallb app print] in *. apply andb_prop in I as [I1 I2].
  rewrite append_assoc. apply fd_inert; [exact I1|]. apply IH; assumption.
Qed.

Definition tail (q : nat -> string) (l : list (nat * string)) : string := fold_right (fun x r => q (fst x) ++ snd x ++ r) "" l.
Lemma render_eq : forall q t, render q t = fst t ++ tail q (snd t).
Proof. reflexivity. Qed.

Section Text.
Variable ft : gotime -> string.
Variable args : list value.
Variable lit : nat -> string.

Lemma starts_q : forall s r, starts (fun a => Ascii.eqb a "?" || is_digit a) s = false -> (s = "" -> r = "") ->
  starts (fun a => Ascii.eqb a "?" || is_digit19 a) (s ++ r) = false /\ starts is_digit (s ++ r) = false.
Proof.
  intros [|a s] r H E; [rewrite (E eq_refl); auto|]. cbn [append starts] in *. apply orb_false_iff in H as [H1 H2].
  rewrite H1, H2. split; [|reflexivity]. cbn [orb]. unfold is_digit, is_digit19, in_range in *.
  apply andb_false_iff in H2. apply andb_false_iff. destruct H2 as [H2|H2]; [left|right]; apply N.leb_gt in H2; apply N.leb_gt; lia.
Qed.
Lemma tail_empty : forall q l, l = [] -> tail q l = "".
Proof. intros q l ->. reflexivity. Qed.

(** Question marks, in order. *)
Lemma question_tail : forall l k b, apart l -> map fst l = seq k (List.length l) ->
  (forall j, In j (map fst l) -> exists v, nth_error args j = Some v /\ literal ft v (lit j)) ->
  exists ps, print ps = tail qmark l /\ wf ps = true /\ style_ok b ps = true /\ filled ft args (Z.of_nat k) ps (tail lit l).
Proof.
  induction l as [|[j s] l IH]; intros k b Ha Hs Hv.
  - exists []. repeat split. constructor.
  - destruct Ha as ((ls & I & W & P) & St & En & Ha). cbn [map fst List.length seq] in Hs. injection Hs as -> Hs.
    destruct (IH (S k) true Ha Hs) as (ps & P2 & W2 & S2 & F2). { intros j' Hj. apply Hv. right. exact Hj. }
    destruct (Hv k) as (v & N & L); [left; reflexivity|].
    exists (Quest :: ls ++ ps)%list. cbn [print print1 tail fold_right fst snd style_ok]. rewrite print_parts_app, P, P2.
    split; [reflexivity|]. split; [|split].
    + unfold wf. cbn [wf_at wf1 follow]. rewrite (wf_inert_app ls ps "" I W W2), print_parts_app, P, P2, append_nil_r.
      destruct (starts_q s (tail qmark l) St) as [-> _]; [|reflexivity]. intros E. apply tail_empty, En, E.
    + rewrite style_inert_app by exact I. exact S2.
    + apply fd_quest with v; [rewrite Nat2Z.id; exact N|exact L|]. rewrite <- P. apply filled_inert_app; [exact I|].
      replace (Z.of_nat k + 1)%Z with (Z.of_nat (S k)) by lia. exact F2.
Qed.
Theorem question_text : forall t k, clean_text t -> placeholders t = seq 0 k ->
  (forall j, j < k -> exists v, nth_error args j = Some v /\ literal ft v (lit j)) ->
  interpolate ft (render qmark t) args = ROk (render lit t).
Proof.
  intros [s l] k [(ls & I & W & P) Ha] Hp Hv. unfold placeholders in Hp. cbn [fst snd] in *.
  assert (E : List.length l = k) by (rewrite <- (map_length fst), Hp, seq_length; reflexivity). subst k.
  destruct (question_tail l 0 false Ha Hp) as (ps & P2 & W2 & S2 & F2).
  { intros j Hj. apply Hv. rewrite Hp in Hj. apply in_seq in Hj. lia. }
  rewrite !render_eq. cbn [fst snd]. rewrite <- P, <- P2, <- print_parts_app. apply interpolate_parts.
  - apply wf_inert_app; assumption.
  - rewrite style_inert_app by exact I. exact S2.
  - apply filled_inert_app; assumption.
Qed.

(** Numbered placeholders. *)
Definition numbered (ph : string) (x : string) : Prop :=
  exists k v, ph = "$" ++ dec (N.of_nat k) /\ 1 <= k <= List.length args /\ nth_error args (k - 1) = Some v /\ literal ft v x.
Lemma dollar_tail : forall p l k, (Z.of_nat (List.length args) < 9223372036854775808)%Z -> apart l ->
  (forall j, In j (map fst l) -> numbered (p j) (lit j)) ->
  exists ps, print ps = tail p l /\ wf ps = true /\ style_ok false ps = true /\ filled ft args k ps (tail lit l).
Proof.
  intros p l k Hb. revert k. induction l as [|[j s] l IH]; intros k Ha Hv.
  - exists []. repeat split. constructor.
  - destruct Ha as ((ls & I & W & P) & St & En & Ha).
    destruct (IH (k + 1)%Z Ha) as (ps & P2 & W2 & S2 & F2). { intros j' Hj. apply Hv. right. exact Hj. }
    destruct (Hv j) as (i & v & Ep & Hi & N & L); [left; reflexivity|].
    exists (Dollar (N.of_nat i) :: ls ++ ps)%list. cbn [print print1 tail fold_right fst snd style_ok negb andb]. rewrite print_parts_app, P, P2, Ep.
    split; [reflexivity|]. split; [|split].
    + unfold wf. cbn [wf_at wf1 follow]. rewrite (wf_inert_app ls ps "" I W W2), print_parts_app, P, P2, append_nil_r.
      destruct (starts_q s (tail p l) St) as [_ ->]; [intros E; apply tail_empty, En, E|].
      replace (1 <=? N.of_nat i)%N with true by (symmetry; apply N.leb_le; lia).
      replace (N.of_nat i <? 9223372036854775808)%N with true by (symmetry; apply N.ltb_lt; lia). reflexivity.
    + rewrite style_inert_app by exact I. exact S2.
    + apply fd_dollar with v; [rewrite Nat2N.id; exact N|exact L|]. rewrite <- P. apply filled_inert_app; assumption.
Qed.
Theorem dollar_text : forall p t, (Z.of_nat (List.length args) < 9223372036854775808)%Z -> clean_text t ->
  (forall j, In j (placeholders t) -> numbered (p j) (lit j)) ->
  interpolate ft (render p t) args = ROk (render lit t).
Proof.
  intros p [s l] Hb [(ls & I & W & P) Ha] Hv. unfold placeholders in Hv. cbn [fst snd] in *.
  destruct (dollar_tail p l 0 Hb Ha Hv) as (ps & P2 & W2 & S2 & F2).
  rewrite !render_eq. cbn [fst snd]. rewrite <- P, <- P2, <- print_parts_app. apply interpolate_parts.
  - apply wf_inert_app; assumption.
  - rewrite style_inert_app by exact I. exact S2.
  - apply filled_inert_app; assumption.
Qed.
End Text.

(* ------------------------------------------------------------------ *)
(** * Both styles *)

Theorem both_values : forall n h b sq aq, lib hashable b = true -> forallb (lib_qb hashable) h = true ->
  fst (build_query n style_question h b) = ROk (sq, aq) ->
  exists t p ad, means [builtins] h aq b t /\ sq = render qmark t /\ fst (build_query n style_dollar h b) = ROk (render p t, ad) /\
    forall j, In j (placeholders t) -> exists v, nth_error aq j = Some v /\ dollar_denotes ad (p j) v.
Proof.
  intros n h b sq aq Hb Hh H. unfold build_query in *.
  destruct (build_general hashable n [builtins] b (new_store style_dollar h) eq_refl Hb Hh) as [E [G C]].
  { auto. }
  destruct (build_general hashable n [builtins] b (new_store style_question h) eq_refl Hb Hh) as [E' [G' C']].
  { discriminate. }
  rewrite E. rewrite E' in H. clear E E' G'. cbn [new_store st_heap] in *.
  pose proof (den_build [builtins] eq_refl hashable false h n b (mkG [] h) (fun K => False_ind _ (diff_false_true K)) (fun id => rebuilt_refl _)) as [_ [X D]]. cbn [g_log] in *.
  set (r := gbuild n [builtins] b (mkG [] h)) in *. set (log := g_log (snd r)) in *.
  destruct (fst r) as [t|er|er|]; cbn [omap fst okT] in *; try discriminate.
  cbn [set_heap st_args] in *. destruct (replay_question log (new_store style_question h) eq_refl) as [Q _].
  cbn [new_store st_args app] in Q. rewrite Q in H.
  assert (Es : sq = render (shown (new_store style_question h) log) t) by congruence.
  assert (Ea : aq = log) by congruence. rewrite Es, Ea. clear H Es Ea.
  exists t, (shown (new_store style_dollar h) log), (st_args (replay (new_store style_dollar h) log)).
  destruct D as [_ D2]. split; [apply D2; apply ext_refl|]. split; [apply render_question; [reflexivity|exact C]|]. split; [reflexivity|].
  intros j Hj. destruct (nth_error log j) as [v|] eqn:En.
  - exists v. split; [reflexivity|]. refine (shown_denotes (new_store style_dollar h) log j v _ _ En).
    + intros _ w k Hk. discriminate Hk.
    + intros _. exact G.
  - apply nth_error_None in En. specialize (C j Hj). lia.
Qed.
Theorem both_shown : forall ft n h b sq aq, lib hashable b = true -> forallb (lib_qb hashable) h = true ->
  fst (build_query n style_question h b) = ROk (sq, aq) ->
  exists t sd ad, means [builtins] h aq b t /\ sq = render qmark t /\ fst (build_query n style_dollar h b) = ROk (sd, ad) /\
    forall lit, clean_text t ->
      (placeholders t = seq 0 (List.length aq) -> (forall j v, nth_error aq j = Some v -> literal ft v (lit j)) ->
        interpolate ft sq aq = ROk (render lit t)) /\
      ((Z.of_nat (List.length ad) < 9223372036854775808)%Z ->
        (forall j v w, In j (placeholders t) -> nth_error aq j = Some v -> In w ad -> same_value v w -> literal ft w (lit j)) ->
        interpolate ft sd ad = ROk (render lit t)).
Proof.
  intros ft n h b sq aq Hb Hh H. destruct (both_values n h b sq aq Hb Hh H) as (t & p & ad & M & E & D & V).
  exists t, (render p t), ad. split; [exact M|]. split; [exact E|]. split; [exact D|]. intros lit C. split.
  - intros Hp Hl. rewrite E. apply (question_text ft aq lit t (List.length aq) C Hp).
    intros j Hj. apply nth_error_Some in Hj. destruct (nth_error aq j) as [v|] eqn:N; [|congruence]. eauto.
  - intros Hlen Hl. apply (dollar_text ft ad lit p t Hlen C). intros j Hj. destruct (V j Hj) as (v & N & k & w & Ep & Hk & Nw & Sv).
    exists k, w. split; [exact Ep|]. split; [exact Hk|]. split; [exact Nw|]. eapply Hl; try eassumption. eapply nth_error_In. exact Nw.
Qed.

(* ------------------------------------------------------------------ *)
(** * Whole statements *)

Lemma passive_app : forall a b, passive a -> passive b -> passive (a ++ b).
Proof.
  intros a b (la & Ia & Wa & <-) (lb & Ib & Wb & <-). exists (la ++ lb)%list. rewrite !forallb_app, Ia, Ib, Wa, Wb, print_parts_app. auto.
Qed.
Lemma passive_plain : forall s, plain_text s = true -> passive s.
Proof. intros s H. exists [Text s]. cbn [forallb is_inert wf1 print print1]. rewrite H, append_nil_r. auto. Qed.
Definition solid (s : string) : Prop := s <> "" /\ starts (fun a => Ascii.eqb a "?" || is_digit a) s = false.
Lemma solid_app : forall a b, solid a -> solid (a ++ b).
Proof. intros [|c a] b [H1 H2]; [congruence|]. split; [discriminate|exact H2]. Qed.
Lemma tcat_fst : forall a l y, fst (tcat a l y) = match l with [] => a ++ fst y | _ => a end.
Proof. intros a [|[j s] l] y; reflexivity. Qed.
Lemma clean_cat : forall l a y, passive a -> apart l -> clean_text y -> l = [] \/ solid (fst y) ->
  clean_text (tcat a l y).
Proof.
  induction l as [|[j s] l IH]; intros a y Ia Al Cy So.
  - destruct Cy as [Iy Ay]. split; [apply passive_app; assumption|exact Ay].
  - destruct So as [So|So]; [discriminate|]. destruct Al as (Is & St & En & Al). cbn [tcat].
    destruct (IH s y Is Al Cy (or_intror So)) as [I2 A2]. split; [exact Ia|]. cbn [snd apart]. split; [exact I2|].
    rewrite tcat_fst. destruct l as [|x l].
    + cbn [tcat fst snd]. destruct s as [|c s].
      * split; [exact (proj2 So)|]. split; [|exact A2]. intros E. exfalso. exact (proj1 So E).
      * split; [exact St|]. split; [discriminate|exact A2].
    + split; [exact St|]. split; [|exact A2]. intros E. specialize (En E). discriminate.
Qed.
Lemma clean_app : forall x y, clean_text x -> clean_text y -> snd x = [] \/ solid (fst y) -> clean_text (tapp x y).
Proof. intros [a l] y [Ia Al] Cy So. unfold tapp. apply clean_cat; assumption. Qed.
Lemma clean_lit : forall s, passive s -> clean_text (tlit s).
Proof. intros s H. split; [exact H|exact I]. Qed.
Lemma clean_ph : forall j, clean_text (tph j).
Proof.
  assert (N : passive "") by (exists []; repeat split). intros j. split; [exact N|]. cbn. split; [exact N|]. auto.
Qed.
Lemma clean_join : forall sep ts, passive sep -> solid sep -> Forall clean_text ts -> clean_text (tjoin sep ts).
Proof.
  intros sep ts Is So. induction ts as [|t ts IH]; intros Ft; [apply clean_lit; exists []; repeat split|].
  inversion Ft as [|? ? Ct Cs]; subst. destruct ts as [|t' ts]; [exact Ct|].
  change (clean_text (tapp t (tapp (tlit sep) (tjoin sep (t' :: ts))))). apply clean_app; [exact Ct| |right].
  - apply clean_app; [apply clean_lit; exact Is|apply IH; exact Cs|left; reflexivity].
  - unfold tapp. cbn [tlit fst snd tcat]. apply solid_app. exact So.
Qed.

(** The text of a condition whose first placeholder is number k. *)
Definition cond_t (k : nat) (x : cond) : text :=
  match x with
  | Compare c op _ => tapp (tlit (col_text c ++ op)) (tph k)
  | Among c l => tapp (tlit (col_text c ++ " IN (")) (tapp (tjoin ", " (map tph (seq k (List.length (flat l))))) (tlit ")"))
  | NotAmong c l => tapp (tlit (col_text c ++ " NOT IN (")) (tapp (tjoin ", " (map tph (seq k (List.length (flat l))))) (tlit ")"))
  end.
Fixpoint conds_t (k : nat) (cs : list cond) : list text :=
  match cs with [] => [] | x :: cs' => cond_t k x :: conds_t (k + List.length (cond_args x)) cs' end.
Lemma concat_tph : forall l, concat (map placeholders (map tph l)) = l.
Proof. induction l as [|j l IH]; [reflexivity|]. cbn [map concat placeholders tph snd fst app]. f_equal. exact IH. Qed.
Lemma cond_placeholders : forall x k, placeholders (cond_t k x) = seq k (List.length (cond_args x)).
Proof.
  intros [c op v|c l|c l] k; unfold cond_t; rewrite ?placeholders_app, ?placeholders_join; cbn [cond_args List.length seq tlit]; try reflexivity;
    unfold placeholders at 1 3; cbn [snd map app]; rewrite concat_tph, app_nil_r; reflexivity.
Qed.
Lemma conds_placeholders : forall cs k, concat (map placeholders (conds_t k cs)) = seq k (List.length (flat_map cond_args cs)).
Proof.
  induction cs as [|x cs IH]; intros k; [reflexivity|]. cbn [conds_t map concat flat_map]. rewrite cond_placeholders, IH, List.app_length, seq_app. reflexivity.
Qed.
Lemma map_nth_seq : forall (f : nat -> string) phs k, (forall i, i < List.length phs -> f (k + i) = nth i phs "") ->
  map f (seq k (List.length phs)) = phs.
Proof.
  intros f phs. induction phs as [|x phs IH]; intros k H; [reflexivity|]. cbn [List.length seq map].
  rewrite <- (Nat.add_0_r k) at 1. rewrite (H 0) by (cbn; lia). cbn [nth]. f_equal. apply IH. intros i Hi.
  replace (S k + i) with (k + S i) by lia. apply (H (S i)). cbn. lia.
Qed.
Lemma cond_render : forall x k f phs, List.length phs = List.length (cond_args x) -> (forall i, i < List.length phs -> f (k + i) = nth i phs "") ->
  render f (cond_t k x) = cond_text x phs.
Proof.
  intros [c op v|c l|c l] k f phs Hl Hf; unfold cond_t, cond_text; rewrite ?render_app, ?render_join; cbn [cond_args List.length] in Hl.
  - destruct phs as [|p [|q phs]]; try discriminate. specialize (Hf 0 ltac:(cbn; lia)). rewrite Nat.add_0_r in Hf. cbn [nth] in Hf.
    unfold render. cbn [tlit tph fst snd fold_right append str_join]. rewrite Hf, !append_nil_r, append_assoc. reflexivity.
  - assert (E : map (render f) (map tph (seq k (List.length (flat l)))) = phs).
    { rewrite map_map, <- Hl. transitivity (map f (seq k (List.length phs))); [|apply map_nth_seq, Hf]. apply map_ext. intros j. unfold render. cbn. rewrite append_nil_r. reflexivity. }
    rewrite E. unfold render. cbn [tlit fst snd fold_right]. rewrite !append_nil_r, append_assoc. reflexivity.
  - assert (E : map (render f) (map tph (seq k (List.length (flat l)))) = phs).
    { rewrite map_map, <- Hl. transitivity (map f (seq k (List.length phs))); [|apply map_nth_seq, Hf]. apply map_ext. intros j. unfold render. cbn. rewrite append_nil_r. reflexivity. }
    rewrite E. unfold render. cbn [tlit fst snd fold_right]. rewrite !append_nil_r, append_assoc. reflexivity.
Qed.
Lemma nth_skip : forall {A} (l : list A) n i d, nth i (skipn n l) d = nth (n + i) l d.
Proof. intros A l n. revert l. induction n as [|n IH]; intros [|x l] i d; cbn [skipn nth Nat.add]; try reflexivity; [destruct i; reflexivity|apply IH]. Qed.
Lemma nth_firstn : forall {A} (l : list A) n i d, i < n -> nth i (firstn n l) d = nth i l d.
Proof. intros A l n. revert l. induction n as [|n IH]; intros l i d H; [lia|]. destruct l as [|x l]; [reflexivity|]. cbn [firstn]. destruct i; [reflexivity|]. cbn [nth]. apply IH. lia. Qed.
Lemma conds_render : forall cs k f phs, List.length phs = List.length (flat_map cond_args cs) -> (forall i, i < List.length phs -> f (k + i) = nth i phs "") ->
  map (render f) (conds_t k cs) = cond_texts cs phs.
Proof.
  induction cs as [|x cs IH]; intros k f phs Hl Hf; [reflexivity|]. cbn [conds_t map cond_texts]. cbn [flat_map] in Hl. rewrite List.app_length in Hl.
  assert (L1 : List.length (firstn (List.length (cond_args x)) phs) = List.length (cond_args x)) by (rewrite firstn_length; lia).
  f_equal.
  - apply cond_render; [exact L1|]. intros i Hi. rewrite L1 in Hi. rewrite nth_firstn by exact Hi. apply Hf. lia.
  - apply IH; [rewrite skipn_length; lia|]. intros i Hi. rewrite skipn_length in Hi. rewrite nth_skip, <- Nat.add_assoc. apply Hf. lia.
Qed.

Lemma col_plain : forall c, col_ok c = true -> plain_text (col_text c) = true.
Proof.
  intros [t x] H. unfold col_ok, col_text in *. cbn [fst snd] in *. apply andb_true_iff in H as [H1 H2].
  destruct (is_empty t); [apply word_plain_text, H2|]. rewrite !plain_app, (word_plain_text t H1), (word_plain_text x H2). reflexivity.
Qed.
Lemma table_plain : forall t, table_ok t = true -> plain_text (table_text t) = true.
Proof.
  intros [t x] H. unfold table_ok, table_text in *. cbn [fst snd] in *. apply andb_true_iff in H as [H1 H2].
  destruct (is_empty x); [apply word_plain_text, H1|]. rewrite !plain_app, (word_plain_text t H1), (word_plain_text x H2). reflexivity.
Qed.
Lemma join_plain : forall sep l, plain_text sep = true -> Forall (fun s => plain_text s = true) l -> plain_text (str_join sep l) = true.
Proof.
  intros sep l Hs. induction l as [|x l IH]; intros H; [reflexivity|]. inversion H as [|? ? Hx Hl]; subst. destruct l as [|y l]; [exact Hx|].
  cbn [str_join]. rewrite !plain_app, Hx, Hs. apply IH, Hl.
Qed.
Lemma clause_plain : forall w sep l, plain_text w = true -> plain_text sep = true -> Forall (fun s => plain_text s = true) l ->
  Forall (fun s => plain_text s = true) (list_clause w sep l).
Proof.
  intros w sep [|x l] Hw Hs H; [constructor|]. constructor; [|constructor]. rewrite !plain_app, Hw, join_plain by assumption. reflexivity.
Qed.
Lemma number_plain : forall w z, plain_text w = true -> Forall (fun s => plain_text s = true) (number_clause w z).
Proof.
  intros w z H. unfold number_clause. destruct (0 <? z)%Z; [|constructor]. constructor; [|constructor]. rewrite plain_app, H, itoa_plain. reflexivity.
Qed.
Lemma map_plain : forall {A} (f : A -> string) l, (forall x, In x l -> plain_text (f x) = true) -> Forall (fun s => plain_text s = true) (map f l).
Proof. intros A f l H. apply Forall_forall. intros y Hy. apply in_map_iff in Hy as (x & <- & Hx). apply H, Hx. Qed.
Lemma nth_alias_plain : forall i, plain_text (nth_alias i) = true.
Proof. exact alias_plain. Qed.
Lemma order_plain : forall o, plain_text (nth (N.to_nat o) order_words "") = true.
Proof.
  intros o. generalize (N.to_nat o). intros i. do 6 (destruct i as [|i]; [reflexivity|]). destruct i; reflexivity.
Qed.

Definition before_where (m : stmt) : list string :=
  (list_clause (if m_distinct m then "SELECT DISTINCT" else "SELECT") ", " (map col_text (m_cols m) ++ hidden_texts m) ++
   list_clause "FROM" " " (table_text (m_main m) :: map join_sql (m_shown m)))%list.
Definition after_where (m : stmt) : list string :=
  (list_clause "GROUP BY" ", " (map col_text (m_groups m)) ++ list_clause "ORDER BY" ", " (order_texts m) ++
   number_clause "LIMIT " (m_limit m) ++ number_clause "OFFSET " (m_offset m))%list.
Definition where_t (cs : list cond) : list text :=
  match cs with [] => [] | _ => [tapp (tlit "WHERE ") (tjoin " AND " (conds_t 0 cs))] end.
Definition stmt_t (m : stmt) : text :=
  tjoin " " (map tlit (before_where m) ++ where_t (m_conds m) ++ map tlit (after_where m)).

Lemma used_ok : forall m c, names_ok m -> In c (m_used m) -> col_ok c = true.
Proof.
  intros m c (_ & _ & _ & _ & H & _) Hc. rewrite Forall_forall in H. apply H, Hc.
Qed.
Lemma stmt_plain : forall m, names_ok m ->
  Forall (fun s => plain_text s = true) (before_where m) /\ Forall (fun s => plain_text s = true) (after_where m).
Proof.
  intros m Hok. pose proof (used_ok m) as U. pose proof Hok as (Hc & Hm & Hj & Hn & Hu & Hcs & Ho).
  specialize (fun c => U c Hok). unfold m_used in U.
  assert (Hh : Forall (fun s => plain_text s = true) (hidden_texts m)).
  { unfold hidden_texts. destruct (m_distinct m); [|constructor]. apply map_plain. intros [i [c o]] Hin. cbn [fst snd].
    apply in_combine_r in Hin. rewrite !plain_app, nth_alias_plain, (col_plain c); [reflexivity|]. apply U.
    apply in_or_app. right. apply in_or_app. right. apply in_or_app. right. apply in_or_app. left. apply in_map_iff. exists (c, o). auto. }
  apply conj; unfold before_where, after_where; repeat (apply Forall_app; apply conj).
  - apply clause_plain; [destruct (m_distinct m); reflexivity|reflexivity|]. apply Forall_app. split; [|exact Hh].
    apply map_plain. intros c Hin. apply col_plain, U. apply in_or_app. left. exact Hin.
  - apply clause_plain; [reflexivity|reflexivity|]. constructor; [apply table_plain, Hm|]. apply map_plain. intros j Hin. apply filter_In in Hin as [Hin _]. unfold join_sql.
    rewrite Forall_forall in Hj. rewrite !plain_app, (table_plain _ (Hj j Hin)), !col_plain; [destruct (j_kind j); reflexivity| |]; apply U;
      do 4 (apply in_or_app; right); apply in_or_app; [right|left]; apply in_map; exact Hin.
  - apply clause_plain; [reflexivity|reflexivity|]. apply map_plain. intros c Hin. apply col_plain, U. do 2 (apply in_or_app; right). apply in_or_app. left. exact Hin.
  - apply clause_plain; [reflexivity|reflexivity|]. unfold order_texts. apply map_plain. intros [i [c o]] Hin. apply in_combine_r in Hin.
    rewrite !plain_app, order_plain. assert (P : plain_text (col_text c) = true).
    { apply col_plain, U. do 3 (apply in_or_app; right). apply in_or_app. left. apply in_map_iff. exists (c, o). auto. }
    destruct (m_distinct m); [rewrite nth_alias_plain|rewrite P]; reflexivity.
  - apply number_plain. reflexivity.
  - apply number_plain. reflexivity.
Qed.
Lemma cond_clean : forall x k, cond_ok x -> clean_text (cond_t k x).
Proof.
  assert (L : forall k n, clean_text (tjoin ", " (map tph (seq k n)))).
  { intros k n. apply clean_join; [apply passive_plain; reflexivity|split; [discriminate|reflexivity]|]. apply Forall_forall. intros t Ht.
    apply in_map_iff in Ht as (j & <- & _). apply clean_ph. }
  intros x k [Hc Hx]. apply col_plain in Hc. destruct x as [c op v|c l|c l]; cbn [cond_t cond_col] in *.
  - apply clean_app; [apply clean_lit, passive_plain; rewrite plain_app, Hc; apply operator_plain, Hx|apply clean_ph|left; reflexivity].
  - apply clean_app; [apply clean_lit, passive_plain; rewrite plain_app, Hc; reflexivity| |left; reflexivity].
    apply clean_app; [apply L|apply clean_lit, passive_plain; reflexivity|right; split; [discriminate|reflexivity]].
  - apply clean_app; [apply clean_lit, passive_plain; rewrite plain_app, Hc; reflexivity| |left; reflexivity].
    apply clean_app; [apply L|apply clean_lit, passive_plain; reflexivity|right; split; [discriminate|reflexivity]].
Qed.
Lemma conds_clean : forall cs k, Forall cond_ok cs -> Forall clean_text (conds_t k cs).
Proof. induction cs as [|x cs IH]; intros k H; [constructor|]. inversion H; subst. constructor; [apply cond_clean; assumption|apply IH; assumption]. Qed.
Lemma lits_clean : forall l, Forall (fun s => plain_text s = true) l -> Forall clean_text (map tlit l).
Proof. intros l H. apply Forall_forall. intros t Ht. apply in_map_iff in Ht as (s & <- & Hs). rewrite Forall_forall in H. apply clean_lit, passive_plain, H, Hs. Qed.
Lemma lits_render : forall f l, map (render f) (map tlit l) = l.
Proof. intros f l. rewrite map_map. rewrite <- (map_id l) at 2. apply map_ext. intros s. unfold render. cbn. apply append_nil_r. Qed.
Lemma lits_placeholders : forall l, concat (map placeholders (map tlit l)) = [].
Proof. induction l as [|s l IH]; [reflexivity|exact IH]. Qed.

Theorem stmt_text : forall m, stmt_ok m -> clean_text (stmt_t m) /\ placeholders (stmt_t m) = seq 0 (List.length (m_args m)) /\
  forall f phs, List.length phs = List.length (m_args m) -> (forall j, j < List.length phs -> f j = nth j phs "") -> render f (stmt_t m) = sql m phs.
Proof.
  intros m Hok. destruct (stmt_plain m (proj1 Hok)) as [P1 P2]. split; [|split].
  - apply clean_join; [apply passive_plain; reflexivity|split; [discriminate|reflexivity]|]. repeat (apply Forall_app; split); try (apply lits_clean; assumption).
    unfold where_t. assert (Hc : Forall cond_ok (m_conds m)) by apply Hok. destruct (m_conds m) as [|x cs] eqn:E; [constructor|]. constructor; [|constructor].
    apply clean_app; [apply clean_lit, passive_plain; reflexivity| |left; reflexivity].
    apply clean_join; [apply passive_plain; reflexivity|split; [discriminate|reflexivity]|]. apply conds_clean. exact Hc.
  - unfold stmt_t. rewrite placeholders_join, !map_app, !concat_app, !lits_placeholders, app_nil_r. cbn [app]. unfold where_t, m_args.
    destruct (m_conds m) as [|x cs] eqn:E; [reflexivity|]. cbn [map concat]. rewrite app_nil_r, placeholders_app, placeholders_join, conds_placeholders. reflexivity.
  - intros f phs Hl Hf. unfold stmt_t. rewrite render_join, !map_app, !lits_render. unfold sql, before_where, after_where. rewrite <- !app_assoc. do 3 f_equal.
    unfold where_t. unfold m_args in Hl. pose proof (conds_render (m_conds m) 0 f phs Hl Hf) as C. destruct (m_conds m) as [|x cs] eqn:E; [reflexivity|].
    cbn [map]. rewrite render_app, render_join, C. reflexivity.
Qed.

Lemma f2_len : forall {A B} (R : A -> B -> Prop) l l', Forall2 R l l' -> List.length l = List.length l'.
Proof. intros A B R l l' H. induction H; cbn; congruence. Qed.
Lemma f2_nth : forall {A B} (R : A -> B -> Prop) l l' j x d, Forall2 R l l' -> nth_error l j = Some x -> R x (nth j l' d) /\ nth_error l' j = Some (nth j l' d).
Proof.
  intros A B R l l' j x d H. revert j. induction H as [|a b l l' Hab H IH]; intros [|j] N; try discriminate; cbn [nth_error nth] in *.
  - injection N as <-. auto.
  - apply IH, N.
Qed.
Theorem stmt_shown_question : forall ft m os style lits, style <> style_dollar -> stmt_ok m -> describes os m -> Forall2 (literal ft) (m_args m) lits ->
  exists q, apply_ops os new_qb = ROk q /\
    forall n, 5 + m_size m <= n -> exists s args, fst (build_query n style [q] (BQuery (Some 0))) = ROk (s, args) /\ interpolate ft s args = ROk (sql m lits).
Proof.
  intros ft m os style lits Hs Hok Hd Hl. destruct (query_sql_question m os style Hs Hok Hd) as (q & Hq & B). exists q. split; [exact Hq|].
  intros n Hn. eexists. eexists. split; [exact (B n Hn)|]. destruct (stmt_text m Hok) as (C & P & R).
  assert (Rq : render qmark (stmt_t m) = sql m (map (fun _ => "?") (m_args m))).
  { apply R; [apply map_length|]. intros j Hj. rewrite map_length in Hj. apply nth_error_Some in Hj.
    destruct (nth_error (m_args m) j) as [v|] eqn:N; [|congruence]. symmetry. apply nth_error_nth. rewrite nth_error_map, N. reflexivity. }
  assert (Rl : render (fun j => nth j lits "") (stmt_t m) = sql m lits) by (apply R; [symmetry; eapply f2_len; exact Hl|intros j _; reflexivity]).
  rewrite <- Rq, <- Rl.
  apply (question_text ft (m_args m) (fun j => nth j lits "") (stmt_t m) (List.length (m_args m)) C P). intros j Hj. apply nth_error_Some in Hj.
  destruct (nth_error (m_args m) j) as [v|] eqn:N; [|congruence]. exists v. split; [reflexivity|]. apply (f2_nth _ _ _ _ _ "" Hl N).
Qed.
Lemma firsts_in : forall l seen w, In w (firsts seen l) -> In w l.
Proof.
  induction l as [|v l IH]; intros seen w H; [contradiction|]. cbn [firsts] in H. destruct (existsb (go_eq v) seen).
  - right. eapply IH. exact H.
  - destruct H as [->|H]; [left; reflexivity|right; eapply IH; exact H].
Qed.
Lemma firsts_len : forall l seen, List.length (firsts seen l) <= List.length l.
Proof. induction l as [|v l IH]; intros seen; [auto|]. cbn [firsts]. specialize (IH (v :: seen)). destruct (existsb (go_eq v) seen); cbn [List.length]; lia. Qed.
Theorem stmt_shown_dollar : forall ft m os lits, stmt_ok m -> describes os m -> forallb hashable (m_args m) = true ->
  (Z.of_nat (List.length (m_args m)) < 9223372036854775808)%Z -> Forall2 (literal ft) (m_args m) lits -> literal_by_value ft (m_args m) ->
  exists q, apply_ops os new_qb = ROk q /\
    forall n, 5 + m_size m <= n -> exists s args, fst (build_query n style_dollar [q] (BQuery (Some 0))) = ROk (s, args) /\ interpolate ft s args = ROk (sql m lits).
Proof.
  intros ft m os lits Hok Hd Hh Hb Hl Hv. destruct (query_sql_dollar m os Hok Hd Hh) as (q & phs & Hq & D & B). exists q. split; [exact Hq|].
  intros n Hn. eexists. eexists. split; [exact (B n Hn)|]. destruct (stmt_text m Hok) as (C & P & R).
  assert (Rp : render (fun j => nth j phs "") (stmt_t m) = sql m phs) by (apply R; [eapply f2_len; exact D|intros j _; reflexivity]).
  assert (Rl : render (fun j => nth j lits "") (stmt_t m) = sql m lits) by (apply R; [symmetry; eapply f2_len; exact Hl|intros j _; reflexivity]).
  rewrite <- Rp, <- Rl. apply (dollar_text ft (firsts [] (m_args m)) (fun j => nth j lits "")).
  - pose proof (firsts_len (m_args m) []). lia.
  - exact C.
  - intros j Hj. rewrite P in Hj. apply in_seq in Hj. assert (Hj' : j < List.length phs) by (rewrite (f2_len _ _ _ D); lia).
    apply nth_error_Some in Hj'. destruct (nth_error phs j) as [ph|] eqn:N; [|congruence].
    destruct (f2_nth _ _ _ _ _ VNil D N) as [(k & w & E & Hk & Nw & Sv) Nv]. rewrite (nth_error_nth phs j "" N).
    exists k, w. split; [exact E|]. split; [exact Hk|]. split; [exact Nw|].
    destruct (f2_nth _ _ _ _ _ "" Hl Nv) as [L _]. apply nth_error_In in Nw. apply firsts_in in Nw.
    destruct Sv as [Sv|Sv]; [rewrite <- Sv; exact L|]. eapply Hv; [eapply nth_error_In; exact Nv|exact Nw|exact Sv|exact L].
Qed.

Theorem order_shown : forall ft v w x y, literal ft v x -> literal ft w y -> exists q,
  apply_ops (two_args v w) new_qb = ROk q /\
  forall n, 10 <= n -> exists s args, fst (build_query n style_question [q] (BQuery (Some 0))) = ROk (s, args) /\
    interpolate ft s args = ROk ("SELECT " ++ y ++ " AS x FROM a WHERE y=" ++ x).
Proof.
  intros ft v w x y Hv Hw. eexists. apply conj; [vm_compute; reflexivity|]. intros n Hn.
  exists "SELECT ? AS x FROM a WHERE y=?", [w; v]. apply conj.
  - do 10 (destruct n as [|n]; [exfalso; lia|]). clear Hn. vm_compute. reflexivity.
  - set (t := ("SELECT ", [(0, " AS x FROM a WHERE y="); (1, "")]) : text).
    assert (C : clean_text t).
    { apply conj; [apply passive_plain; reflexivity|]. cbn [snd t apart]. repeat apply conj; try (apply passive_plain); try reflexivity; try discriminate. }
    assert (K : forall j, j < 2 -> exists u, nth_error [w; v] j = Some u /\ literal ft u ((fun i => match i with 0 => y | _ => x end) j)).
    { intros [|[|j]] Hj; [exists w|exists v|exfalso; lia]; (apply conj; [reflexivity|assumption]). }
    pose proof (question_text ft [w; v] _ t 2 C eq_refl K) as Q.
    change (render qmark t) with "SELECT ? AS x FROM a WHERE y=?" in Q. rewrite Q. unfold render. cbn [t fst snd tail map concat]. cbn. rewrite ?append_nil_r. reflexivity.
Qed.
